(** Mean values of cosines for the frequencies of the Fourier field. *)
From Coq Require Import Reals Lra.
From Coquelicot Require Import Coquelicot.
From Verif Require Import Base.
Open Scope R_scope.

(** ** Taylor polynomials of cosine and sine *)
Fixpoint cosp (M : nat) (x : R) : R := match M with O => 1 | S n => cosp n x + (-1) ^ S n * (x ^ (2 * S n) / INR (fact (2 * S n))) end.
Fixpoint sinp (M : nat) (x : R) : R := match M with O => x | S n => sinp n x + (-1) ^ S n * (x ^ (2 * S n + 1) / INR (fact (2 * S n + 1))) end.

Lemma monomial_derive n x : is_derive (fun y => y ^ S n / INR (fact (S n))) x (x ^ n / INR (fact n)).
Proof.
  apply (is_derive_ext (fun y => / INR (fact (S n)) * y ^ S n)); [intros y; apply Rmult_comm|].
  replace (x ^ n / INR (fact n)) with (/ INR (fact (S n)) * (INR (S n) * 1 * x ^ Init.Nat.pred (S n))).
  - apply (is_derive_scal (fun y => y ^ S n)). apply (is_derive_pow (fun y => y) (S n) x 1). apply (is_derive_id x).
  - change (Init.Nat.pred (S n)) with n. change (fact (S n)) with (S n * fact n)%nat. rewrite mult_INR.
    field. split; [apply INR_fact_neq_0|apply not_0_INR; lia].
Qed.

Lemma growth (f f' : R -> R) n : f 0 = 0 -> (forall x, is_derive f x (f' x)) -> (forall x, 0 <= x -> Rabs (f' x) <= x ^ n / INR (fact n)) ->
  forall x, 0 <= x -> Rabs (f x) <= x ^ S n / INR (fact (S n)).
Proof.
  intros F0 D B.
  assert (U : forall g g' : R -> R, g 0 = 0 -> (forall x, is_derive g x (g' x)) -> (forall x, 0 <= x -> g' x <= x ^ n / INR (fact n)) ->
    forall x, 0 <= x -> g x <= x ^ S n / INR (fact (S n))).
  { intros g g' G0 Dg Bg x Hx. set (h := fun y => y ^ S n / INR (fact (S n)) - g y).
    assert (Dh : forall y, is_derive h y (y ^ n / INR (fact n) - g' y)).
    { intros y. apply (is_derive_minus (fun y => y ^ S n / INR (fact (S n))) g); [apply monomial_derive|apply Dg]. }
    destruct (MVT_gen h 0 x (fun y => y ^ n / INR (fact n) - g' y)) as (c & Hc & E).
    + intros; apply Dh.
    + intros y _. apply continuity_pt_filterlim. apply (ex_derive_continuous h). eexists; apply Dh.
    + rewrite Rmin_left, Rmax_right in Hc by lra.
      assert (H0 : h 0 = 0). { unfold h. rewrite G0. cbn [pow]. unfold Rdiv. ring. }
      rewrite H0 in E. unfold h in E. pose proof (Bg c ltac:(lra)). nra. }
  intros x Hx. apply Rabs_le. split.
  - pose proof (U (fun y => - f y) (fun y => - f' y)) as V. assert (E0 : - f 0 = 0) by (rewrite F0; ring).
    assert (W : - f x <= x ^ S n / INR (fact (S n))). { apply V; [exact E0|exact (fun y => is_derive_opp f y (f' y) (D y))| |exact Hx]. intros y Hy. pose proof (B y Hy). pose proof (Rabs_maj2 (f' y)). lra. }
    lra.
  - apply (U f f' F0 D); [|exact Hx]. intros y Hy. pose proof (B y Hy). pose proof (Rle_abs (f' y)). lra.
Qed.

Lemma cosp_0 M : cosp M 0 = 1.
Proof. induction M as [|M IH]; [reflexivity|]. cbn [cosp]. rewrite IH. rewrite pow_i by lia. unfold Rdiv. ring. Qed.
Lemma sinp_0 M : sinp M 0 = 0.
Proof. induction M as [|M IH]; [reflexivity|]. cbn [sinp]. rewrite IH. rewrite pow_i by lia. unfold Rdiv. ring. Qed.
Lemma sinp_derive M x : is_derive (sinp M) x (cosp M x).
Proof.
  induction M as [|M IH]; [apply (is_derive_id x)|]. cbn [cosp sinp].
  apply (is_derive_plus (sinp M) (fun y => (-1) ^ S M * (y ^ (2 * S M + 1) / INR (fact (2 * S M + 1))))); [exact IH|].
  apply (is_derive_scal (fun y => y ^ (2 * S M + 1) / INR (fact (2 * S M + 1))) x ((-1) ^ S M)).
  replace (2 * S M + 1)%nat with (S (2 * S M)) by lia. apply monomial_derive.
Qed.
Lemma cosp_derive M x : is_derive (cosp (S M)) x (- sinp M x).
Proof.
  induction M as [|M IH].
  - cbn [sinp]. apply (is_derive_ext (fun y => 1 + - (y * y / 2))); [intros y; cbn; field|]. auto_derive; [exact I|]. field.
  - change (cosp (S (S M))) with (fun y => cosp (S M) y + (-1) ^ S (S M) * (y ^ (2 * S (S M)) / INR (fact (2 * S (S M))))).
    replace (- sinp (S M) x) with (- sinp M x + (-1) ^ S (S M) * (x ^ (2 * S M + 1) / INR (fact (2 * S M + 1)))) by (cbn [sinp pow]; ring).
    apply (is_derive_plus (cosp (S M)) (fun y => (-1) ^ S (S M) * (y ^ (2 * S (S M)) / INR (fact (2 * S (S M)))))); [exact IH|].
    apply (is_derive_scal (fun y => y ^ (2 * S (S M)) / INR (fact (2 * S (S M)))) x ((-1) ^ S (S M))).
    replace (2 * S (S M))%nat with (S (2 * S M + 1)) by lia. apply monomial_derive.
Qed.

Lemma taylor_pos M : (forall x, 0 <= x -> Rabs (cos x - cosp M x) <= x ^ (2 * S M) / INR (fact (2 * S M))) /\
  (forall x, 0 <= x -> Rabs (sin x - sinp M x) <= x ^ (2 * S M + 1) / INR (fact (2 * S M + 1))).
Proof.
  assert (step : forall M, (forall x, 0 <= x -> Rabs (cos x - cosp M x) <= x ^ (2 * S M) / INR (fact (2 * S M))) ->
     forall x, 0 <= x -> Rabs (sin x - sinp M x) <= x ^ (2 * S M + 1) / INR (fact (2 * S M + 1))).
  { intros N H. replace (2 * S N + 1)%nat with (S (2 * S N)) by lia.
    apply (growth (fun x => sin x - sinp N x) (fun x => cos x - cosp N x) (2 * S N)); [|intros x|exact H].
    - rewrite sin_0, sinp_0. ring.
    - apply (is_derive_minus sin (sinp N)); [apply is_derive_sin|apply sinp_derive]. }
  induction M as [|M [_ IH]].
  - assert (H : forall x, 0 <= x -> Rabs (cos x - cosp 0 x) <= x ^ (2 * 1) / INR (fact (2 * 1))).
    { replace (2 * 1)%nat with 2%nat by lia.
      apply (growth (fun x => cos x - cosp 0 x) (fun x => - sin x) 1).
      - rewrite cos_0, cosp_0. ring.
      - intros x. cbn [cosp]. auto_derive; [exact I|ring].
      - intros x Hx. rewrite Rabs_Ropp. apply (growth sin cos 0); [apply sin_0|apply is_derive_sin| |exact Hx].
        intros y _. cbn. unfold Rdiv. rewrite Rinv_1, Rmult_1_r. apply Rabs_le. pose proof (COS_bound y). lra. }
    split; [exact H|apply step, H].
  - assert (H : forall x, 0 <= x -> Rabs (cos x - cosp (S M) x) <= x ^ (2 * S (S M)) / INR (fact (2 * S (S M)))).
    { replace (2 * S (S M))%nat with (S (2 * S M + 1)) by lia.
      apply (growth (fun x => cos x - cosp (S M) x) (fun x => - sin x - - sinp M x) (2 * S M + 1)).
      - rewrite cos_0, cosp_0. ring.
      - intros x. apply (is_derive_minus cos (cosp (S M))); [apply is_derive_cos|apply cosp_derive].
      - intros x Hx. replace (- sin x - - sinp M x) with (- (sin x - sinp M x)) by ring. rewrite Rabs_Ropp. apply IH, Hx. }
    split; [exact H|apply step, H].
Qed.

Lemma pow_even_opp x n : (- x) ^ (2 * n) = x ^ (2 * n).
Proof. rewrite !pow_mult. f_equal. ring. Qed.
Lemma cosp_opp M x : cosp M (- x) = cosp M x.
Proof. induction M as [|M IH]; [reflexivity|]. cbn [cosp]. rewrite IH, pow_even_opp. reflexivity. Qed.
(** Remainder of the Taylor polynomial of cosine. *)
Lemma taylor M x : Rabs (cos x - cosp M x) <= x ^ (2 * S M) / INR (fact (2 * S M)).
Proof.
  destruct (Rle_dec 0 x) as [H|H]; [apply taylor_pos, H|].
  rewrite <- (Ropp_involutive x). rewrite cos_neg, cosp_opp, pow_even_opp. apply taylor_pos. lra.
Qed.

(** ** Mean over the angle *)
Section Angle.
Variables d1 d2 : R.
Definition gfun (v : R) : R := d1 * cos (2 * PI * v) + d2 * sin (2 * PI * v).
Definition hfun (v : R) : R := - d1 * sin (2 * PI * v) + d2 * cos (2 * PI * v).
Definition dsq : R := d1 ^ 2 + d2 ^ 2.

Lemma gfun_derive v : is_derive gfun v (2 * PI * hfun v).
Proof. unfold gfun, hfun. auto_derive; [exact I|]. ring. Qed.
Lemma hfun_derive v : is_derive hfun v (- (2 * PI * gfun v)).
Proof. unfold gfun, hfun. auto_derive; [exact I|]. ring. Qed.
Lemma gh_sqr v : hfun v ^ 2 = dsq - gfun v ^ 2.
Proof. unfold gfun, hfun, dsq. pose proof (sin2_cos2 (2 * PI * v)) as E. unfold Rsqr in E. nra. Qed.
Lemma gfun_cont v : continuous gfun v.
Proof. apply (ex_derive_continuous gfun). eexists. apply gfun_derive. Qed.
Lemma gpow_cont n v : continuous (fun v => gfun v ^ n) v.
Proof.
  apply (ex_derive_continuous (fun v => gfun v ^ n)). eexists. apply (is_derive_pow gfun n v). apply gfun_derive.
Qed.
Lemma gpow_ex n : ex_RInt (fun v => gfun v ^ n) 0 1.
Proof. apply (ex_RInt_continuous (V := R_CompleteNormedModule)). intros v _. apply gpow_cont. Qed.

Fixpoint wallis (m : nat) : R := match m with O => 1 | S n => wallis n * ((2 * INR n + 1) / (2 * INR n + 2)) end.
Lemma wallis_fact m : wallis m * (4 ^ m * INR (fact m) ^ 2) = INR (fact (2 * m)).
Proof.
  induction m as [|m IH]; [cbn; ring|]. cbn [wallis]. replace (2 * S m)%nat with (S (S (2 * m))) by lia.
  rewrite !fact_simpl, !mult_INR, <- IH, !S_INR, mult_INR. change (INR 2) with 2. cbn [pow]. pose proof (pos_INR m). field. lra.
Qed.

Lemma circle_period : gfun 1 = gfun 0 /\ hfun 1 = hfun 0.
Proof.
  unfold gfun, hfun. rewrite !Rmult_0_r, !Rmult_1_r, cos_0, sin_0, cos_2PI, sin_2PI. split; reflexivity.
Qed.

Lemma circle_step m : 2 * (INR m + 1) * RInt (fun v => gfun v ^ (2 * S m)) 0 1 = (2 * INR m + 1) * dsq * RInt (fun v => gfun v ^ (2 * m)) 0 1.
Proof.
  set (P := fun v => gfun v ^ (2 * m + 1) * hfun v).
  set (P' := fun v => (2 * PI) * ((2 * INR m + 1) * dsq * gfun v ^ (2 * m) - 2 * (INR m + 1) * gfun v ^ (2 * S m))).
  assert (D : forall v, is_derive P v (P' v)).
  { intros v. replace (P' v) with ((INR (2 * m + 1) * (2 * PI * hfun v) * gfun v ^ Init.Nat.pred (2 * m + 1)) * hfun v + gfun v ^ (2 * m + 1) * (- (2 * PI * gfun v))).
    - apply (is_derive_mult (fun v => gfun v ^ (2 * m + 1)) hfun v).
      + apply (is_derive_pow gfun (2 * m + 1) v). apply gfun_derive.
      + apply hfun_derive.
      + intros; apply Rmult_comm.
    - unfold P'. replace (Init.Nat.pred (2 * m + 1)) with (2 * m)%nat by lia.
      replace (2 * S m)%nat with (2 * m + 2)%nat by lia. rewrite !pow_add, plus_INR, mult_INR. change (INR 2) with 2. change (INR 1) with 1.
      transitivity (2 * PI * ((2 * INR m + 1) * gfun v ^ (2 * m) * hfun v ^ 2 - gfun v ^ (2 * m) * gfun v ^ 2)); [ring|]. rewrite gh_sqr. ring. }
  assert (I : is_RInt P' 0 1 (P 1 - P 0)).
  { apply (is_RInt_derive P P').
    - intros v _. apply D.
    - intros v _. unfold P'. apply (continuous_scal_r (V := R_NormedModule) (2 * PI)).
      apply (continuous_minus (V := R_NormedModule)); [|]; apply (continuous_scal_r (V := R_NormedModule) _ (fun v => gfun v ^ _)); apply gpow_cont. }
  assert (Z : P 1 - P 0 = 0). { unfold P. destruct circle_period as [-> ->]. ring. }
  rewrite Z in I.
  assert (J : is_RInt P' 0 1 (2 * PI * ((2 * INR m + 1) * dsq * RInt (fun v => gfun v ^ (2 * m)) 0 1 - 2 * (INR m + 1) * RInt (fun v => gfun v ^ (2 * S m)) 0 1))).
  { apply (is_RInt_scal (V := R_NormedModule) (fun v => (2 * INR m + 1) * dsq * gfun v ^ (2 * m) - 2 * (INR m + 1) * gfun v ^ (2 * S m)) 0 1 (2 * PI)).
    apply (is_RInt_minus (V := R_NormedModule) (fun v => (2 * INR m + 1) * dsq * gfun v ^ (2 * m)) (fun v => 2 * (INR m + 1) * gfun v ^ (2 * S m))).
    - apply (is_RInt_scal (V := R_NormedModule) (fun v => gfun v ^ (2 * m))). apply (RInt_correct (V := R_CompleteNormedModule)). apply gpow_ex.
    - apply (is_RInt_scal (V := R_NormedModule) (fun v => gfun v ^ (2 * S m))). apply (RInt_correct (V := R_CompleteNormedModule)). apply gpow_ex. }
  apply (is_RInt_unique (V := R_CompleteNormedModule)) in I. apply (is_RInt_unique (V := R_CompleteNormedModule)) in J. rewrite I in J.
  pose proof PI_RGT_0. nra.
Qed.

Lemma circle_moment m : RInt (fun v => gfun v ^ (2 * m)) 0 1 = dsq ^ m * wallis m.
Proof.
  induction m as [|m IH].
  - transitivity (RInt (V := R_CompleteNormedModule) (fun _ => 1) 0 1); [apply RInt_ext; intros; reflexivity|].
    rewrite (RInt_const (V := R_CompleteNormedModule)). assert (E : (1 - 0) * 1 = 1 * 1) by ring. exact E.
  - pose proof (circle_step m) as E. rewrite IH in E. pose proof (pos_INR m) as Hm.
    apply (Rmult_eq_reg_l (2 * (INR m + 1))); [|lra]. rewrite E. cbn [wallis pow]. field. lra.
Qed.

(** Mean of the cosine. *)
Definition ring_mean (s : R) : R := RInt (fun v => cos (s * gfun v)) 0 1.
Lemma cosg_cont s v : continuous (fun v => cos (s * gfun v)) v.
Proof.
  apply (ex_derive_continuous (fun v => cos (s * gfun v))). eexists.
  apply (is_derive_comp cos (fun v => s * gfun v)); [apply is_derive_cos|]. apply (is_derive_scal gfun v s). apply gfun_derive.
Qed.
Lemma cosg_ex s : ex_RInt (fun v => cos (s * gfun v)) 0 1.
Proof. apply (ex_RInt_continuous (V := R_CompleteNormedModule)). intros v _. apply cosg_cont. Qed.
Lemma gfun_bound v : Rabs (gfun v) <= Rabs d1 + Rabs d2.
Proof.
  unfold gfun. eapply Rle_trans; [apply Rabs_triang|]. rewrite !Rabs_mult.
  assert (Rabs (cos (2 * PI * v)) <= 1) by (apply Rabs_le; pose proof (COS_bound (2 * PI * v)); lra).
  assert (Rabs (sin (2 * PI * v)) <= 1) by (apply Rabs_le; pose proof (SIN_bound (2 * PI * v)); lra).
  pose proof (Rabs_pos d1). pose proof (Rabs_pos d2). nra.
Qed.
Lemma cos_lip x y : Rabs (cos x - cos y) <= Rabs (x - y).
Proof.
  destruct (MVT_gen cos y x (fun z => - sin z)) as (c & _ & E).
  - intros; apply is_derive_cos.
  - intros z _. apply continuity_cos.
  - rewrite E, Rabs_mult. rewrite Rabs_Ropp. assert (Rabs (sin c) <= 1) by (apply Rabs_le; pose proof (SIN_bound c); lra).
    pose proof (Rabs_pos (x - y)). nra.
Qed.
Lemma ring_lip s s' : Rabs (ring_mean s - ring_mean s') <= Rabs (s - s') * (Rabs d1 + Rabs d2).
Proof.
  unfold ring_mean.
  assert (E : RInt (fun v => cos (s * gfun v)) 0 1 - RInt (fun v => cos (s' * gfun v)) 0 1 = RInt (V := R_CompleteNormedModule) (fun v => cos (s * gfun v) - cos (s' * gfun v)) 0 1).
  { symmetry. apply (is_RInt_unique (V := R_CompleteNormedModule)).
    apply (is_RInt_minus (V := R_NormedModule) (fun v => cos (s * gfun v)) (fun v => cos (s' * gfun v))); apply (RInt_correct (V := R_CompleteNormedModule)), cosg_ex. }
  rewrite E.
  replace (Rabs (s - s') * (Rabs d1 + Rabs d2)) with ((1 - 0) * (Rabs (s - s') * (Rabs d1 + Rabs d2))) by ring.
  apply (abs_RInt_le_const (fun v => cos (s * gfun v) - cos (s' * gfun v))); [lra| |].
  - apply (ex_RInt_minus (V := R_NormedModule) (fun v => cos (s * gfun v)) (fun v => cos (s' * gfun v))); apply cosg_ex.
  - intros v _. eapply Rle_trans; [apply cos_lip|]. replace (s * gfun v - s' * gfun v) with ((s - s') * gfun v) by ring.
    rewrite Rabs_mult. apply Rmult_le_compat_l; [apply Rabs_pos|apply gfun_bound].
Qed.
Lemma ring_cont s : continuous ring_mean s.
Proof.
  apply continuity_pt_filterlim. intros eps He. set (k := Rabs d1 + Rabs d2 + 1).
  assert (K : 0 < k) by (unfold k; pose proof (Rabs_pos d1); pose proof (Rabs_pos d2); lra).
  exists (eps / k). split; [apply Rdiv_lt_0_compat; assumption|]. intros x [_ Hx]. cbn in *. unfold R_dist in *.
  eapply Rle_lt_trans; [apply ring_lip|]. apply (Rle_lt_trans _ (Rabs (x - s) * k)).
  - apply Rmult_le_compat_l; [apply Rabs_pos|unfold k; lra].
  - replace eps with (eps / k * k) by (field; lra). apply Rmult_lt_compat_r; assumption.
Qed.

(** Series of the mean. *)
Fixpoint jp (M : nat) (y : R) : R := match M with O => 1 | S n => jp n y + (-1) ^ S n * (y ^ S n / INR (fact (S n)) ^ 2) end.
Lemma moment_term s m : is_RInt (fun v => (s * gfun v) ^ (2 * m) / INR (fact (2 * m))) 0 1 ((s ^ 2 * dsq / 4) ^ m / INR (fact m) ^ 2).
Proof.
  replace ((s ^ 2 * dsq / 4) ^ m / INR (fact m) ^ 2) with ((s ^ (2 * m) / INR (fact (2 * m))) * (dsq ^ m * wallis m)).
  - rewrite <- circle_moment.
    apply (is_RInt_ext (V := R_NormedModule) (fun v => (s ^ (2 * m) / INR (fact (2 * m))) * gfun v ^ (2 * m))).
    + intros v _. assert (E : s ^ (2 * m) / INR (fact (2 * m)) * gfun v ^ (2 * m) = (s * gfun v) ^ (2 * m) / INR (fact (2 * m))) by (rewrite Rpow_mult_distr; unfold Rdiv; ring). exact E.
    + apply (is_RInt_scal (V := R_NormedModule) (fun v => gfun v ^ (2 * m))). apply (RInt_correct (V := R_CompleteNormedModule)), gpow_ex.
  - rewrite <- wallis_fact. replace (s ^ 2 * dsq / 4) with (s ^ 2 * (dsq * / 4)) by field.
    rewrite !Rpow_mult_distr, <- pow_mult, pow_inv. assert (wallis m <> 0).
    { intros W. pose proof (wallis_fact m) as E. rewrite W, Rmult_0_l in E. symmetry in E. apply (INR_fact_neq_0 _ E). }
    field. repeat split; [apply pow_nonzero; lra|apply INR_fact_neq_0|assumption].
Qed.
Lemma ring_poly s M : is_RInt (fun v => cosp M (s * gfun v)) 0 1 (jp M (s ^ 2 * dsq / 4)).
Proof.
  induction M as [|M IH].
  - cbn [cosp jp]. assert (E : (1 - 0) * 1 = 1) by ring. pose proof (is_RInt_const (V := R_NormedModule) 0 1 (1 : R)) as C.
    change (scal (1 - 0) (1 : R)) with ((1 - 0) * 1) in C. rewrite E in C. exact C.
  - cbn [cosp jp]. apply (is_RInt_plus (V := R_NormedModule) (fun v => cosp M (s * gfun v))); [exact IH|].
    apply (is_RInt_scal (V := R_NormedModule) (fun v => (s * gfun v) ^ (2 * S M) / INR (fact (2 * S M)))). apply moment_term.
Qed.
Lemma ring_bound s M : Rabs (ring_mean s - jp M (s ^ 2 * dsq / 4)) <= (s ^ 2 * dsq / 4) ^ S M / INR (fact (S M)) ^ 2.
Proof.
  set (y := s ^ 2 * dsq / 4).
  assert (I : is_RInt (fun v => cos (s * gfun v) - cosp M (s * gfun v)) 0 1 (ring_mean s - jp M y)).
  { apply (is_RInt_minus (V := R_NormedModule) (fun v => cos (s * gfun v)) (fun v => cosp M (s * gfun v))); [apply (RInt_correct (V := R_CompleteNormedModule)), cosg_ex|apply ring_poly]. }
  apply (norm_RInt_le (V := R_NormedModule) (fun v => cos (s * gfun v) - cosp M (s * gfun v)) (fun v => (s * gfun v) ^ (2 * S M) / INR (fact (2 * S M))) 0 1); [lra| |exact I|apply moment_term].
  intros v _. apply taylor.
Qed.
End Angle.
