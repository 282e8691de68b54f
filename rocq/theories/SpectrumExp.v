(** Mean over the radius: the exponential function. *)
From Coq Require Import Reals Lra.
From Coquelicot Require Import Coquelicot.
From Verif Require Import Base SpectrumSpec SpectrumFacts.
Open Scope R_scope.

(** ** Mean over the angle as a power series *)
Definition bc (n : nat) : R := (-1) ^ n / INR (fact n) ^ 2.
Definition b0 (q : R) : R := PSeries bc q.
Definition b1 (q : R) : R := PSeries (PS_derive bc) q.
Definition b2 (q : R) : R := PSeries (PS_derive (PS_derive bc)) q.
Lemma fact_nz n : INR (fact n) <> 0. Proof. apply INR_fact_neq_0. Qed.
Lemma bc_step n : bc (S n) * (INR n + 1) ^ 2 = - bc n.
Proof.
  unfold bc. rewrite fact_simpl, mult_INR, S_INR. cbn [pow]. pose proof (pos_INR n). pose proof (fact_nz n). field. split; [assumption|lra].
Qed.
Lemma bc_nz n : bc n <> 0.
Proof. unfold bc. apply Rmult_integral_contrapositive. split; [apply pow_nonzero; lra|apply Rinv_neq_0_compat, pow_nonzero, fact_nz]. Qed.
Lemma bc_radius : CV_radius bc = p_infty.
Proof.
  apply CV_radius_infinite_DAlembert; [apply bc_nz|].
  apply (is_lim_seq_ext (fun n => / (INR (S n)) * / INR (S n))).
  - intros n. assert (E : bc (S n) / bc n = - (/ (INR (S n)) * / INR (S n))).
    { pose proof (bc_step n) as E. pose proof (bc_nz n) as N. pose proof (pos_INR n). rewrite S_INR. apply (Rmult_eq_reg_r ((INR n + 1) ^ 2 * bc n)); [|apply Rmult_integral_contrapositive; split; [apply pow_nonzero; lra|exact N]].
      replace (bc (S n) / bc n * ((INR n + 1) ^ 2 * bc n)) with (bc (S n) * (INR n + 1) ^ 2) by (field; exact N). rewrite E. field. lra. }
    rewrite E, Rabs_Ropp, Rabs_right; [reflexivity|]. assert (0 < / INR (S n)) by apply Rinv_0_lt_compat, lt_0_INR, Nat.lt_0_succ. nra.
  - assert (I : is_lim_seq (fun n => / INR (S n)) 0).
    { apply (is_lim_seq_incr_1 (fun n => / INR n)). apply (is_lim_seq_inv INR p_infty); [apply is_lim_seq_INR|discriminate]. }
    replace (Finite 0) with (Finite (0 * 0)) by (f_equal; ring). apply (is_lim_seq_mult' _ _ 0 0); exact I.
Qed.
Lemma inside a q : CV_radius a = p_infty -> Rbar_lt (Rabs q) (CV_radius a). Proof. intros ->. exact I. Qed.
Lemma radius1 : CV_radius (PS_derive bc) = p_infty. Proof. rewrite CV_radius_derive. apply bc_radius. Qed.
Lemma radius2 : CV_radius (PS_derive (PS_derive bc)) = p_infty. Proof. rewrite CV_radius_derive. apply radius1. Qed.
Lemma b0_derive q : is_derive b0 q (b1 q). Proof. apply is_derive_PSeries, inside, bc_radius. Qed.
Lemma b1_derive q : is_derive b1 q (b2 q). Proof. apply is_derive_PSeries, inside, radius1. Qed.
Lemma b2_cont q : continuity_pt b2 q.
Proof. apply derivable_continuous_pt. exists (PSeries (PS_derive (PS_derive (PS_derive bc))) q). apply is_derive_Reals. apply is_derive_PSeries, inside, radius2. Qed.
(** Bessel's equation. *)
Lemma bessel q : q * b2 q + b1 q + b0 q = 0.
Proof.
  unfold b0, b1, b2. rewrite <- PSeries_incr_1.
  assert (E2 : ex_pseries (PS_incr_1 (PS_derive (PS_derive bc))) q) by (apply ex_pseries_incr_1, CV_disk_correct, CV_disk_inside, inside, radius2).
  assert (E1 : ex_pseries (PS_derive bc) q) by (apply CV_disk_correct, CV_disk_inside, inside, radius1).
  assert (E0 : ex_pseries bc q) by (apply CV_disk_correct, CV_disk_inside, inside, bc_radius).
  rewrite <- PSeries_plus by assumption. rewrite <- PSeries_plus; [|apply ex_pseries_plus; assumption|assumption].
  rewrite (PSeries_ext _ (fun _ => 0)); [apply PSeries_const_0|]. intros n. unfold PS_plus, PS_incr_1, PS_derive.
  pose proof (bc_step n) as St. rewrite <- S_INR in St. destruct n as [|n]; cbn [plus zero].
  - change (0 + INR 1 * bc 1 + bc 0 = 0). change (INR 1) with 1 in *. lra.
  - change (INR (S n) * (INR (S (S n)) * bc (S (S n))) + INR (S (S n)) * bc (S (S n)) + bc (S n) = 0). rewrite !S_INR in *. nra.
Qed.
Lemma jp_sum M y : sum_n (fun k => bc k * y ^ k) M = jp M y.
Proof.
  induction M as [|M IH].
  - rewrite sum_O. unfold bc. cbn. field.
  - rewrite sum_Sn, IH. change (jp M y + bc (S M) * y ^ S M = jp (S M) y). cbn [jp]. unfold bc. pose proof (fact_nz (S M)). field. assumption.
Qed.
Lemma ring_series d1 d2 s : ring_mean d1 d2 s = b0 (s ^ 2 * dsq d1 d2 / 4).
Proof.
  set (y := s ^ 2 * dsq d1 d2 / 4). assert (Y : 0 <= y) by (unfold y, dsq; pose proof (pow2_ge_0 s); pose proof (pow2_ge_0 d1); pose proof (pow2_ge_0 d2); nra).
  symmetry. apply is_series_unique. 
  assert (L : is_lim_seq (fun M => jp M y) (ring_mean d1 d2 s)).
  { apply (is_lim_seq_ext (fun M => ring_mean d1 d2 s - (ring_mean d1 d2 s - jp M y))); [intros; ring|].
    replace (Finite (ring_mean d1 d2 s)) with (Finite (ring_mean d1 d2 s - 0)) by (f_equal; ring).
    apply is_lim_seq_minus'; [apply is_lim_seq_const|]. apply is_lim_seq_abs_0.
    apply (is_lim_seq_le_le (fun _ => 0) _ (fun M => y ^ S M / INR (fact (S M)))); [|apply is_lim_seq_const|].
    - intros M. split; [apply Rabs_pos|]. eapply Rle_trans; [apply ring_bound|]. fold y. unfold Rdiv. apply Rmult_le_compat_l; [now apply pow_le|].
      assert (F : 1 <= INR (fact (S M))) by (apply (le_INR 1), lt_O_fact). apply Rinv_le_contravar; [lra|]. nra.
    - apply (is_lim_seq_incr_1 (fun M => y ^ M / INR (fact M))). apply is_lim_seq_Reals, cv_speed_pow_fact. }
  unfold is_series. apply (filterlim_ext (fun M => jp M y)); [|exact L].
  intros M. rewrite <- jp_sum. apply sum_n_ext. intros k. reflexivity.
Qed.
Lemma b0_bound q : 0 <= q -> Rabs (b0 q) <= 1.
Proof.
  intros H. assert (E : q = (2 * sqrt q) ^ 2 * dsq 1 0 / 4). { unfold dsq. pose proof (sqrt_sqrt q H). nra. }
  rewrite E, <- ring_series. unfold ring_mean. apply (Rle_trans _ ((1 - 0) * 1)); [|lra].
  apply (abs_RInt_le_const (fun v => cos (2 * sqrt q * gfun 1 0 v))); [lra|apply cosg_ex|]. intros v _. apply Rabs_le. pose proof (COS_bound (2 * sqrt q * gfun 1 0 v)). lra.
Qed.
Lemma b0_0 : b0 0 = 1. Proof. unfold b0. rewrite PSeries_0. unfold bc. cbn. field. Qed.

(** ** The mean over the radius from a to 1 *)
Definition xx (u : R) : R := / u ^ 2 - 1.
Definition qf (t u : R) : R := t ^ 2 * xx u / 4.
Definition g0 (t u : R) : R := b0 (qf t u).
Definition g1 (t u : R) : R := t * xx u / 2 * b1 (qf t u).
Definition g2 (t u : R) : R := xx u / 2 * b1 (qf t u) + (t * xx u / 2) ^ 2 * b2 (qf t u).
Definition hh (t u : R) : R := (/ u - u) / 2 * b1 (qf t u).
Lemma xx_pos u : 0 < u <= 1 -> 0 <= xx u.
Proof.
  intros H. unfold xx. assert (1 <= / u ^ 2); [|lra]. rewrite <- Rinv_1 at 1. apply Rinv_le_contravar; [apply pow_lt; lra|]. cbn [pow]. nra.
Qed.
Lemma qf_pos t u : 0 < u <= 1 -> 0 <= qf t u.
Proof. intros H. unfold qf. pose proof (xx_pos u H). pose proof (pow2_ge_0 t). nra. Qed.
Lemma g0_derive t u : is_derive (fun t => g0 t u) t (g1 t u).
Proof.
  unfold g0, g1. apply (is_derive_comp b0 (fun t => qf t u) t (b1 (qf t u)) (t * xx u / 2)); [apply b0_derive|].
  unfold qf. auto_derive; [exact I|]. cbn. field.
Qed.
Lemma g1_derive t u : is_derive (fun t => g1 t u) t (g2 t u).
Proof.
  unfold g1, g2. replace (xx u / 2 * b1 (qf t u) + (t * xx u / 2) ^ 2 * b2 (qf t u)) with (xx u / 2 * b1 (qf t u) + t * xx u / 2 * (t * xx u / 2 * b2 (qf t u))) by ring.
  apply (is_derive_mult (fun t => t * xx u / 2) (fun t => b1 (qf t u)) t (xx u / 2)); [auto_derive; [exact I|field]| |intros; apply Rmult_comm].
  apply (is_derive_comp b1 (fun t => qf t u) t (b2 (qf t u)) (t * xx u / 2)); [apply b1_derive|].
  unfold qf. auto_derive; [exact I|]. cbn. field.
Qed.
Lemma hh_derive t u : 0 < u -> is_derive (fun u => hh t u) u (g0 t u - g2 t u).
Proof.
  intros Hu. unfold hh.
  assert (Dq : is_derive (fun u => qf t u) u (- (t ^ 2 / (2 * u ^ 3)))) by (unfold qf, xx; auto_derive; [change (u ^ 2 <> 0); apply pow_nonzero; lra|cbn; field; lra]).
  assert (Dc : is_derive (fun u => (/ u - u) / 2) u (- (/ u ^ 2 + 1) / 2)) by (auto_derive; [lra|cbn; field; lra]).
  replace (g0 t u - g2 t u) with (- (/ u ^ 2 + 1) / 2 * b1 (qf t u) + (/ u - u) / 2 * (- (t ^ 2 / (2 * u ^ 3)) * b2 (qf t u))).
  - apply (is_derive_mult (fun u => (/ u - u) / 2) (fun u => b1 (qf t u)) u); [exact Dc| |intros; apply Rmult_comm].
    apply (is_derive_comp b1 (fun u => qf t u) u); [apply b1_derive|exact Dq].
  - unfold g0, g2. pose proof (bessel (qf t u)) as E. set (B0 := b0 (qf t u)) in *. set (B1 := b1 (qf t u)) in *. set (B2 := b2 (qf t u)) in *.
    assert (E' : B0 = - B1 - qf t u * B2) by lra. rewrite E'. unfold qf, xx. field. lra.
Qed.
(** Continuity in both variables. *)
Lemma cont2_xx t u : 0 < u -> continuity_2d_pt (fun _ u => xx u) t u.
Proof.
  intros Hu. apply (continuity_1d_2d_pt_comp xx (fun _ u => u)); [|apply continuity_2d_pt_id2].
  apply derivable_continuous_pt. exists (- (2 / u ^ 3)). apply is_derive_Reals. unfold xx. auto_derive; [change (u ^ 2 <> 0); apply pow_nonzero; lra|cbn; field; lra].
Qed.
Lemma cont2_qf t u : 0 < u -> continuity_2d_pt qf t u.
Proof.
  intros Hu. apply (continuity_2d_pt_ext (fun t u => (t * t) * xx u * / 4)); [intros; unfold qf; field|].
  apply continuity_2d_pt_mult; [|apply continuity_2d_pt_const]. apply continuity_2d_pt_mult; [|now apply cont2_xx]. apply continuity_2d_pt_mult; apply continuity_2d_pt_id1.
Qed.
Lemma cont2_b (b : R -> R) t u : (forall q, continuity_pt b q) -> 0 < u -> continuity_2d_pt (fun t u => b (qf t u)) t u.
Proof. intros Hb Hu. apply (continuity_1d_2d_pt_comp b qf); [apply Hb|now apply cont2_qf]. Qed.
Lemma b1_cont q : continuity_pt b1 q. Proof. apply derivable_continuous_pt. exists (b2 q). apply is_derive_Reals, b1_derive. Qed.
Lemma b0_cont q : continuity_pt b0 q. Proof. apply derivable_continuous_pt. exists (b1 q). apply is_derive_Reals, b0_derive. Qed.
Lemma cont2_c t u : 0 < u -> continuity_2d_pt (fun t u => t * xx u / 2) t u.
Proof.
  intros Hu. apply (continuity_2d_pt_ext (fun t u => t * xx u * / 2)); [intros; reflexivity|].
  apply continuity_2d_pt_mult; [|apply continuity_2d_pt_const]. apply continuity_2d_pt_mult; [apply continuity_2d_pt_id1|now apply cont2_xx].
Qed.
Lemma cont2_g1 t u : 0 < u -> continuity_2d_pt g1 t u.
Proof. intros Hu. apply continuity_2d_pt_mult; [now apply cont2_c|apply cont2_b; [apply b1_cont|exact Hu]]. Qed.
Lemma cont2_g2 t u : 0 < u -> continuity_2d_pt g2 t u.
Proof.
  intros Hu. apply continuity_2d_pt_plus.
  - apply continuity_2d_pt_mult; [|apply cont2_b; [apply b1_cont|exact Hu]].
    apply (continuity_2d_pt_ext (fun t u => xx u * / 2)); [intros; reflexivity|]. apply continuity_2d_pt_mult; [now apply cont2_xx|apply continuity_2d_pt_const].
  - apply continuity_2d_pt_mult; [|apply cont2_b; [apply b2_cont|exact Hu]].
    apply (continuity_2d_pt_ext (fun t u => (t * xx u / 2) * (t * xx u / 2))); [intros; ring|]. apply continuity_2d_pt_mult; now apply cont2_c.
Qed.
Lemma cont_section (f : R -> R -> R) t u : continuity_2d_pt f t u -> continuous (f t) u.
Proof.
  intros C. apply continuity_pt_filterlim. intros eps He. destruct (C (mkposreal eps He)) as [d Hd]. exists d. split; [apply cond_pos|].
  intros v [_ Hv]. cbn in *. unfold R_dist in *. apply Hd; [|exact Hv]. rewrite Rminus_eq_0, Rabs_R0. apply cond_pos.
Qed.
Lemma cont2_g0 t u : 0 < u -> continuity_2d_pt g0 t u. Proof. apply cont2_b, b0_cont. Qed.
Lemma section_ex (f : R -> R -> R) a t : 0 < a <= 1 -> (forall u, 0 < u -> continuity_2d_pt f t u) -> ex_RInt (f t) a 1.
Proof.
  intros Ha C. apply (ex_RInt_continuous (V := R_CompleteNormedModule)). intros u Hu. rewrite Rmin_left in Hu by lra. apply cont_section, C. lra.
Qed.
Definition f0 (a t : R) : R := RInt (g0 t) a 1.
Definition f1 (a t : R) : R := RInt (g1 t) a 1.
Definition f2 (a t : R) : R := RInt (g2 t) a 1.
Lemma param (f f' : R -> R -> R) a t : 0 < a <= 1 -> (forall t u, is_derive (fun t => f t u) t (f' t u)) -> (forall t u, 0 < u -> continuity_2d_pt f t u) -> (forall t u, 0 < u -> continuity_2d_pt f' t u) ->
  is_derive (fun t => RInt (f t) a 1) t (RInt (f' t) a 1).
Proof.
  intros Ha D C C'. rewrite (RInt_ext (f' t) (fun u => Derive (fun t => f t u) t)) by (intros u _; symmetry; apply is_derive_unique, D).
  apply (is_derive_RInt_param f a 1 t).
  - apply filter_forall. intros x u _. eexists. apply D.
  - intros u Hu. rewrite Rmin_left in Hu by lra. apply (continuity_2d_pt_ext f'); [intros x v; symmetry; apply is_derive_unique, D|]. apply C'. lra.
  - apply filter_forall. intros x. apply section_ex; [exact Ha|intros; now apply C].
Qed.
Lemma f0_derive a t : 0 < a <= 1 -> is_derive (f0 a) t (f1 a t).
Proof. intros Ha. apply (param g0 g1); [exact Ha|apply g0_derive|intros; now apply cont2_g0|intros; now apply cont2_g1]. Qed.
Lemma f1_derive a t : 0 < a <= 1 -> is_derive (f1 a) t (f2 a t).
Proof. intros Ha. apply (param g1 g2); [exact Ha|apply g1_derive|intros; now apply cont2_g1|intros; now apply cont2_g2]. Qed.
Lemma f2_eq a t : 0 < a <= 1 -> f2 a t = f0 a t + hh t a.
Proof.
  intros Ha. assert (I : is_RInt (fun u => g0 t u - g2 t u) a 1 (hh t 1 - hh t a)).
  { apply (is_RInt_derive (hh t) (fun u => g0 t u - g2 t u)); intros u Hu; rewrite Rmin_left in Hu by lra.
    - apply hh_derive. lra.
    - apply (continuous_minus (g0 t) (g2 t)); apply cont_section; [apply cont2_g0|apply cont2_g2]; lra. }
  assert (J : is_RInt (fun u => g0 t u - g2 t u) a 1 (f0 a t - f2 a t)).
  { apply (is_RInt_minus (V := R_NormedModule) (g0 t) (g2 t)); apply (RInt_correct (V := R_CompleteNormedModule)), section_ex; auto; [apply cont2_g0|apply cont2_g2]. }
  apply (is_RInt_unique (V := R_CompleteNormedModule)) in I, J. rewrite I in J. assert (Z : hh t 1 = 0) by (unfold hh; field).
  change (hh t 1 - hh t a = f0 a t - f2 a t) in J. lra.
Qed.
Lemma f0_bound a t : 0 < a <= 1 -> Rabs (f0 a t) <= 1.
Proof.
  intros Ha. unfold f0. apply (Rle_trans _ ((1 - a) * 1)); [|lra]. apply (abs_RInt_le_const (g0 t)); [lra|apply section_ex; [exact Ha|intros; now apply cont2_g0]|].
  intros u Hu. apply b0_bound, qf_pos. lra.
Qed.
Lemma f0_near a b t : 0 < a <= b -> b <= 1 -> Rabs (f0 a t - f0 b t) <= b.
Proof.
  intros Ha Hb. assert (E : forall x y, 0 < x <= y -> ex_RInt (g0 t) x y).
  { intros x y H. apply (ex_RInt_continuous (V := R_CompleteNormedModule)). intros u Hu. rewrite Rmin_left in Hu by lra. apply cont_section, cont2_g0. lra. }
  assert (C : RInt (g0 t) a b + f0 b t = f0 a t) by (apply (RInt_Chasles (V := R_CompleteNormedModule) (g0 t) a b 1); apply E; lra).
  assert (C' : f0 a t - f0 b t = RInt (g0 t) a b) by (pose (z := (RInt (g0 t) a b : R)); change (z + f0 b t = f0 a t) in C; change (f0 a t - f0 b t = z); lra).
  rewrite C'.
  apply (Rle_trans _ ((b - a) * 1)); [|lra]. apply (abs_RInt_le_const (g0 t)); [lra|apply E; lra|]. intros u Hu. apply b0_bound, qf_pos. lra.
Qed.
Lemma f0_0 a : f0 a 0 = 1 - a.
Proof.
  unfold f0. rewrite (RInt_ext (V := R_CompleteNormedModule) (g0 0) (fun _ => 1)).
  - rewrite (RInt_const (V := R_CompleteNormedModule)). change (scal (1 - a) (1 : R)) with ((1 - a) * 1). ring.
  - intros u _. unfold g0, qf. replace (0 ^ 2 * xx u / 4) with 0 by field. apply b0_0.
Qed.

(** ** The limit *)
Lemma rising (f f' : R -> R) s t : s <= t -> (forall z, s <= z <= t -> is_derive f z (f' z) /\ 0 <= f' z) -> f s <= f t.
Proof.
  intros Hst D. destruct (MVT_gen f s t f') as (c & Hc & E).
  - intros z Hz. rewrite Rmin_left, Rmax_right in Hz by lra. apply D. lra.
  - intros z Hz. rewrite Rmin_left, Rmax_right in Hz by lra. apply derivable_continuous_pt. exists (f' z). apply is_derive_Reals, D. lra.
  - rewrite Rmin_left, Rmax_right in Hc by lra. destruct (D c Hc) as [_ P]. nra.
Qed.
Lemma dominated (f f' h h' : R -> R) s t : s <= t -> (forall z, s <= z <= t -> is_derive f z (f' z) /\ is_derive h z (h' z) /\ Rabs (f' z) <= h' z) -> Rabs (f t - f s) <= h t - h s.
Proof.
  intros Hst D.
  assert (A : h s - f s <= h t - f t).
  { apply (rising (fun z => h z - f z) (fun z => h' z - f' z)); [exact Hst|]. intros z Hz. destruct (D z Hz) as (D1 & D2 & B). split; [apply (is_derive_minus h f); assumption|]. pose proof (Rle_abs (f' z)). lra. }
  assert (C : h s + f s <= h t + f t).
  { apply (rising (fun z => h z + f z) (fun z => h' z + f' z)); [exact Hst|]. intros z Hz. destruct (D z Hz) as (D1 & D2 & B). split; [apply (is_derive_plus h f); assumption|]. pose proof (Rle_abs (- f' z)) as P. rewrite Rabs_Ropp in P. lra. }
  apply Rabs_le. lra.
Qed.
Lemma exp_neg_derive t : is_derive (fun t => exp (- t)) t (- exp (- t)).
Proof. auto_derive; [exact I|]. ring. Qed.
Section Limit.
Variables a t0 : R.
Hypothesis Ha : 0 < a <= 1.
Hypothesis Ht0 : 0 < t0.
Let E (t : R) : R := exp (- t) * (f1 a t + f0 a t).
Let Q (t : R) : R := exp (- t) * (a * (g0 t a / t)).
Let K : R := / t0 + / t0 ^ 2.
Let K' : R := K + 2 / t0.
Lemma energy_derive t : is_derive E t (exp (- t) * hh t a).
Proof.
  replace (exp (- t) * hh t a) with (- exp (- t) * (f1 a t + f0 a t) + exp (- t) * (f2 a t + f1 a t)) by (rewrite f2_eq by exact Ha; ring).
  apply (is_derive_mult (fun t => exp (- t)) (fun t => f1 a t + f0 a t)); [apply exp_neg_derive| |intros; apply Rmult_comm].
  apply (is_derive_plus (f1 a) (f0 a)); [apply f1_derive|apply f0_derive]; exact Ha.
Qed.
Lemma q_derive t : 0 < t -> is_derive Q t (exp (- t) * hh t a - exp (- t) * (a * g0 t a * (/ t + / t ^ 2))).
Proof.
  intros Ht. assert (H : hh t a = a * g1 t a / t). { unfold hh, g1, xx. field. lra. }
  replace (exp (- t) * hh t a - exp (- t) * (a * g0 t a * (/ t + / t ^ 2))) with (- exp (- t) * (a * (g0 t a / t)) + exp (- t) * (a * ((g1 t a * t - g0 t a * 1) / t ^ 2))) by (rewrite H; field; lra).
  apply (is_derive_mult (fun t => exp (- t)) (fun t => a * (g0 t a / t))); [apply exp_neg_derive| |intros; apply Rmult_comm].
  apply (is_derive_scal (fun t => g0 t a / t) t a). apply (is_derive_div (fun t => g0 t a) (fun t => t)); [apply g0_derive|apply (is_derive_id t)|lra].
Qed.
Lemma exp_neg_le t : 0 <= t -> exp (- t) <= 1. Proof. intros H. rewrite <- exp_0. destruct H as [H|<-]; [left; apply exp_increasing; lra|right; f_equal; ring]. Qed.
Lemma q_bound t : t0 <= t -> Rabs (Q t) <= a / t0.
Proof.
  intros Ht. unfold Q. rewrite !Rabs_mult. unfold Rdiv at 1. rewrite Rabs_mult. rewrite (Rabs_right (exp (- t))) by (left; apply exp_pos). rewrite (Rabs_right a) by lra.
  assert (I1 : Rabs (/ t) <= / t0) by (rewrite Rabs_right; [apply Rinv_le_contravar; lra|left; apply Rinv_0_lt_compat; lra]).
  pose proof (exp_neg_le t ltac:(lra)) as E1. pose proof (exp_pos (- t)) as E0. assert (G : Rabs (g0 t a) <= 1) by (apply b0_bound, qf_pos; lra).
  pose proof (Rabs_pos (g0 t a)). pose proof (Rabs_pos (/ t)). assert (P : Rabs (g0 t a) * Rabs (/ t) <= 1 * / t0) by (apply Rmult_le_compat; lra).
  assert (P0 : 0 <= a * (Rabs (g0 t a) * Rabs (/ t))) by (apply Rmult_le_pos; [lra|apply Rmult_le_pos; lra]).
  apply (Rle_trans _ (1 * (a * (Rabs (g0 t a) * Rabs (/ t))))); [apply Rmult_le_compat_r; lra|]. rewrite Rmult_1_l. unfold Rdiv. apply Rmult_le_compat_l; lra.
Qed.
Lemma K_pos : 0 < K. Proof. unfold K. assert (0 < / t0) by (apply Rinv_0_lt_compat; lra). assert (0 < / t0 ^ 2) by (apply Rinv_0_lt_compat, pow_lt; lra). lra. Qed.
Lemma energy t : t0 <= t -> Rabs (E t - E t0) <= a * K'.
Proof.
  intros Ht. pose proof K_pos as HK.
  assert (D : Rabs ((E t - Q t) - (E t0 - Q t0)) <= - (a * K) * exp (- t) - - (a * K) * exp (- t0)).
  { apply (dominated (fun t => E t - Q t) (fun t => exp (- t) * (a * g0 t a * (/ t + / t ^ 2))) (fun t => - (a * K) * exp (- t)) (fun t => a * K * exp (- t))); [exact Ht|].
    intros z Hz. split; [|split].
    - replace (exp (- z) * (a * g0 z a * (/ z + / z ^ 2))) with (exp (- z) * hh z a - (exp (- z) * hh z a - exp (- z) * (a * g0 z a * (/ z + / z ^ 2)))) by ring.
      apply (is_derive_minus E Q); [apply energy_derive|apply q_derive; lra].
    - replace (a * K * exp (- z)) with (- (a * K) * - exp (- z)) by ring. apply (is_derive_scal (fun t => exp (- t)) z (- (a * K))). apply exp_neg_derive.
    - assert (0 < / z) by (apply Rinv_0_lt_compat; lra). assert (0 < / z ^ 2) by (apply Rinv_0_lt_compat, pow_lt; lra).
      assert (/ z <= / t0) by (apply Rinv_le_contravar; lra). assert (/ z ^ 2 <= / t0 ^ 2) by (apply Rinv_le_contravar; [apply pow_lt; lra|apply pow_incr; lra]).
      assert (G : Rabs (g0 z a) <= 1) by (apply b0_bound, qf_pos; lra). pose proof (Rabs_pos (g0 z a)). pose proof (exp_pos (- z)).
      rewrite !Rabs_mult, (Rabs_right (exp (- z))) by lra. rewrite (Rabs_right a) by lra. rewrite (Rabs_right (/ z + / z ^ 2)) by lra.
      rewrite (Rmult_comm (a * K)). apply Rmult_le_compat_l; [lra|]. rewrite Rmult_assoc. apply Rmult_le_compat_l; [lra|]. rewrite <- (Rmult_1_l K). apply Rmult_le_compat; unfold K; lra. }
  pose proof (q_bound t Ht) as Q1. pose proof (q_bound t0 ltac:(lra)) as Q0.
  replace (E t - E t0) with (((E t - Q t) - (E t0 - Q t0)) + (Q t - Q t0)) by ring. eapply Rle_trans; [apply Rabs_triang|].
  assert (Rabs (Q t - Q t0) <= a / t0 + a / t0) by (unfold Rminus; eapply Rle_trans; [apply Rabs_triang|]; rewrite Rabs_Ropp; lra).
  pose proof (exp_neg_le t0 ltac:(lra)). pose proof (exp_pos (- t)). unfold K'. assert (0 < a * K) by (apply Rmult_lt_0_compat; lra).
  replace (a * (K + 2 / t0)) with (a * K + (a / t0 + a / t0)) by (field; lra). nra.
Qed.
Let Y (t : R) : R := exp t * f0 a t.
Lemma y_near t : t0 <= t -> Rabs (Y t - E t0 * exp (2 * t) / 2 - (Y t0 - E t0 * exp (2 * t0) / 2)) <= a * K' * exp (2 * t) / 2 - a * K' * exp (2 * t0) / 2.
Proof.
  intros Ht. apply (dominated (fun t => Y t - E t0 * exp (2 * t) / 2) (fun t => exp (2 * t) * (E t - E t0)) (fun t => a * K' * exp (2 * t) / 2) (fun t => a * K' * exp (2 * t))); [exact Ht|].
  intros z Hz. split; [|split].
  - assert (X : exp (2 * z) * exp (- z) = exp z) by (rewrite <- exp_plus; f_equal; ring).
    replace (exp (2 * z) * (E z - E t0)) with ((exp z * f0 a z + exp z * f1 a z) - E t0 * exp (2 * z)) by (generalize (E t0); intros e0; unfold E; rewrite Rmult_minus_distr_l, <- Rmult_assoc, X; ring).
    apply (is_derive_minus Y (fun t => E t0 * exp (2 * t) / 2)); [|auto_derive; [exact I|field]].
    apply (is_derive_mult exp (f0 a)); [apply is_derive_exp|apply f0_derive, Ha|intros; apply Rmult_comm].
  - auto_derive; [exact I|field].
  - rewrite Rabs_mult, (Rabs_right (exp (2 * z))) by (left; apply exp_pos). rewrite Rmult_comm. apply Rmult_le_compat_r; [left; apply exp_pos|apply energy; lra].
Qed.
Lemma exp_double t : exp (2 * t) = exp t * exp t. Proof. rewrite <- exp_plus. f_equal. ring. Qed.
Lemma y_bound t : Rabs (Y t) <= exp t.
Proof. unfold Y. rewrite Rabs_mult, Rabs_right by (left; apply exp_pos). pose proof (f0_bound a t Ha). pose proof (exp_pos t). nra. Qed.
Lemma energy_start : Rabs (E t0) <= a * K'.
Proof.
  destruct (Rle_dec (Rabs (E t0)) (a * K')) as [|N]; [assumption|exfalso]. apply Rnot_le_lt in N. set (d := Rabs (E t0) - a * K'). assert (Hd : 0 < d) by (unfold d; lra).
  set (t := ln (exp t0 + 4 / d)). pose proof (exp_pos t0) as P0. assert (D4 : 0 < 4 / d) by (apply Rdiv_lt_0_compat; lra).
  assert (Et : exp t = exp t0 + 4 / d) by (unfold t; apply exp_ln; lra). assert (Ht : t0 < t) by (apply exp_lt_inv; lra).
  pose proof (y_near t ltac:(lra)) as Yn. pose proof (y_bound t) as B. pose proof (y_bound t0) as B0.
  set (w := (exp (2 * t) - exp (2 * t0)) / 2). assert (W : w = (4 / d) * (exp t + exp t0) / 2) by (unfold w; rewrite !exp_double; assert (Ed : 4 / d = exp t - exp t0) by lra; rewrite Ed; field).
  assert (Wp : 0 < w) by (rewrite W; pose proof (exp_pos t); apply Rmult_lt_0_compat; [apply Rmult_lt_0_compat; lra|lra]).
  replace (Y t - E t0 * exp (2 * t) / 2 - (Y t0 - E t0 * exp (2 * t0) / 2)) with ((Y t - Y t0) - E t0 * w) in Yn by (unfold w; field).
  replace (a * K' * exp (2 * t) / 2 - a * K' * exp (2 * t0) / 2) with (a * K' * w) in Yn by (unfold w; field).
  assert (T : Rabs (E t0) * w <= Rabs (Y t - Y t0) + a * K' * w).
  { replace (Rabs (E t0) * w) with (Rabs (E t0 * w)) by (rewrite Rabs_mult, (Rabs_right w) by lra; reflexivity).
    replace (E t0 * w) with ((Y t - Y t0) - ((Y t - Y t0) - E t0 * w)) by ring. unfold Rminus at 1. eapply Rle_trans; [apply Rabs_triang|]. rewrite Rabs_Ropp. lra. }
  assert (T2 : Rabs (Y t - Y t0) <= exp t + exp t0) by (unfold Rminus; eapply Rle_trans; [apply Rabs_triang|]; rewrite Rabs_Ropp; lra).
  assert (DW : d * w = 2 * (exp t + exp t0)) by (rewrite W; field; lra). pose proof (exp_pos t). unfold d in DW. nra.
Qed.
Lemma travel t : t0 <= t -> Rabs (exp t * f0 a t - exp t0 * f0 a t0) <= a * ((/ t0 + / t0 ^ 2 + 2 / t0) * exp (2 * t)).
Proof.
  intros Ht. pose proof (y_near t Ht) as Yn. pose proof energy_start as E0. set (w := (exp (2 * t) - exp (2 * t0)) / 2).
  assert (Wp : 0 <= w). { unfold w. destruct Ht as [Ht|<-]; [|lra]. assert (exp (2 * t0) < exp (2 * t)) by (apply exp_increasing; lra). lra. }
  replace (Y t - E t0 * exp (2 * t) / 2 - (Y t0 - E t0 * exp (2 * t0) / 2)) with ((Y t - Y t0) - E t0 * w) in Yn by (unfold w; field).
  replace (a * K' * exp (2 * t) / 2 - a * K' * exp (2 * t0) / 2) with (a * K' * w) in Yn by (unfold w; field).
  change (Rabs (Y t - Y t0) <= a * (K' * exp (2 * t))).
  replace (Y t - Y t0) with ((Y t - Y t0 - E t0 * w) + E t0 * w) by ring. eapply Rle_trans; [apply Rabs_triang|]. rewrite (Rabs_mult (E t0)), (Rabs_right w) by lra.
  assert (Rabs (E t0) * w <= a * K' * w) by (apply Rmult_le_compat_r; lra).
  assert (0 < a * K') by (apply Rmult_lt_0_compat; [lra|unfold K'; pose proof K_pos; assert (0 < 2 / t0) by (apply Rdiv_lt_0_compat; lra); lra]).
  pose proof (exp_pos (2 * t0)). unfold w in *. nra.
Qed.
End Limit.
Lemma radial_limit t eps : 0 <= t -> 0 < eps -> exists delta, 0 < delta <= 1 /\ forall a, 0 < a < delta -> Rabs (f0 a t - exp (- t)) < eps.
Proof.
  intros Ht He. destruct Ht as [Ht|<-].
  2:{ exists (Rmin 1 eps). split; [split; [apply Rmin_glb_lt; lra|apply Rmin_l]|]. intros a Ha. rewrite f0_0, Ropp_0, exp_0. replace (1 - a - 1) with (- a) by ring. rewrite Rabs_Ropp, Rabs_right by lra. pose proof (Rmin_r 1 eps). lra. }
  set (b := Rmin 1 (eps / 16)). assert (Hb : 0 < b <= 1) by (unfold b; split; [apply Rmin_glb_lt; lra|apply Rmin_l]). assert (Hb' : b <= eps / 16) by apply Rmin_r.
  assert (C : continuity_pt (fun s => exp s * f0 b s) 0).
  { apply derivable_continuous_pt. exists (exp 0 * f0 b 0 + exp 0 * f1 b 0). apply is_derive_Reals. apply (is_derive_mult exp (f0 b)); [apply is_derive_exp|apply f0_derive, Hb|intros; apply Rmult_comm]. }
  destruct (C (eps / 4) ltac:(lra)) as (d & Hd & Cd). set (t0 := Rmin (Rmin t 1) (d / 2)).
  assert (T0 : 0 < t0) by (repeat apply Rmin_glb_lt; lra). assert (Tt : t0 <= t) by (eapply Rle_trans; [apply Rmin_l|apply Rmin_l]). assert (T1 : t0 <= 1) by (eapply Rle_trans; [apply Rmin_l|apply Rmin_r]). assert (Td : t0 <= d / 2) by apply Rmin_r.
  assert (N : Rabs (exp t0 * f0 b t0 - (1 - b)) < eps / 4).
  { assert (Dx : D_x no_cond 0 t0 /\ Rabs (t0 - 0) < d) by (split; [split; [exact I|lra]|]; rewrite Rminus_0_r, Rabs_right; lra).
    pose proof (Cd t0 Dx) as Z. change (Rabs (exp t0 * f0 b t0 - exp 0 * f0 b 0) < eps / 4) in Z. rewrite f0_0, exp_0, Rmult_1_l in Z. exact Z. }
  set (k := (/ t0 + / t0 ^ 2 + 2 / t0) * exp (2 * t)). assert (Kp : 0 < k).
  { unfold k. apply Rmult_lt_0_compat; [|apply exp_pos]. assert (0 < / t0) by (apply Rinv_0_lt_compat; lra). assert (0 < / t0 ^ 2) by (apply Rinv_0_lt_compat, pow_lt; lra). unfold Rdiv. lra. }
  exists (Rmin b (eps / (4 * k))). split; [split; [apply Rmin_glb_lt; [lra|apply Rdiv_lt_0_compat; lra]|eapply Rle_trans; [apply Rmin_l|lra]]|]. intros a Ha.
  assert (A1 : a < b) by (eapply Rlt_le_trans; [apply Ha|apply Rmin_l]). assert (A2 : a < eps / (4 * k)) by (eapply Rlt_le_trans; [apply Ha|apply Rmin_r]).
  assert (A3 : a * k < eps / 4). { apply (Rmult_lt_compat_r k) in A2; [|exact Kp]. replace (eps / (4 * k) * k) with (eps / 4) in A2 by (field; lra). exact A2. }
  pose proof (travel a t0 ltac:(lra) T0 t Tt) as Tr. fold k in Tr. pose proof (f0_near a b t0 ltac:(lra) ltac:(lra)) as Nr.
  assert (E3 : exp t0 <= 3). { apply (Rle_trans _ (exp 1)); [|apply exp_le_3]. destruct T1 as [T1| ->]; [left; apply exp_increasing, T1|right; reflexivity]. }
  assert (St : Rabs (exp t0 * f0 a t0 - 1) <= 3 * b + eps / 4 + b).
  { replace (exp t0 * f0 a t0 - 1) with (exp t0 * (f0 a t0 - f0 b t0) + (exp t0 * f0 b t0 - (1 - b)) + - b) by ring.
    eapply Rle_trans; [apply Rabs_triang|]. rewrite Rabs_Ropp, (Rabs_right b) by lra. apply Rplus_le_compat_r. eapply Rle_trans; [apply Rabs_triang|]. apply Rplus_le_compat; [|lra].
    rewrite Rabs_mult, (Rabs_right (exp t0)) by (left; apply exp_pos). apply Rmult_le_compat; [left; apply exp_pos|apply Rabs_pos|exact E3|exact Nr]. }
  assert (Fin : Rabs (exp t * f0 a t - 1) < eps).
  { replace (exp t * f0 a t - 1) with ((exp t * f0 a t - exp t0 * f0 a t0) + (exp t0 * f0 a t0 - 1)) by ring. eapply Rle_lt_trans; [apply Rabs_triang|]. lra. }
  assert (X : exp (- t) * exp t = 1) by (rewrite <- exp_plus, <- exp_0; f_equal; ring).
  replace (f0 a t - exp (- t)) with (exp (- t) * (exp t * f0 a t - 1)) by (rewrite Rmult_minus_distr_l, <- Rmult_assoc, X; ring).
  rewrite Rabs_mult, (Rabs_right (exp (- t))) by (left; apply exp_pos). pose proof (exp_neg_le t ltac:(lra)). pose proof (exp_pos (- t)). pose proof (Rabs_pos (exp t * f0 a t - 1)). nra.
Qed.

(** Mean of the cosine for a radius of the exponential spectrum. *)
Lemma exponential_mean d1 d2 sigma : 0 <= sigma -> uniform_mean (fun u v => cos (sigma * sqrt (1 / u ^ 2 - 1) * gfun d1 d2 v)) (exp (- (sigma * sqrt (dsq d1 d2)))).
Proof.
  intros Hs. split; [intros u _; apply cosg_ex|]. intros eps He. set (t := sigma * sqrt (dsq d1 d2)).
  assert (Ht : 0 <= t) by (apply Rmult_le_pos; [exact Hs|apply sqrt_pos]). destruct (radial_limit t eps Ht He) as (d & Hd & K). exists d. split; [lra|]. intros a Ha.
  exists (f0 a t). split; [|apply K, Ha].
  apply (is_RInt_ext (g0 t)).
  - intros u Hu. rewrite Rmin_left, Rmax_right in Hu by lra. unfold g0. etransitivity; [|symmetry; apply ring_series].
    apply f_equal. assert (D : 0 <= dsq d1 d2) by (unfold dsq; pose proof (pow2_ge_0 d1); pose proof (pow2_ge_0 d2); lra).
    pose proof (xx_pos u ltac:(lra)) as X. unfold qf, t, xx in *. replace (1 / u ^ 2 - 1) with (/ u ^ 2 - 1) by (field; lra).
    rewrite !Rpow_mult_distr. rewrite (pow2_sqrt (dsq d1 d2) D), (pow2_sqrt (/ u ^ 2 - 1) X). generalize (/ u ^ 2 - 1) (dsq d1 d2). intros p q. field.
  - apply (RInt_correct (V := R_CompleteNormedModule)), section_ex; [lra|]. intros; now apply cont2_g0.
Qed.
