(** Mean over the radius: the Gaussian function. *)
From Coq Require Import Reals Lra.
From Coquelicot Require Import Coquelicot.
From Verif Require Import Base SpectrumSpec SpectrumFacts.
Open Scope R_scope.

(** ** Integrals of powers of the logarithm *)
Fixpoint qp (m : nat) (t : R) : R := match m with O => 1 | S n => t ^ S n + INR (S n) * qp n t end.
Lemma qp_0 m : qp m 0 = INR (fact m).
Proof. induction m as [|m IH]; [reflexivity|]. cbn [qp]. rewrite IH, fact_simpl, mult_INR. cbn [pow]. ring. Qed.
Lemma qp_derive m : forall t, is_derive (qp m) t (qp m t - t ^ m).
Proof.
  induction m as [|m IH]; intros t.
  - cbn [qp pow]. replace (1 - 1) with 0 by ring. apply (is_derive_const (V := R_NormedModule) 1 t).
  - cbn [qp]. replace (t ^ S m + INR (S m) * qp m t - t ^ S m) with (INR (S m) * 1 * t ^ Init.Nat.pred (S m) + INR (S m) * (qp m t - t ^ m)) by (cbn [Init.Nat.pred]; ring).
    apply (is_derive_plus (fun t => t ^ S m) (fun t => INR (S m) * qp m t)).
    + apply (is_derive_pow (fun t => t) (S m) t 1). apply (is_derive_id t).
    + apply (is_derive_scal (qp m) t (INR (S m))). apply IH.
Qed.
Lemma qp_pos m t : 0 <= t -> 0 <= qp m t.
Proof. intros H. induction m as [|m IH]; cbn [qp]; [lra|]. pose proof (pow_le t (S m) H). pose proof (pos_INR (S m)). nra. Qed.

Lemma log_moment m a : 0 < a -> is_RInt (fun u => (- ln u) ^ m) a 1 (INR (fact m) - a * qp m (- ln a)).
Proof.
  intros Ha. replace (INR (fact m) - a * qp m (- ln a)) with (1 * qp m (- ln 1) - a * qp m (- ln a)) by (rewrite ln_1, Ropp_0, qp_0; ring).
  assert (P : forall u, Rmin a 1 <= u -> 0 < u) by (intros u Hu; pose proof (Rmin_glb_lt a 1 0 Ha Rlt_0_1); lra).
  apply (is_RInt_derive (fun u => u * qp m (- ln u)) (fun u => (- ln u) ^ m)).
  - intros u [Hu _]. specialize (P u Hu).
    replace ((- ln u) ^ m) with (1 * qp m (- ln u) + u * ((- / u) * (qp m (- ln u) - (- ln u) ^ m))) by (field; lra).
    apply (is_derive_mult (fun u => u) (fun u => qp m (- ln u)) u 1); [apply (is_derive_id u)| |intros; apply Rmult_comm].
    apply (is_derive_comp (qp m) (fun u => - ln u)); [apply qp_derive|]. apply (is_derive_opp ln). apply is_derive_ln, P.
  - intros u [Hu _]. specialize (P u Hu). apply (ex_derive_continuous (fun u => (- ln u) ^ m)). eexists.
    apply (is_derive_pow (fun u => - ln u) m u). apply (is_derive_opp ln). apply is_derive_ln, P.
Qed.

Lemma exp_ge_pow t n : 0 <= t -> t ^ n / INR (fact n) <= exp t.
Proof.
  intros H. eapply Rle_trans; [|apply (exp_ge_taylor t n H)]. destruct n as [|n]; [cbn; lra|]. cbn [sum_f_R0].
  assert (0 <= sum_f_R0 (fun k => t ^ k / INR (fact k)) n); [|lra].
  apply cond_pos_sum. intros k. apply Rmult_le_pos; [apply pow_le, H|left; apply Rinv_0_lt_compat, INR_fact_lt_0].
Qed.

Lemma log_small j eps : 0 < eps -> exists delta, 0 < delta <= 1 /\ forall a, 0 < a < delta -> a * (- ln a) ^ j < eps.
Proof.
  intros He. set (T := INR (fact (S j)) / eps + 1).
  assert (F : 0 < INR (fact (S j))) by apply INR_fact_lt_0.
  assert (T1 : 1 < T) by (unfold T; pose proof (Rdiv_lt_0_compat _ _ F He); lra).
  exists (exp (- T)). split; [split; [apply exp_pos|]|].
  - rewrite <- exp_0. left. apply exp_increasing. lra.
  - intros a [Ha Hd]. set (t := - ln a). assert (Ht : T < t). { unfold t. apply (ln_increasing _ _ Ha) in Hd. rewrite ln_exp in Hd. lra. }
    replace a with (exp (- t)) by (unfold t; rewrite Ropp_involutive; apply exp_ln, Ha). rewrite exp_Ropp.
    pose proof (exp_ge_pow t (S j) ltac:(lra)) as E. pose proof (exp_pos t) as X.
    apply (Rmult_lt_reg_l (exp t)); [exact X|]. replace (exp t * (/ exp t * t ^ j)) with (t ^ j) by (field; lra).
    apply (Rlt_le_trans _ (t ^ S j / INR (fact (S j)) * eps)); [|apply Rmult_le_compat_r; lra].
    cbn [pow]. assert (P : 0 < t ^ j) by (apply pow_lt; lra).
    replace (t * t ^ j / INR (fact (S j)) * eps) with (t ^ j * (t * eps / INR (fact (S j)))) by (field; lra).
    rewrite <- (Rmult_1_r (t ^ j)) at 1. apply Rmult_lt_compat_l; [exact P|].
    apply (Rmult_lt_reg_r (INR (fact (S j)))); [exact F|]. replace (t * eps / INR (fact (S j)) * INR (fact (S j))) with (t * eps) by (field; lra).
    rewrite Rmult_1_l. apply (Rlt_trans _ (T * eps)); [|apply Rmult_lt_compat_r; assumption]. unfold T. rewrite Rmult_plus_distr_r.
    replace (INR (fact (S j)) / eps * eps) with (INR (fact (S j))) by (field; lra). lra.
Qed.
Lemma qp_small m : forall eps, 0 < eps -> exists delta, 0 < delta <= 1 /\ forall a, 0 < a < delta -> a * qp m (- ln a) < eps.
Proof.
  induction m as [|m IH]; intros eps He.
  - exists (Rmin eps 1). split; [split; [apply Rmin_glb_lt; lra|apply Rmin_r]|]. intros a [_ Ha]. cbn [qp]. pose proof (Rmin_l eps 1). lra.
  - assert (N : 0 < INR (S m)) by (apply lt_0_INR; lia).
    destruct (IH (eps / 2 / INR (S m))) as (e1 & E1 & H1); [apply Rdiv_lt_0_compat; lra|].
    destruct (log_small (S m) (eps / 2)) as (e2 & E2 & H2); [lra|].
    exists (Rmin e1 e2). split; [split; [apply Rmin_glb_lt; lra|pose proof (Rmin_l e1 e2); lra]|].
    intros a [Ha Hd]. pose proof (Rmin_l e1 e2). pose proof (Rmin_r e1 e2). specialize (H1 a ltac:(lra)). specialize (H2 a ltac:(lra)).
    cbn [qp]. rewrite Rmult_plus_distr_l.
    assert (INR (S m) * (a * qp m (- ln a)) < eps / 2); [|nra].
    replace (eps / 2) with (INR (S m) * (eps / 2 / INR (S m))) by (field; lra). apply Rmult_lt_compat_l; assumption.
Qed.

(** ** The mean of the cosine *)
Section Mean.
Variables d1 d2 sigma : R.
Let B := sigma ^ 2 * dsq d1 d2 / 4.
(** Mean over the angle as function of the number of the radius. *)
Definition rad_mean (u : R) : R := ring_mean d1 d2 (sigma * sqrt (- ln u)).

Lemma rad_cont u : 0 < u -> continuous rad_mean u.
Proof.
  intros Hu. unfold rad_mean. apply (continuous_comp (fun u => sigma * sqrt (- ln u)) (ring_mean d1 d2)); [|apply ring_cont].
  apply (continuous_scal_r (V := R_NormedModule) sigma (fun u => sqrt (- ln u))).
  apply (continuous_comp (fun u => - ln u) sqrt); [|apply continuous_sqrt].
  apply (ex_derive_continuous (fun u => - ln u)). eexists. apply (is_derive_opp ln). apply is_derive_ln, Hu.
Qed.
Lemma rad_ex a : 0 < a <= 1 -> ex_RInt rad_mean a 1.
Proof.
  intros Ha. apply (ex_RInt_continuous (V := R_CompleteNormedModule)). intros u Hu. apply rad_cont. rewrite Rmin_left in Hu by lra. lra.
Qed.

(** Integrated series, truncated at [a]. *)
Fixpoint ep (M : nat) (a : R) : R :=
  match M with
  | O => 1 - a * qp 0 (- ln a)
  | S n => ep n a + (-1) ^ S n * (B ^ S n / INR (fact (S n)) ^ 2 * (INR (fact (S n)) - a * qp (S n) (- ln a)))
  end.
Lemma sq_log u : 0 < u <= 1 -> (sigma * sqrt (- ln u)) ^ 2 * dsq d1 d2 / 4 = B * (- ln u).
Proof.
  intros Hu. assert (0 <= - ln u). { destruct (Req_dec u 1) as [->|]; [rewrite ln_1; lra|]. assert (ln u < ln 1) by (apply ln_increasing; lra). rewrite ln_1 in H0. lra. }
  unfold B. replace ((sigma * sqrt (- ln u)) ^ 2) with (sigma ^ 2 * (sqrt (- ln u) * sqrt (- ln u))) by ring. rewrite sqrt_sqrt by assumption. field.
Qed.
Lemma term_int m a : 0 < a -> is_RInt (fun u => (B * (- ln u)) ^ m / INR (fact m) ^ 2) a 1 (B ^ m / INR (fact m) ^ 2 * (INR (fact m) - a * qp m (- ln a))).
Proof.
  intros Ha. apply (is_RInt_ext (V := R_NormedModule) (fun u => B ^ m / INR (fact m) ^ 2 * (- ln u) ^ m)).
  - intros u _. assert (E : B ^ m / INR (fact m) ^ 2 * (- ln u) ^ m = (B * (- ln u)) ^ m / INR (fact m) ^ 2) by (rewrite Rpow_mult_distr; unfold Rdiv; ring). exact E.
  - apply (is_RInt_scal (V := R_NormedModule) (fun u => (- ln u) ^ m)). apply log_moment, Ha.
Qed.
Lemma poly_int M a : 0 < a -> is_RInt (fun u => jp M (B * (- ln u))) a 1 (ep M a).
Proof.
  intros Ha. induction M as [|M IH].
  - cbn [ep jp]. pose proof (log_moment 0 a Ha) as H. cbn [pow fact] in H. change (INR 1) with 1 in H. exact H.
  - cbn [ep jp]. apply (is_RInt_plus (V := R_NormedModule) (fun u => jp M (B * (- ln u)))); [exact IH|].
    apply (is_RInt_scal (V := R_NormedModule) (fun u => (B * (- ln u)) ^ S M / INR (fact (S M)) ^ 2)). apply term_int, Ha.
Qed.
Lemma B_pos : 0 <= B.
Proof. unfold B, dsq. pose proof (pow2_ge_0 sigma). pose proof (pow2_ge_0 d1). pose proof (pow2_ge_0 d2). nra. Qed.
Lemma nlog_pos u : 0 < u <= 1 -> 0 <= - ln u.
Proof.
  intros Hu. destruct (Req_dec u 1) as [->|]; [rewrite ln_1; lra|]. assert (L : ln u < ln 1) by (apply ln_increasing; lra). rewrite ln_1 in L. lra.
Qed.
Lemma mean_bound M a : 0 < a <= 1 -> Rabs (RInt rad_mean a 1 - ep M a) <= B ^ S M / INR (fact (S M)).
Proof.
  intros Ha.
  assert (I : is_RInt (fun u => rad_mean u - jp M (B * (- ln u))) a 1 (RInt rad_mean a 1 - ep M a)).
  { apply (is_RInt_minus (V := R_NormedModule) rad_mean (fun u => jp M (B * (- ln u)))); [apply (RInt_correct (V := R_CompleteNormedModule)), rad_ex, Ha|apply poly_int; lra]. }
  apply (Rle_trans _ (B ^ S M / INR (fact (S M)) ^ 2 * (INR (fact (S M)) - a * qp (S M) (- ln a)))).
  - apply (norm_RInt_le (V := R_NormedModule) (fun u => rad_mean u - jp M (B * (- ln u))) (fun u => (B * (- ln u)) ^ S M / INR (fact (S M)) ^ 2) a 1); [lra| |exact I|apply term_int; lra].
    intros u Hu. rewrite <- sq_log by lra. exact (ring_bound d1 d2 (sigma * sqrt (- ln u)) M).
  - pose proof (INR_fact_lt_0 (S M)) as F. pose proof (qp_pos (S M) (- ln a) (nlog_pos a Ha)) as Q. pose proof (pow_le B (S M) B_pos) as P.
    replace (B ^ S M / INR (fact (S M))) with (B ^ S M / INR (fact (S M)) ^ 2 * INR (fact (S M))) by (field; lra).
    apply Rmult_le_compat_l; [|nra]. apply Rmult_le_pos; [exact P|]. left. apply Rinv_0_lt_compat, pow_lt, F.
Qed.

Fixpoint xp (M : nat) : R := match M with O => 1 | S n => xp n + (- B) ^ S n / INR (fact (S n)) end.
Lemma xp_sum M : xp M = sum_f_R0 (fun k => / INR (fact k) * (- B) ^ k) M.
Proof. induction M as [|M IH]; [cbn; field|]. cbn [xp sum_f_R0]. rewrite IH. unfold Rdiv. ring. Qed.
Lemma ep_limit M : forall eps, 0 < eps -> exists delta, 0 < delta <= 1 /\ forall a, 0 < a < delta -> Rabs (ep M a - xp M) < eps.
Proof.
  induction M as [|M IH]; intros eps He.
  - destruct (qp_small 0 eps He) as (e & E & H). exists e. split; [exact E|]. intros a Ha. cbn [ep xp].
    replace (1 - a * qp 0 (- ln a) - 1) with (- (a * qp 0 (- ln a))) by ring. rewrite Rabs_Ropp, Rabs_pos_eq; [apply H, Ha|]. cbn [qp]. lra.
  - set (c := B ^ S M / INR (fact (S M)) ^ 2 + 1). pose proof (INR_fact_lt_0 (S M)) as F. pose proof (pow_le B (S M) B_pos) as P.
    assert (C0 : 0 <= B ^ S M / INR (fact (S M)) ^ 2). { apply Rmult_le_pos; [exact P|]. left. apply Rinv_0_lt_compat, pow_lt, F. }
    assert (C1 : 0 < c) by (unfold c; lra).
    destruct (IH (eps / 2)) as (e1 & E1 & H1); [lra|]. destruct (qp_small (S M) (eps / 2 / c)) as (e2 & E2 & H2); [apply Rdiv_lt_0_compat; lra|].
    exists (Rmin e1 e2). split; [split; [apply Rmin_glb_lt; lra|pose proof (Rmin_l e1 e2); lra]|].
    intros a [Ha Hd]. pose proof (Rmin_l e1 e2). pose proof (Rmin_r e1 e2). specialize (H1 a ltac:(lra)). specialize (H2 a ltac:(lra)).
    pose proof (qp_pos (S M) (- ln a) (nlog_pos a ltac:(lra))) as Q.
    cbn [ep xp].
    replace (ep M a + (-1) ^ S M * (B ^ S M / INR (fact (S M)) ^ 2 * (INR (fact (S M)) - a * qp (S M) (- ln a))) - (xp M + (- B) ^ S M / INR (fact (S M))))
      with ((ep M a - xp M) + - ((-1) ^ S M * (B ^ S M / INR (fact (S M)) ^ 2 * (a * qp (S M) (- ln a))))).
    2: { replace ((- B) ^ S M) with ((-1) ^ S M * B ^ S M) by (rewrite <- Rpow_mult_distr; f_equal; ring). field. lra. }
    eapply Rle_lt_trans; [apply Rabs_triang|]. rewrite Rabs_Ropp, Rabs_mult, pow_1_abs, Rmult_1_l.
    assert (0 <= a * qp (S M) (- ln a)) by (apply Rmult_le_pos; lra). rewrite (Rabs_pos_eq (B ^ S M / INR (fact (S M)) ^ 2 * _)) by (apply Rmult_le_pos; lra).
    assert (B ^ S M / INR (fact (S M)) ^ 2 * (a * qp (S M) (- ln a)) <= eps / 2); [|lra].
    apply (Rle_trans _ (c * (eps / 2 / c))); [|right; field; lra]. apply Rmult_le_compat; unfold c in *; lra.
Qed.

Lemma rad_limit eps : 0 < eps -> exists delta, 0 < delta <= 1 /\ forall a, 0 < a < delta -> Rabs (RInt rad_mean a 1 - exp (- B)) < eps.
Proof.
  intros He.
  destruct (cv_speed_pow_fact B (eps / 3) ltac:(lra)) as (N1 & H1).
  assert (S : exists N, forall n, (N <= n)%nat -> Rabs (xp n - exp (- B)) < eps / 3).
  { pose proof (is_exp_Reals (- B)) as E. apply is_pseries_Reals in E. unfold Pser, infinite_sum in E.
    destruct (E (eps / 3) ltac:(lra)) as (N & H). exists N. intros n Hn. rewrite xp_sum. apply H. lia. }
  destruct S as (N2 & H2).
  set (M := (N1 + N2)%nat). destruct (ep_limit M (eps / 3) ltac:(lra)) as (d & Hd & H3).
  exists d. split; [exact Hd|]. intros a Ha.
  pose proof (mean_bound M a ltac:(lra)) as K1. pose proof (H3 a Ha) as K2. pose proof (H2 M ltac:(unfold M; lia)) as K3.
  specialize (H1 (Datatypes.S M) ltac:(unfold M; lia)). unfold R_dist in H1. rewrite Rminus_0_r in H1.
  assert (K4 : B ^ Datatypes.S M / INR (fact (Datatypes.S M)) < eps / 3) by (eapply Rle_lt_trans; [apply Rle_abs|exact H1]).
  replace (RInt rad_mean a 1 - exp (- B)) with ((RInt rad_mean a 1 - ep M a) + ((ep M a - xp M) + (xp M - exp (- B)))) by ring.
  eapply Rle_lt_trans; [apply Rabs_triang|]. pose proof (Rabs_triang (ep M a - xp M) (xp M - exp (- B))). lra.
Qed.

Lemma gauss_mean : uniform_mean (fun u v => cos (sigma * sqrt (- ln u) * gfun d1 d2 v)) (exp (- (sigma ^ 2 * (d1 ^ 2 + d2 ^ 2) / 4))).
Proof.
  split.
  - intros u _. apply cosg_ex.
  - intros eps He. destruct (rad_limit eps He) as (d & Hd & H). exists d. split; [lra|]. intros a Ha.
    exists (RInt rad_mean a 1). split; [|apply H, Ha]. apply (RInt_correct (V := R_CompleteNormedModule)). apply rad_ex. lra.
Qed.
End Mean.
