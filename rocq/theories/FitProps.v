(** Divergence, Hessian, gradient and normalisation of approximated densities: C54, C91, C92, C93. *)
From Coq Require Import Reals Lra.
From Verif Require Import Base DistModel DistSpec DistProofs.
Open Scope R_scope.

(** ** Divergence *)
Lemma exp_above x : 1 + x <= exp x /\ (1 + x = exp x -> x = 0).
Proof.
  destruct (Req_dec x 0) as [->|N]; [rewrite exp_0; split; [lra|auto]|]. pose proof (exp_ineq1 x N). split; [lra|]. intros. lra.
Qed.
Lemma kl_nonneg p q : 0 < p -> 0 < q -> 0 <= p * ln (p / q) - p + q /\ (p * ln (p / q) - p + q = 0 -> p = q).
Proof.
  intros Hp Hq. set (x := ln (q / p)). assert (0 < q / p) as Hqp by (apply Rdiv_lt_0_compat; lra).
  assert (exp x = q / p) as Ex by (apply exp_ln; exact Hqp).
  assert (ln (p / q) = - x) as ->. { replace (p / q) with (/ (q / p)) by (field; lra). apply ln_Rinv. exact Hqp. }
  assert (q = p * exp x) as Eq by (rewrite Ex; field; lra).
  replace (p * - x - p + q) with (p * (exp x - (1 + x))) by (rewrite Eq; ring). destruct (exp_above x) as [A B]. split.
  - apply Rmult_le_pos; lra.
  - intros H. apply Rmult_integral in H as [H|H]; [lra|]. rewrite Eq. assert (x = 0) as -> by (apply B; lra). rewrite exp_0. ring.
Qed.

(** ** Hessian *)
Section Fit.
Variables (n K : nat) (w : vec) (mom : nat -> nat -> R) (E : nat -> nat -> R) (mean err : vec) (coef : R).
Hypothesis Hw : forall k, (k < K)%nat -> 0 <= w k.
Hypothesis Hc : 0 <= coef.
Notation jacobian := (jacobian n K w mom E mean err coef).
Notation jac0 := (jac0 n K w mom err).
Lemma density_pos l k : 0 < q_density n mom err l k.
Proof using. apply exp_pos. Qed.
Lemma jac0_psd l : psd n (jac0 l).
Proof using Hw.
  unfold DistModel.jac0. apply psd_sum. intros k Hk. eapply psd_ext; [|apply (psd_outer n (q_density n mom err l k * w k) (fun i => mom k i / err i))].
  - intros i j. cbn. ring.
  - apply Rmult_le_pos; [left; apply density_pos|apply Hw, Hk].
Qed.
Lemma penalty_psd c l : 0 <= c -> psd n (fun i j => sum 2 (fun s => if Rlt_dec 0 (end_diff n E l s) then c * (2 * (E s i * E s j)) else 0)).
Proof using.
  intros H. apply psd_sum. intros s _. destruct Rlt_dec; [|apply psd_zero].
  eapply psd_ext; [|apply (psd_outer n (c * 2) (E s))]; [intros; cbn beta; ring|lra].
Qed.
Theorem hessian_psd l : psd n (jacobian l).
Proof using Hw Hc.
  unfold DistModel.jacobian. apply psd_plus; [apply jac0_psd|]. unfold jac_penalty. apply penalty_psd.
  apply Rmult_le_pos; [apply Rabs_pos|exact Hc].
Qed.
Lemma d_jac0_eq l i j : d_jac0 n K w mom err l i j = jac0 l i j.
Proof using.
  assert (forall a b, sum K (fun k => mom k a * mom k b * q_density n mom err l k * w k) / err a / err b = jac0 l a b) as H.
  { intros a b. unfold DistModel.jac0, Rdiv. rewrite (Rmult_comm (sum _ _)), <- sum_scal, (Rmult_comm (sum _ _)), <- sum_scal. apply sum_ext. intros. ring. }
  unfold d_jac0. rewrite !H. destruct Nat.leb; [reflexivity|]. unfold DistModel.jac0. apply sum_ext. intros. ring.
Qed.
Theorem d_hessian_psd stab l : 0 <= stab -> psd n (d_jacobian n K w mom E mean err coef stab l).
Proof using Hw Hc.
  intros Hs. unfold d_jacobian. apply psd_plus; [apply psd_plus|now apply psd_diag].
  - eapply psd_ext; [|apply (jac0_psd l)]. intros. symmetry. apply d_jac0_eq.
  - unfold d_jac_penalty. apply penalty_psd. apply Rmult_le_pos; [apply Rabs_pos|exact Hc].
Qed.
End Fit.

(** C91: for a posterior density that is not below the bound the integrand is not negative and 0 only if the densities are
    equal; with weights, penalty and stabilisation that are not negative the Hessians of both classes are symmetric and
    positive semidefinite. *)
Theorem C91_divergence tiny p q : 0 < tiny -> 0 < p -> tiny <= q ->
  0 <= kl_integrand tiny p q /\ (kl_integrand tiny p q = 0 <-> p = q).
Proof.
  intros Ht Hp Hq. unfold kl_integrand. rewrite Rmax_left by lra. destruct (kl_nonneg p q Hp ltac:(lra)) as [A B]. split; [exact A|]. split; [exact B|].
  intros ->. replace (q / q) with 1 by (field; lra). rewrite ln_1. ring.
Qed.
Theorem C91_hessian n K w mom E mean err coef stab l :
  (forall k, (k < K)%nat -> 0 <= w k) -> 0 <= coef -> 0 <= stab ->
  psd n (jacobian n K w mom E mean err coef l) /\ psd n (d_jacobian n K w mom E mean err coef stab l).
Proof. intros. split; [now apply hessian_psd|now apply d_hessian_psd]. Qed.
Print Assumptions C91_divergence.
Print Assumptions C91_hessian.
Example C91_divergence_ex : 0 < kl_integrand (/ 1000) 1 2.
Proof.
  destruct (C91_divergence (/ 1000) 1 2 ltac:(lra) ltac:(lra) ltac:(lra)) as [A B]. destruct A as [A|A]; [exact A|]. symmetry in A. apply B in A. lra.
Qed.
(** Two moments 1 and x, points 0 and 1, weights 1/2, zero multipliers: the matrix of moments of the uniform density. *)
Example C91_hessian_ex : let H := jacobian 2 2 (fun _ => 1/2) (fun k i => if Nat.eqb i 0 then 1 else INR k) (fun _ _ => 0) (fun _ => 1) (fun _ => 1) 0 (fun _ => 0) in
  H 0%nat 0%nat = 1 /\ H 0%nat 1%nat = 1/2 /\ H 1%nat 1%nat = 1/2.
Proof.
  assert (forall mom k, q_density 2 mom (fun _ => 1) (fun _ => 0) k = 1) as D.
  { intros. unfold q_density, power. rewrite (sum_ext 2 _ (fun _ => 0)) by (intros; unfold Rdiv; ring). rewrite sum_zero, Ropp_0, clip_id, exp_0 by lra. reflexivity. }
  cbv zeta. unfold jacobian, jac_penalty, jac0. rewrite !sumS, !sum0, !D. unfold end_diff. rewrite !sumS, !sum0.
  repeat (destruct Rlt_dec; [exfalso; lra|]). cbn. repeat split; field.
Qed.
(** C54 in full is false: the posterior density is replaced by 1e-300 if it is smaller. *)
Theorem C54_refuted : exists tiny p q, 0 < tiny /\ 0 < p /\ 0 < q /\ p <> q /\ kl_integrand tiny p q = 0.
Proof.
  exists (/ IZR (10 ^ 300)), (/ IZR (10 ^ 300)), (/ IZR (10 ^ 300) / 2). assert (0 < / IZR (10 ^ 300)) by (apply Rinv_0_lt_compat, IZR_lt; reflexivity).
  repeat split; try lra. unfold kl_integrand. rewrite Rmax_right by lra. set (t := / IZR (10 ^ 300)) in *. replace (t / t) with 1 by (field; lra). rewrite ln_1. ring.
Qed.
Print Assumptions C54_refuted.
(** C54, the part that holds in all cases. Missing: 0 only for equal densities when the posterior one is below 1e-300. *)
Theorem C54_partial :
  (forall tiny p q, 0 < tiny -> 0 < p -> 0 <= kl_integrand tiny p q /\ (kl_integrand tiny p q = 0 -> p = Rmax q tiny))
  /\ (forall n K w mom E mean err coef l, (forall k, (k < K)%nat -> 0 <= w k) -> 0 <= coef -> psd n (jacobian n K w mom E mean err coef l)).
Proof.
  split.
  - intros tiny p q Ht Hp. unfold kl_integrand. apply kl_nonneg; [exact Hp|]. eapply Rlt_le_trans; [exact Ht|apply Rmax_r].
  - intros. now apply hessian_psd.
Qed.
Print Assumptions C54_partial.
Example C54_partial_ex : kl_integrand (/ 2) 1 0 = ln 2 - / 2.
Proof. unfold kl_integrand. rewrite Rmax_right by lra. replace (1 / / 2) with 2 by field. lra. Qed.

(** ** Gradient *)
Section Grad.
Variables (n K : nat) (w : vec) (mom : nat -> nat -> R) (E : nat -> nat -> R) (mean err : vec).
Notation power := (power n mom err).
Notation q_density := (q_density n mom err).
Notation functional := (functional n K w mom E mean err 0).
Notation gradient := (gradient n K w mom E mean err 0).
Notation jacobian := (jacobian n K w mom E mean err 0).

Lemma functional_eq l : functional l = means_sum n mean err l + sum K (fun k => q_density l k * w k).
Proof using. unfold DistModel.functional. ring. Qed.
Lemma gradient_eq l i : gradient l i = mean i / err i - sum K (fun k => mom k i / err i * (q_density l k * w k)).
Proof using.
  unfold DistModel.gradient, gradient_with, integral. unfold Rdiv at 2. rewrite (Rmult_comm (sum _ _)), <- sum_scal.
  rewrite (sum_ext K (fun i0 => / err i * _) (fun k => mom k i / err i * (q_density l k * w k))) by (intros; unfold Rdiv; ring). ring.
Qed.
Lemma jacobian_eq l i j : jacobian l i j = jac0 n K w mom err l i j.
Proof using.
  unfold DistModel.jacobian, jac_penalty. rewrite (sum_ext 2 _ (fun _ => 0)); [rewrite sum_zero; ring|]. intros. destruct Rlt_dec; ring.
Qed.
Lemma power_along l v t k : power (along l v t) k = power l k + t * power v k.
Proof using.
  unfold DistModel.power, along. rewrite (sum_ext n (fun i => mom k i * ((l i + t * v i) / err i)) (fun i => mom k i * (l i / err i) + t * (mom k i * (v i / err i)))).
  - rewrite sum_plus, sum_scal. ring.
  - intros. unfold Rdiv. ring.
Qed.
Lemma dlim_density l v k : -200 < power l k < 200 -> derivable_pt_lim (fun t => q_density (along l v t) k) 0 (q_density l k * power v k).
Proof using.
  intros H. pose proof (dlim_affine (power l k) (power v k) 0) as D1.
  assert (derivable_pt_lim clip (power l k + 0 * power v k) 1) as D2 by (apply dlim_clip; lra).
  pose proof (derivable_pt_lim_comp _ _ _ _ _ D1 D2) as D3. unfold comp in D3.
  pose proof (derivable_pt_lim_exp (clip (power l k + 0 * power v k))) as D4.
  pose proof (derivable_pt_lim_comp _ _ _ _ _ D3 D4) as D5. unfold comp in D5.
  replace (q_density l k * power v k) with (exp (clip (power l k + 0 * power v k)) * (1 * power v k)).
  - revert D5. apply dlim_ext. intros t. unfold DistModel.q_density. now rewrite power_along.
  - unfold DistModel.q_density. replace (power l k + 0 * power v k) with (power l k) by ring. ring.
Qed.
Lemma power_sum v k : power v k = sum n (fun i => - (mom k i / err i) * v i).
Proof using.
  unfold DistModel.power. replace (- sum n (fun i => mom k i * (v i / err i))) with (-1 * sum n (fun i => mom k i * (v i / err i))) by ring.
  rewrite <- sum_scal. apply sum_ext. intros. unfold Rdiv. ring.
Qed.

(** C92: where no power is clipped, the gradient is the derivative of the functional and the Hessian the derivative of the
    gradient, in every direction, for the quadrature at hand. SimpleDistribution has no penalty. *)
Theorem C92_derivatives l : (forall k, (k < K)%nat -> -200 < power l k < 200) ->
  is_gradient n functional l (gradient l) /\ forall i, is_gradient n (fun l' => gradient l' i) l (jacobian l i).
Proof using.
  intros Hp. split.
  - intros v. apply (dlim_ext (fun t => means_sum n mean err (along l v t) + sum K (fun k => w k * q_density (along l v t) k))).
    { intros t. rewrite functional_eq. f_equal. apply sum_ext. intros. ring. }
    replace (sum n (fun i => gradient l i * v i)) with (sum n (fun i => mean i / err i * v i) + sum K (fun k => w k * (q_density l k * power v k))).
    + apply (derivable_pt_lim_plus (fun t => means_sum n mean err (along l v t)) (fun t => sum K (fun k => w k * q_density (along l v t) k))).
      * apply (dlim_ext (fun t => sum n (fun i => mean i * l i / err i + t * (mean i / err i * v i)))).
        { intros t. unfold means_sum, along. apply sum_ext. intros. unfold Rdiv. ring. }
        apply (dlim_sum n (fun i t => mean i * l i / err i + t * (mean i / err i * v i))). intros. apply dlim_affine.
      * apply (dlim_sum K (fun k t => w k * q_density (along l v t) k)). intros k Hk. apply dlim_scal, dlim_density, Hp, Hk.
    + rewrite (sum_ext n (fun i => gradient l i * v i) (fun i => mean i / err i * v i + sum K (fun k => - (mom k i / err i * (q_density l k * w k)) * v i))).
      * rewrite sum_plus. f_equal. rewrite sum_swap. apply sum_ext. intros k _. rewrite power_sum, <- sum_scal, <- sum_scal. apply sum_ext. intros. ring.
      * intros i _. rewrite gradient_eq.
        rewrite (sum_ext K (fun k => - (mom k i / err i * (q_density l k * w k)) * v i) (fun k => (- v i) * (mom k i / err i * (q_density l k * w k)))) by (intros; ring).
        rewrite sum_scal. ring.
  - intros i v. apply (dlim_ext (fun t => mean i / err i + sum K (fun k => (- (mom k i / err i) * w k) * q_density (along l v t) k))).
    { intros t. rewrite gradient_eq. rewrite (sum_ext K (fun k => - (mom k i / err i) * w k * q_density (along l v t) k) (fun k => -1 * (mom k i / err i * (q_density (along l v t) k * w k)))) by (intros; ring).
      rewrite sum_scal. ring. }
    replace (sum n (fun j => jacobian l i j * v j)) with (0 + sum K (fun k => (- (mom k i / err i) * w k) * (q_density l k * power v k))).
    + apply (derivable_pt_lim_plus (fun _ => mean i / err i) (fun t => sum K (fun k => (- (mom k i / err i) * w k) * q_density (along l v t) k))).
      * apply derivable_pt_lim_const.
      * apply (dlim_sum K (fun k t => (- (mom k i / err i) * w k) * q_density (along l v t) k)). intros k Hk. apply dlim_scal, dlim_density, Hp, Hk.
    + rewrite Rplus_0_l. rewrite (sum_ext n (fun j => jacobian l i j * v j) (fun j => sum K (fun k => v j * (mom k i / err i * (q_density l k * w k) * (mom k j / err j))))).
      * rewrite sum_swap. apply sum_ext. intros k _. rewrite power_sum, <- !sum_scal. apply sum_ext. intros. ring.
      * intros j _. rewrite jacobian_eq. unfold jac0. rewrite sum_scal. ring.
Qed.

(** C92: with weights that are not negative the functional lies above its tangent, so multipliers with zero gradient
    minimise it among all multipliers whose powers are not clipped, and their density has the given moments. *)
Theorem C92_minimum l l' : (forall k, (k < K)%nat -> 0 <= w k) ->
  (forall k, (k < K)%nat -> -200 <= power l k <= 200) -> (forall k, (k < K)%nat -> -200 <= power l' k <= 200) ->
  functional l + sum n (fun i => gradient l i * (l' i - l i)) <= functional l'
  /\ ((forall i, (i < n)%nat -> gradient l i = 0) -> functional l <= functional l').
Proof using.
  intros Hw H1 H2.
  assert (functional l + sum n (fun i => gradient l i * (l' i - l i)) <= functional l') as T.
  { rewrite !functional_eq.
    assert (sum n (fun i => gradient l i * (l' i - l i)) = means_sum n mean err l' - means_sum n mean err l + sum K (fun k => w k * (q_density l k * (power l' k - power l k)))) as ->.
    - rewrite (sum_ext n (fun i => gradient l i * (l' i - l i)) (fun i => (mean i * l' i / err i + -1 * (mean i * l i / err i)) + sum K (fun k => - (mom k i / err i * (q_density l k * w k)) * (l' i - l i)))).
      + rewrite sum_plus, sum_plus, sum_scal. fold (means_sum n mean err l') (means_sum n mean err l). f_equal; [ring|]. rewrite sum_swap. apply sum_ext. intros k _.
        rewrite !power_sum. replace (sum n (fun i => - (mom k i / err i) * l' i) - sum n (fun i => - (mom k i / err i) * l i)) with (sum n (fun i => - (mom k i / err i) * l' i) + -1 * sum n (fun i => - (mom k i / err i) * l i)) by ring.
        rewrite <- sum_scal, <- sum_plus, <- sum_scal, <- sum_scal. apply sum_ext. intros. ring.
      + intros i _. rewrite gradient_eq.
        rewrite (sum_ext K (fun k => - (mom k i / err i * (q_density l k * w k)) * (l' i - l i)) (fun k => (- (l' i - l i)) * (mom k i / err i * (q_density l k * w k)))) by (intros; ring).
        rewrite sum_scal. unfold Rdiv. ring.
    - assert (0 <= sum K (fun k => w k * (q_density l' k - q_density l k * (1 + (power l' k - power l k))))) as P.
      { apply sum_nonneg. intros k Hk. apply Rmult_le_pos; [now apply Hw|]. unfold DistModel.q_density. rewrite !clip_id by auto.
        replace (power l' k) with (power l k + (power l' k - power l k)) at 1 by ring. rewrite exp_plus.
        destruct (exp_above (power l' k - power l k)) as [A _]. pose proof (exp_pos (power l k)).
        rewrite <- Rmult_minus_distr_l. apply Rmult_le_pos; lra. }
      rewrite (sum_ext K (fun k => w k * (q_density l' k - q_density l k * (1 + (power l' k - power l k))))
        (fun k => (q_density l' k * w k) + -1 * (q_density l k * w k) + -1 * (w k * (q_density l k * (power l' k - power l k))))) in P by (intros; ring).
      rewrite !sum_plus, !sum_scal in P. lra. }
  split; [exact T|]. intros G. rewrite (sum_ext n _ (fun _ => 0)) in T by (intros; rewrite G by assumption; ring). rewrite sum_zero in T. lra.
Qed.
Theorem C92_moments l i : err i <> 0 -> gradient l i = 0 -> sum K (fun k => mom k i * q_density l k * w k) = mean i.
Proof using.
  intros He G. unfold DistModel.gradient, gradient_with, integral in G.
  assert (mean i / err i = sum K (fun k => mom k i * q_density l k * w k) / err i) as H by lra.
  apply (f_equal (fun x => x * err i)) in H. unfold Rdiv in H. rewrite !Rmult_assoc, !Rinv_l, !Rmult_1_r in H by exact He. auto.
Qed.
End Grad.
Print Assumptions C92_derivatives.
Print Assumptions C92_minimum.
Print Assumptions C92_moments.
(** One moment, one point with weight 1, mean 1: zero multiplier has zero gradient; the functional there is 1. *)
Example C92_ex : gradient 1 1 (fun _ => 1) (fun _ _ => 1) (fun _ _ => 0) (fun _ => 1) (fun _ => 1) 0 (fun _ => 0) 0%nat = 0
  /\ functional 1 1 (fun _ => 1) (fun _ _ => 1) (fun _ _ => 0) (fun _ => 1) (fun _ => 1) 0 (fun _ => 0) = 1
  /\ -200 < power 1 (fun _ _ => 1) (fun _ => 1) (fun _ => 0) 0%nat < 200.
Proof.
  assert (power 1 (fun _ _ => 1) (fun _ => 1) (fun _ => 0) 0%nat = 0) as P by (unfold power; rewrite sumS, sum0; field).
  assert (q_density 1 (fun _ _ => 1) (fun _ => 1) (fun _ => 0) 0%nat = 1) as D by (unfold q_density; rewrite P, clip_id, exp_0 by lra; reflexivity).
  split; [|split]; [| |lra].
  - rewrite gradient_eq, sumS, sum0, D. field.
  - rewrite functional_eq, sumS, sum0, D. unfold means_sum. rewrite sumS, sum0. field.
Qed.

(** ** Normalisation *)
(** C93 is false of both classes. [I] is the integral over the domain: one moment function 1, density 2 on [0, 1]. *)
Theorem C93_refuted :
  (exists n err l moms moment_0, moms 0%nat = 1 /\ 0 < err 0%nat /\ density n err l moms = moment_0 /\ moment_0 = 2
     /\ density n err (fix_normalization moment_0 l) moms = 4)
  /\ (exists n err l moms moment_0, moms 0%nat = 1 /\ 0 < err 0%nat /\ d_density n err l moms = moment_0 /\ moment_0 = 2
     /\ d_density n err (d_fix_normalization moment_0 l) moms <> 1).
Proof.
  assert (0 < ln 2) as L0 by (rewrite <- ln_1; apply ln_increasing; lra).
  assert (ln 2 < 1) as L1. { apply exp_lt_inv. rewrite exp_ln by lra. pose proof (exp_ineq1 1 ltac:(lra)). lra. }
  split.
  - exists 1%nat, (fun _ => 1), (fun _ => - ln 2), (fun _ => 1), 2. repeat split; try lra; unfold density; rewrite sumS, sum0.
    + replace (- (0 + 1 * - ln 2 / 1)) with (ln 2) by field. rewrite clip_id by lra. apply exp_ln. lra.
    + cbn. replace (- (0 + 1 * (- ln 2 - ln 2) / 1)) with (ln 2 + ln 2) by field. rewrite clip_id by lra. rewrite exp_plus, exp_ln by lra. lra.
  - exists 1%nat, (fun _ => 1), (fun _ => - ln 2), (fun _ => 1), 2. repeat split; try lra; unfold d_density; rewrite sumS, sum0.
    + replace (- (0 + 1 * - ln 2 / 1)) with (ln 2) by field. apply exp_ln. lra.
    + unfold d_fix_normalization. replace (- (0 + 1 * (- ln 2 / 2) / 1)) with (ln 2 / 2) by field. intros H.
      pose proof (exp_ineq1 (ln 2 / 2) ltac:(lra)). lra.
Qed.
Print Assumptions C93_refuted.
(** C93, what holds: if no power is clipped and the first moment function is 1, the density is multiplied by a constant, so
    for every homogeneous integral its integral becomes moment_0 ^ (1 + 1 / err_0): it is 1 only if it was 1. Missing: 1. *)
Theorem C93_partial {X} (I : (X -> R) -> R) (n : nat) (err l : vec) (moms : X -> vec) (moment_0 : R) :
  (forall f g, (forall x, f x = g x) -> I f = I g) -> (forall c f, I (fun x => c * f x) = c * I f) ->
  (0 < n)%nat -> (forall x, moms x 0%nat = 1) -> 0 < err 0%nat -> 0 < moment_0 -> I (fun x => density n err l (moms x)) = moment_0 ->
  (forall x, -200 <= - sum n (fun i => moms x i * l i / err i) <= 200) ->
  (forall x, -200 <= - sum n (fun i => moms x i * fix_normalization moment_0 l i / err i) <= 200) ->
  I (fun x => density n err (fix_normalization moment_0 l) (moms x)) = Rpower moment_0 (1 + 1 / err 0%nat)
  /\ (I (fun x => density n err (fix_normalization moment_0 l) (moms x)) = 1 <-> moment_0 = 1).
Proof.
  intros Hext Hhom Hn Hm He H0 HI C1 C2.
  assert (I (fun x => density n err (fix_normalization moment_0 l) (moms x)) = Rpower moment_0 (1 + 1 / err 0%nat)) as E.
  { rewrite (Hext _ (fun x => Rpower moment_0 (1 / err 0%nat) * density n err l (moms x))).
    - rewrite Hhom, HI. rewrite Rpower_plus, Rpower_1 by exact H0. ring.
    - intros x. unfold density. rewrite !clip_id by auto. unfold Rpower. rewrite <- exp_plus. f_equal.
      assert (forall m, (0 < m)%nat -> sum m (fun i => moms x i * fix_normalization moment_0 l i / err i) = sum m (fun i => moms x i * l i / err i) - ln moment_0 / err 0%nat) as K.
      { induction m as [|m IH]; [lia|]. intros _. rewrite !sumS. destruct m as [|m].
        - rewrite !sum0. unfold fix_normalization. cbn [Nat.eqb]. rewrite Hm. unfold Rdiv. ring.
        - rewrite IH by lia. unfold fix_normalization at 1. cbn [Nat.eqb]. ring. }
      rewrite K by exact Hn. unfold Rdiv. ring. }
  split; [exact E|]. rewrite E. assert (0 < 1 + 1 / err 0%nat) as P. { assert (0 < 1 / err 0%nat) by (apply Rdiv_lt_0_compat; lra). lra. }
  split.
  - unfold Rpower. intros H. apply (eq_trans (z := exp 0)) in H; [|now rewrite exp_0]. apply exp_inv in H. apply Rmult_integral in H as [H|H]; [lra|].
    apply ln_inv; try lra. now rewrite ln_1.
  - intros ->. unfold Rpower. rewrite ln_1, Rmult_0_r. apply exp_0.
Qed.
Print Assumptions C93_partial.
(** The functional [f 0] on functions of one point: density 2 becomes 4. *)
Example C93_partial_ex : let I := fun f : unit -> R => f tt in let moms := fun (_ : unit) (_ : nat) => 1 in
  I (fun x => density 1 (fun _ => 1) (fun _ => - ln 2) (moms x)) = 2
  /\ I (fun x => density 1 (fun _ => 1) (fix_normalization 2 (fun _ => - ln 2)) (moms x)) = 4.
Proof.
  cbv zeta. assert (0 < ln 2) as L0 by (rewrite <- ln_1; apply ln_increasing; lra).
  assert (ln 2 < 1) as L1. { apply exp_lt_inv. rewrite exp_ln by lra. pose proof (exp_ineq1 1 ltac:(lra)). lra. }
  split; unfold density; rewrite sumS, sum0.
  - replace (- (0 + 1 * - ln 2 / 1)) with (ln 2) by field. rewrite clip_id by lra. apply exp_ln. lra.
  - unfold fix_normalization. cbn [Nat.eqb]. replace (- (0 + 1 * (- ln 2 - ln 2) / 1)) with (ln 2 + ln 2) by field. rewrite clip_id by lra. rewrite exp_plus, exp_ln by lra. lra.
Qed.
