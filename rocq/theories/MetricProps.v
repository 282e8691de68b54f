(** C219, C220: distances of densities. *)
From Coq Require Import Reals Lra Psatz.
From Coquelicot Require Import Coquelicot.
From Verif Require Import Base DistModel DistProofs FitProps MetricModel MetricFacts.
Open Scope R_scope.

(** *** Specification *)
(** The quadrature is exact on functions continuous on the interval. *)
Definition exact_quad (quad : (R -> R) -> R -> R -> R * R) : Prop := forall f a b, a <= b -> cont f a b -> fst (quad f a b) = RInt f a b.
Definition same_on (p q : R -> R) (a b : R) : Prop := forall x, a <= x <= b -> p x = q x.

Lemma L2_eq quad p q a b : exact_quad quad -> a <= b -> cont p a b -> cont q a b -> L2_distance quad p q a b = sqrt (RInt (fun x => (q x - p x) ^ 2) a b).
Proof.
  intros E L P Q. unfold L2_distance. pose proof (E (fun x => (q x - p x) ^ 2) a b L (cont_sq _ _ _ (cont_minus _ _ _ _ Q P))) as H.
  destruct (quad _ a b) as [v err]. cbn [fst] in *. rewrite <- H. reflexivity.
Qed.
Lemma L2_int_nonneg p q a b : a <= b -> cont p a b -> cont q a b -> 0 <= RInt (fun x => (q x - p x) ^ 2) a b.
Proof. intros L P Q. apply int_nonneg; [exact L|apply cont_sq, cont_minus; assumption|]. intros x _. apply pow2_ge_0. Qed.

(** *** C219: L2_distance is a metric on continuous functions, homogeneous, and its square is the integral of the squared difference *)
Theorem C219_metric : forall quad a b, exact_quad quad -> a < b -> forall p q r : R -> R, cont p a b -> cont q a b -> cont r a b ->
  0 <= L2_distance quad p q a b /\
  L2_distance quad p q a b ^ 2 = RInt (fun x => (p x - q x) ^ 2) a b /\
  L2_distance quad p q a b = L2_distance quad q p a b /\
  (L2_distance quad p q a b = 0 <-> same_on p q a b) /\
  L2_distance quad p r a b <= L2_distance quad p q a b + L2_distance quad q r a b /\
  (forall k, L2_distance quad (fun x => k * p x) (fun x => k * q x) a b = Rabs k * L2_distance quad p q a b).
Proof.
  intros quad a b E L p q r P Q S. assert (LE : a <= b) by lra.
  rewrite !(L2_eq quad) by assumption.
  assert (SY : RInt (fun x => (q x - p x) ^ 2) a b = RInt (fun x => (p x - q x) ^ 2) a b) by (apply int_ext; [exact LE|intros x _; ring]).
  split; [apply sqrt_pos|]. split; [rewrite pow2_sqrt by (apply L2_int_nonneg; assumption); exact SY|]. split; [rewrite SY; reflexivity|]. split; [|split].
  - split.
    + intros Z. apply sqrt_eq_0 in Z; [|apply L2_int_nonneg; assumption]. intros x H.
      pose proof (int_zero (fun x => (q x - p x) ^ 2) a b L (cont_sq _ _ _ (cont_minus _ _ _ _ Q P)) (fun x _ => pow2_ge_0 _) Z x H) as K. cbn beta in K. nra.
    + intros EQ. rewrite (int_ext _ (fun _ => 0)); [|exact LE|intros x H; rewrite (EQ x H); ring].
      rewrite RInt_const. unfold scal. cbn. unfold mult. cbn. rewrite Rmult_0_r. apply sqrt_0.
  - rewrite (int_ext (fun x => (r x - p x) ^ 2) (fun x => ((q x - p x) + (r x - q x)) ^ 2)); [|exact LE|intros x _; ring].
    apply (norm_triangle (fun x => q x - p x) (fun x => r x - q x) a b LE); apply cont_minus; assumption.
  - intros k. rewrite (L2_eq quad) by (assumption || (apply cont_scal; assumption)).
    rewrite (int_ext _ (fun x => k ^ 2 * (q x - p x) ^ 2)); [|exact LE|intros x _; ring].
    rewrite int_scal; [|exact LE|apply cont_sq, cont_minus; assumption].
    rewrite sqrt_mult; [|apply pow2_ge_0|apply L2_int_nonneg; assumption]. f_equal. rewrite <- Rsqr_pow2. apply sqrt_Rsqr_abs.
Qed.
(** The densities 1 and 2 x on [0, 1]; RInt as the quadrature. *)
Definition rquad (f : R -> R) (a b : R) : R * R := (RInt f a b, 0).
Lemma rquad_exact : exact_quad rquad.
Proof. intros f a b _ _. reflexivity. Qed.
Lemma cont_const k a b : cont (fun _ => k) a b.
Proof. intros x _. apply continuous_const. Qed.
Lemma cont_id a b : cont (fun x => x) a b.
Proof. intros x _. apply continuous_id. Qed.
Example C219_metric_ex : L2_distance rquad (fun _ => 1) (fun x => 2 * x) 0 1 ^ 2 = 1 / 3 /\ ~ same_on (fun _ => 1) (fun x => 2 * x) 0 1.
Proof.
  destruct (C219_metric rquad 0 1 rquad_exact Rlt_0_1 (fun _ => 1) (fun x => 2 * x) (fun _ => 1) (cont_const 1 0 1) (cont_scal 2 _ 0 1 (cont_id 0 1)) (cont_const 1 0 1)) as [_ [-> _]].
  split; [|intros H; specialize (H 0 ltac:(lra)); lra].
  apply is_RInt_unique. replace (1 / 3) with (minus ((2 * 1 - 1) ^ 3 / 6) ((2 * 0 - 1) ^ 3 / 6)) by (unfold minus, plus, opp; cbn; lra).
  apply (is_RInt_derive (fun x => (2 * x - 1) ^ 3 / 6) (fun x => (1 - 2 * x) ^ 2)).
  - intros x _. auto_derive; [trivial|]. field.
  - intros x _. exact (cont_sq (fun x => 1 - 2 * x) x x (cont_minus _ _ x x (cont_const 1 x x) (cont_scal 2 _ x x (cont_id x x))) x (conj (Rle_refl x) (Rle_refl x))).
Qed.

(** *** C220: KL_divergence returns the divergence of the densities *)
Definition divergence (p q : R -> R) (a b : R) : R := RInt (fun x => p x * ln (p x / q x)) a b.
Definition pos_on (p : R -> R) (a b : R) : Prop := forall x, a <= x <= b -> 0 < p x.

(** Integrals see only the interval. *)
Lemma cont_ln_ratio p q a b : cont p a b -> cont q a b -> pos_on p a b -> pos_on q a b -> cont (fun x => ln (p x / q x)) a b.
Proof.
  intros P Q PP PQ x H. apply (continuous_comp (fun x => p x / q x) ln).
  - apply (continuous_mult p (fun x => / q x)); [exact (P x H)|]. apply continuous_Rinv_comp; [exact (Q x H)|]. specialize (PQ x H). lra.
  - apply (ex_derive_continuous ln). eexists. apply is_derive_ln. apply Rdiv_lt_0_compat; [exact (PP x H)|exact (PQ x H)].
Qed.

Section KL.
Variables (quad : (R -> R) -> R -> R -> R * R) (a b : R) (p q : R -> R).
Hypothesis E : exact_quad quad.
Hypothesis L : a < b.
Hypothesis P : cont p a b.
Hypothesis Q : cont q a b.
Hypothesis PP : pos_on p a b.
Hypothesis PQ : pos_on q a b.
Let LE : a <= b := Rlt_le a b L.
Lemma kl_cont : cont (fun x => p x * ln (p x / q x)) a b.
Proof. apply cont_mult; [exact P|apply cont_ln_ratio; assumption]. Qed.
Lemma kl_shift : RInt (fun x => p x * ln (p x / q x) - p x + q x) a b = divergence p q a b - RInt p a b + RInt q a b.
Proof.
  rewrite int_plus; [|exact LE|apply cont_minus; [exact kl_cont|exact P]|exact Q]. rewrite int_minus; [|exact LE|exact kl_cont|exact P]. reflexivity.
Qed.
Lemma kl_shift_nonneg : 0 <= RInt (fun x => p x * ln (p x / q x) - p x + q x) a b.
Proof.
  apply int_nonneg; [exact LE|apply cont_plus; [apply cont_minus; [exact kl_cont|exact P]|exact Q]|].
  intros x H. apply (kl_nonneg (p x) (q x)); [exact (PP x H)|exact (PQ x H)].
Qed.
Lemma kl_shift_zero : RInt (fun x => p x * ln (p x / q x) - p x + q x) a b = 0 -> same_on p q a b.
Proof.
  intros Z x H.
  pose proof (int_zero (fun x => p x * ln (p x / q x) - p x + q x) a b L
    (cont_plus _ _ _ _ (cont_minus _ _ _ _ kl_cont P) Q) (fun x H => proj1 (kl_nonneg (p x) (q x) (PP x H) (PQ x H))) Z x H) as K.
  exact (proj2 (kl_nonneg (p x) (q x) (PP x H) (PQ x H)) K).
Qed.
End KL.

Lemma cont_max p k a b : cont p a b -> cont (fun x => Rmax (p x) k) a b.
Proof.
  intros P x H. apply (continuous_ext (fun x => / 2 * ((p x + k) + Rabs (p x - k)))).
  - intros y. unfold Rmax. destruct (Rle_dec (p y) k); [rewrite Rabs_left1 by lra|rewrite Rabs_right by lra]; cbn; lra.
  - apply (continuous_scal_r (/ 2) (fun x => (p x + k) + Rabs (p x - k))).
    apply (continuous_plus (fun x => p x + k) (fun x => Rabs (p x - k))).
    + apply (continuous_plus p (fun _ => k)); [exact (P x H)|apply continuous_const].
    + apply (continuous_comp (fun x => p x - k) Rabs); [|apply continuous_Rabs]. apply (continuous_minus p (fun _ => k)); [exact (P x H)|apply continuous_const].
Qed.

Lemma KL_eq quad p q a b : exact_quad quad -> a < b -> cont p a b -> cont q a b -> pos_on p a b -> (forall x, a <= x <= b -> / IZR (10 ^ 300) <= q x) ->
  KL_divergence quad p q a b = Rmax (divergence p q a b - RInt p a b + RInt q a b) (/ IZR (10 ^ 10)).
Proof.
  intros E L P Q PP TQ. unfold KL_divergence. cbv zeta.
  assert (T : 0 < / IZR (10 ^ 300)) by (apply Rinv_0_lt_compat, IZR_lt; reflexivity).
  set (tiny := / IZR (10 ^ 300)) in *.
  assert (PQ : pos_on q a b) by (intros x H; specialize (TQ x H); lra).
  assert (PM : pos_on (fun x => Rmax (q x) tiny) a b) by (intros x _; eapply Rlt_le_trans; [exact T|apply Rmax_r]).
  rewrite E; [|lra|].
  - rewrite (int_ext _ (fun x => p x * ln (p x / q x) - p x + q x)); [|lra|intros x H; rewrite Rmax_left by exact (TQ x H); reflexivity].
    rewrite (kl_shift a b p q L P Q PP PQ). reflexivity.
  - apply cont_plus; [apply cont_minus; [|exact P]|apply cont_max; exact Q].
    apply cont_mult; [exact P|]. apply (cont_ln_ratio p (fun x => Rmax (q x) tiny)); [exact P|apply cont_max; exact Q|exact PP|exact PM].
Qed.
Lemma d_KL_eq quad p q a b : exact_quad quad -> a < b -> cont p a b -> cont q a b -> pos_on p a b -> pos_on q a b ->
  (forall x, a <= x <= b -> - IZR (10 ^ 300) <= ln (p x / q x)) ->
  d_KL_divergence quad p q a b = Rmax (divergence p q a b) (/ IZR (10 ^ 10)).
Proof.
  intros E L P Q PP PQ H. unfold d_KL_divergence. cbv zeta. set (huge := IZR (10 ^ 300)) in *.
  rewrite E; [|lra|].
  - unfold divergence. f_equal. apply int_ext; [lra|]. intros x I. rewrite Rmax_left by exact (H x I). reflexivity.
  - apply cont_mult; [exact P|]. apply cont_max. apply cont_ln_ratio; assumption.
Qed.

(** True up to 1e-10 for normalized continuous densities, bounded below by 1e-300; both implementations agree there. Missing: values under 1e-10,
    and densities with different integrals. *)
Theorem C220_kl_partial : forall quad a b p q, exact_quad quad -> a < b -> cont p a b -> cont q a b -> pos_on p a b ->
  (forall x, a <= x <= b -> / IZR (10 ^ 300) <= q x) -> RInt p a b = RInt q a b ->
  let D := divergence p q a b in
  0 <= D /\ (D = 0 <-> same_on p q a b) /\
  D <= KL_divergence quad p q a b <= D + / IZR (10 ^ 10) /\
  (/ IZR (10 ^ 10) <= D -> KL_divergence quad p q a b = D) /\
  ((forall x, a <= x <= b -> - IZR (10 ^ 300) <= ln (p x / q x)) -> d_KL_divergence quad p q a b = KL_divergence quad p q a b).
Proof.
  intros quad a b p q E L P Q PP TQ N D.
  assert (T : 0 < / IZR (10 ^ 300)) by (apply Rinv_0_lt_compat, IZR_lt; reflexivity).
  assert (T10 : 0 < / IZR (10 ^ 10)) by (apply Rinv_0_lt_compat, IZR_lt; reflexivity).
  assert (PQ : pos_on q a b) by (intros x H; specialize (TQ x H); lra).
  pose proof (kl_shift a b p q L P Q PP PQ) as SH. pose proof (kl_shift_nonneg a b p q L P Q PP PQ) as NN. pose proof (kl_shift_zero a b p q L P Q PP PQ) as ZZ.
  assert (DD : divergence p q a b - RInt p a b + RInt q a b = D) by (unfold D; rewrite N; req; ring).
  rewrite DD in SH. rewrite SH in NN, ZZ.
  rewrite (KL_eq quad p q a b E L P Q PP TQ), DD.
  split; [exact NN|]. split; [split; [exact ZZ|]|split; [|split]].
  - intros S. unfold D, divergence. rewrite (int_ext _ (fun _ => 0)); [|lra|].
    + rewrite RInt_const. unfold scal. cbn. unfold mult. cbn. apply Rmult_0_r.
    + intros x H. rewrite (S x H). replace (q x / q x) with 1 by (field; specialize (PQ x H); lra). rewrite ln_1. ring.
  - split; [apply Rmax_l|]. apply Rmax_lub; lra.
  - intros G. apply Rmax_left. exact G.
  - intros H. apply (d_KL_eq quad p q a b E L P Q PP PQ H).
Qed.

Lemma int_const k a b : RInt (fun _ => k) a b = (b - a) * k.
Proof. exact (RInt_const a b k). Qed.
Example C220_kl_partial_ex : let p := fun _ : R => 1 in let q := fun x : R => 1 / 2 + x in
  cont p 0 1 /\ cont q 0 1 /\ pos_on p 0 1 /\ (forall x, 0 <= x <= 1 -> / IZR (10 ^ 300) <= q x) /\ RInt p 0 1 = RInt q 0 1 /\ ~ same_on p q 0 1.
Proof.
  cbv zeta. split; [apply cont_const|]. split; [apply cont_plus; [apply cont_const|apply cont_id]|]. split; [intros x _; lra|]. split; [|split].
  - intros x H. apply Rle_trans with (/ 2); [|lra]. apply Rinv_le_contravar; [lra|]. apply IZR_le. discriminate.
  - rewrite int_const. symmetry. apply is_RInt_unique.
    replace ((1 - 0) * 1) with (minus ((1 / 2 + 1) ^ 2 / 2) ((1 / 2 + 0) ^ 2 / 2)) by (unfold minus, plus, opp; cbn; lra).
    apply (is_RInt_derive (fun x => (1 / 2 + x) ^ 2 / 2) (fun x => 1 / 2 + x)).
    + intros x _. auto_derive; [trivial|]. field.
    + intros x _. exact (cont_plus _ _ x x (cont_const (1 / 2) x x) (cont_id x x) x (conj (Rle_refl x) (Rle_refl x))).
  - intros H. specialize (H 0 ltac:(lra)). lra.
Qed.

(** Equal densities: 1e-10 instead of 0. Densities with different integrals: the first implementation returns the divergence with the difference of
    the integrals added, the second one the divergence if positive; a negative divergence is returned by neither. *)
Theorem C220_kl_refuted :
  (exists p a b, a < b /\ cont p a b /\ pos_on p a b /\ RInt p a b = 1 /\ divergence p p a b = 0 /\
     KL_divergence rquad p p a b = / IZR (10 ^ 10) /\ d_KL_divergence rquad p p a b = / IZR (10 ^ 10)) /\
  (exists p q a b, a < b /\ cont p a b /\ cont q a b /\ pos_on p a b /\ pos_on q a b /\ RInt p a b <> RInt q a b /\
     divergence p q a b = - ln 2 /\ KL_divergence rquad p q a b = 1 - ln 2 /\ d_KL_divergence rquad p q a b = / IZR (10 ^ 10)).
Proof.
  assert (TINY : forall k, 1 <= k -> / IZR (10 ^ 300) <= k).
  { intros k K. apply Rle_trans with 1; [|exact K]. rewrite <- Rinv_1. apply Rinv_le_contravar; [lra|]. apply IZR_le. discriminate. }
  assert (T10 : / IZR (10 ^ 10) < 1 / 10). { replace (1 / 10) with (/ 10) by lra. apply Rinv_lt_contravar; [apply Rmult_lt_0_compat; [lra|apply IZR_lt; reflexivity]|apply IZR_lt; reflexivity]. }
  assert (P10 : 0 < / IZR (10 ^ 10)) by (apply Rinv_0_lt_compat, IZR_lt; reflexivity).
  assert (HUGE : 1 <= IZR (10 ^ 300)) by (apply IZR_le; discriminate).
  assert (LN2 : 0 < ln 2 < 9 / 10).
  { split; [rewrite <- ln_1; apply ln_increasing; lra|]. rewrite <- (ln_exp (9 / 10)). apply ln_increasing; [lra|].
    pose proof (exp_ineq1 (9 / 20) ltac:(lra)). replace (9 / 10) with (9 / 20 + 9 / 20) by lra. rewrite exp_plus. nra. }
  assert (DIV : forall k m, 0 < k -> 0 < m -> divergence (fun _ => k) (fun _ => m) 0 1 = k * ln (k / m)) by (intros k m _ _; unfold divergence; rewrite int_const; ring).
  split.
  - exists (fun _ => 1), 0, 1. split; [lra|]. split; [apply cont_const|]. split; [intros x _; lra|]. split; [rewrite int_const; lra|].
    assert (D0 : divergence (fun _ => 1) (fun _ => 1) 0 1 = 0). { rewrite DIV by lra. replace (1 / 1) with 1 by lra. rewrite ln_1. ring. }
    split; [exact D0|]. split.
    + rewrite (KL_eq rquad _ _ 0 1 rquad_exact); try (apply cont_const); try (intros x _; lra); try (intros x _; apply TINY; lra); [|lra].
      rewrite D0. apply Rmax_right. rewrite int_const. lra.
    + rewrite (d_KL_eq rquad _ _ 0 1 rquad_exact); try (apply cont_const); try (intros x _; lra).
      * rewrite D0. apply Rmax_right. lra.
      * lra.
      * intros x _. replace (1 / 1) with 1 by lra. rewrite ln_1. lra.
  - exists (fun _ => 1), (fun _ => 2), 0, 1. split; [lra|]. split; [apply cont_const|]. split; [apply cont_const|]. split; [intros x _; lra|]. split; [intros x _; lra|].
    split; [rewrite !int_const; lra|].
    assert (LH : ln (1 / 2) = - ln 2) by (replace (1 / 2) with (/ 2) by lra; apply ln_Rinv; lra).
    assert (D0 : divergence (fun _ => 1) (fun _ => 2) 0 1 = - ln 2) by (rewrite DIV by lra; rewrite LH; ring).
    split; [exact D0|]. split.
    + rewrite (KL_eq rquad _ _ 0 1 rquad_exact); try (apply cont_const); try (intros x _; lra); try (intros x _; apply TINY; lra); [|lra].
      rewrite D0, !int_const. rewrite Rmax_left; lra.
    + rewrite (d_KL_eq rquad _ _ 0 1 rquad_exact); try (apply cont_const); try (intros x _; lra).
      * rewrite D0. apply Rmax_right. lra.
      * lra.
Qed.
