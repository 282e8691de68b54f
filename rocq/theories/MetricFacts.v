(** Integrals of continuous functions: definiteness, Cauchy-Schwarz inequality. *)
From Coq Require Import Reals Lra Psatz.
From Coquelicot Require Import Coquelicot.
From Verif Require Import Base.
Open Scope R_scope.

Ltac req := match goal with |- @eq _ ?x ?y => change (@eq R x y) end.

(** Continuous at every point of the interval. *)
Definition cont (f : R -> R) (a b : R) : Prop := forall x, a <= x <= b -> continuous f x.

Lemma cont_plus f g a b : cont f a b -> cont g a b -> cont (fun x => f x + g x) a b.
Proof. intros F G x H. exact (continuous_plus f g x (F x H) (G x H)). Qed.
Lemma cont_minus f g a b : cont f a b -> cont g a b -> cont (fun x => f x - g x) a b.
Proof. intros F G x H. exact (continuous_minus f g x (F x H) (G x H)). Qed.
Lemma cont_mult f g a b : cont f a b -> cont g a b -> cont (fun x => f x * g x) a b.
Proof. intros F G x H. exact (continuous_mult f g x (F x H) (G x H)). Qed.
Lemma cont_scal k f a b : cont f a b -> cont (fun x => k * f x) a b.
Proof. intros F x H. exact (continuous_scal_r k f x (F x H)). Qed.
Lemma cont_ext f g a b : (forall x, f x = g x) -> cont f a b -> cont g a b.
Proof. intros E F x H. exact (continuous_ext f g x E (F x H)). Qed.
Lemma cont_sq f a b : cont f a b -> cont (fun x => f x ^ 2) a b.
Proof. intros F. apply (cont_ext (fun x => f x * f x)); [intros x; ring|]. apply cont_mult; exact F. Qed.
Lemma cont_sub f a b c d : cont f a b -> a <= c -> d <= b -> cont f c d.
Proof. intros F A B x H. apply F. lra. Qed.

Lemma cont_ex f a b : a <= b -> cont f a b -> ex_RInt f a b.
Proof. intros L F. apply (ex_RInt_continuous (V := R_CompleteNormedModule)). intros z. rewrite Rmin_left, Rmax_right by exact L. apply F. Qed.

Lemma int_ext (f g : R -> R) a b : a <= b -> (forall x, a <= x <= b -> f x = g x) -> RInt f a b = RInt g a b.
Proof. intros L E. apply RInt_ext. intros x. rewrite Rmin_left, Rmax_right by exact L. intros H. apply E. lra. Qed.
Lemma int_nonneg (f : R -> R) a b : a <= b -> cont f a b -> (forall x, a <= x <= b -> 0 <= f x) -> 0 <= RInt f a b.
Proof. intros L F P. apply RInt_ge_0; [exact L|apply cont_ex; assumption|]. intros x H. apply P. lra. Qed.
Lemma int_plus (f g : R -> R) a b : a <= b -> cont f a b -> cont g a b -> RInt (fun x => f x + g x) a b = RInt f a b + RInt g a b.
Proof. intros L F G. exact (RInt_plus f g a b (cont_ex f a b L F) (cont_ex g a b L G)). Qed.
Lemma int_minus (f g : R -> R) a b : a <= b -> cont f a b -> cont g a b -> RInt (fun x => f x - g x) a b = RInt f a b - RInt g a b.
Proof. intros L F G. exact (RInt_minus f g a b (cont_ex f a b L F) (cont_ex g a b L G)). Qed.
Lemma int_scal k (f : R -> R) a b : a <= b -> cont f a b -> RInt (fun x => k * f x) a b = k * RInt f a b.
Proof. intros L F. exact (RInt_scal f a b k (cont_ex f a b L F)). Qed.

Lemma int_zero (f : R -> R) a b : a < b -> cont f a b -> (forall x, a <= x <= b -> 0 <= f x) -> RInt f a b = 0 -> forall c, a <= c <= b -> f c = 0.
Proof.
  intros L F P Z c Hc. destruct (Req_dec (f c) 0) as [E|NE]; [exact E|]. exfalso.
  assert (PC : 0 < f c) by (pose proof (P c Hc); lra).
  assert (HC := F c Hc). apply continuity_pt_filterlim in HC.
  destruct (HC (f c / 2) ltac:(lra)) as [d [dp D]].
  assert (NEAR : forall x, Rabs (x - c) < d -> f c / 2 <= f x).
  { intros x Hx. destruct (Req_dec x c) as [->|N]; [lra|].
    assert (A : R_dist (f x) (f c) < f c / 2). { apply (D x). split; [split; [exact I|intros Q; apply N; symmetry; exact Q]|exact Hx]. }
    unfold R_dist in A. apply Rabs_def2 in A. lra. }
  set (u := Rmax a (c - d / 2)). set (v := Rmin b (c + d / 2)).
  assert (U : a <= u /\ u <= c /\ c - d / 2 <= u). { unfold u. split; [apply Rmax_l|]. split; [apply Rmax_lub; lra|apply Rmax_r]. }
  assert (V : v <= b /\ c <= v /\ v <= c + d / 2). { unfold v. split; [apply Rmin_l|]. split; [apply Rmin_glb; lra|apply Rmin_r]. }
  assert (UV : u < v). { unfold u, v, Rmax, Rmin. destruct (Rle_dec a (c - d / 2)), (Rle_dec b (c + d / 2)); lra. }
  assert (C1 : RInt f a u + RInt f u b = RInt f a b).
  { apply (RInt_Chasles f a u b); apply cont_ex; try lra; apply (cont_sub f a b); auto; lra. }
  assert (C2 : RInt f u v + RInt f v b = RInt f u b).
  { apply (RInt_Chasles f u v b); apply cont_ex; try lra; apply (cont_sub f a b); auto; lra. }
  assert (G1 : 0 <= RInt f a u). { apply int_nonneg; [lra|apply (cont_sub f a b); auto; lra|]. intros x H. apply P. lra. }
  assert (G2 : 0 <= RInt f v b). { apply int_nonneg; [lra|apply (cont_sub f a b); auto; lra|]. intros x H. apply P. lra. }
  assert (G3 : (v - u) * (f c / 2) <= RInt f u v).
  { rewrite <- (RInt_const u v (f c / 2) : RInt (fun _ => f c / 2) u v = (v - u) * (f c / 2)). apply RInt_le; [lra|apply ex_RInt_const|apply cont_ex; [lra|apply (cont_sub f a b); auto; lra]|].
    intros x H. apply NEAR. apply Rabs_def1; lra. }
  assert (0 < (v - u) * (f c / 2)) by (apply Rmult_lt_0_compat; lra). lra.
Qed.

Section Schwarz.
Variables (f g : R -> R) (a b : R).
Hypothesis (L : a <= b) (F : cont f a b) (G : cont g a b).
Let A := RInt (fun x => f x ^ 2) a b.
Let B := RInt (fun x => f x * g x) a b.
Let C := RInt (fun x => g x ^ 2) a b.
Lemma int_square t : RInt (fun x => (f x + t * g x) ^ 2) a b = A + 2 * t * B + t ^ 2 * C.
Proof.
  unfold A, B, C.
  rewrite (int_ext _ (fun x => (f x ^ 2 + (2 * t) * (f x * g x)) + (t ^ 2) * (g x ^ 2))); [|exact L|intros x _; ring].
  rewrite int_plus; [|exact L|apply cont_plus; [apply cont_sq; exact F|apply cont_scal, cont_mult; assumption]|apply cont_scal, cont_sq; exact G].
  rewrite int_plus; [|exact L|apply cont_sq; exact F|apply cont_scal, cont_mult; assumption].
  rewrite int_scal; [|exact L|apply cont_mult; assumption]. rewrite int_scal; [|exact L|apply cont_sq; exact G]. req. ring.
Qed.
Lemma square_nonneg t : 0 <= A + 2 * t * B + t ^ 2 * C.
Proof.
  rewrite <- int_square. apply int_nonneg; [exact L|apply cont_sq, cont_plus; [exact F|apply cont_scal; exact G]|]. intros x _. apply pow2_ge_0.
Qed.
Lemma A_nonneg : 0 <= A.
Proof. pose proof (square_nonneg 0). lra. Qed.
Lemma C_nonneg : 0 <= C.
Proof. apply int_nonneg; [exact L|apply cont_sq; exact G|]. intros x _. apply pow2_ge_0. Qed.
Lemma schwarz_int : B ^ 2 <= A * C.
Proof.
  destruct (Rle_lt_or_eq_dec 0 C C_nonneg) as [P|Z].
  - pose proof (square_nonneg (- B / C)) as H. replace (A + 2 * (- B / C) * B + (- B / C) ^ 2 * C) with ((A * C - B ^ 2) / C) in H by (field; lra).
    apply Rmult_le_compat_r with (r := C) in H; [|lra]. replace ((A * C - B ^ 2) / C * C) with (A * C - B ^ 2) in H by (field; lra). lra.
  - rewrite <- Z. destruct (Req_dec B 0) as [->|N]; [lra|].
    pose proof (square_nonneg (- (A + 1) / (2 * B))) as H. rewrite <- Z in H.
    replace (A + 2 * (- (A + 1) / (2 * B)) * B + (- (A + 1) / (2 * B)) ^ 2 * 0) with (- 1) in H by (field; exact N). lra.
Qed.
Lemma norm_triangle : sqrt (RInt (fun x => (f x + g x) ^ 2) a b) <= sqrt A + sqrt C.
Proof.
  rewrite (int_ext _ (fun x => (f x + 1 * g x) ^ 2)); [|exact L|intros x _; ring]. rewrite int_square.
  pose proof (sqrt_pos A). pose proof (sqrt_pos C). pose proof (sqrt_sqrt A A_nonneg) as SA. pose proof (sqrt_sqrt C C_nonneg) as SC.
  assert (SB : B <= sqrt A * sqrt C).
  { apply Rle_trans with (Rabs B); [apply Rle_abs|]. rewrite <- (sqrt_Rsqr_abs B). rewrite <- sqrt_mult by (apply A_nonneg || apply C_nonneg).
    apply sqrt_le_1_alt. pose proof schwarz_int. unfold Rsqr. lra. }
  rewrite <- (sqrt_pow2 (sqrt A + sqrt C)) by lra. apply sqrt_le_1_alt. nra.
Qed.
End Schwarz.
