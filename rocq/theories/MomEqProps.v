(** C153: comparison of moment functions. *)
From Coq Require Import Lra.
From Verif Require Import Base BaseFacts NumModel NumFacts MomentsModel MomentsSpec MomentsProofs MomentsProps LegDerModel.
Local Open Scope R_scope.

Lemma req_true x y : req x y = true <-> x = y.
Proof. unfold req. destruct (Req_EM_T x y); split; congruence. Qed.
Lemma all_eq_true {A} (eq : A -> A -> bool) : (forall x y, eq x y = true <-> x = y) -> forall a b, all_eq eq a b = true <-> a = b.
Proof.
  intros H. induction a as [|x a IH]; intros [|y b]; cbn [all_eq]; try (split; congruence).
  rewrite Bool.andb_true_iff, H, IH. split; [intros [-> ->]; reflexivity|intros E; injection E; auto]. Qed.
Lemma kind_eq_true j k : kind_eq j k = true <-> j = k.
Proof. destruct j, k; cbn; split; congruence. Qed.

(** Objects made by the constructors that differ in nothing but what [moments_eq] compares and the reference domain. *)
Lemma basis_same b c : made (Basis b) -> made (Basis c) -> moments_eq (Basis b) (Basis c) = true -> b_ref b = b_ref c -> b = c.
Proof.
  intros Hb Hc E Hr. cbn [moments_eq] in E. rewrite !Bool.andb_true_iff in E. destruct E as [[[[E1 E2] [E3 E3']] E4] E5].
  apply kind_eq_true in E1. apply Nat.eqb_eq in E2. apply req_true in E3, E3'. apply Bool.eqb_prop in E4, E5.
  inversion Hb as [k s d r lg sf b' H|o mat m Ho Hm Ht]; subst; [|unfold mk_trans in Ht; destruct (forallb _ _); discriminate].
  inversion Hc as [k' s' d' r' lg' sf' c' H'|o mat m Ho Hm Ht]; subst; [|unfold mk_trans in Ht; destruct (forallb _ _); discriminate].
  apply init_ok in H as (_ & A1 & A2 & A3 & A4 & A5 & _ & A6 & A7 & _). apply init_ok in H' as (_ & B1 & B2 & B3 & B4 & B5 & _ & B6 & B7 & _).
  assert (Ed : b_domain b = b_domain c) by (destruct (b_domain b), (b_domain c); cbn [fst snd] in *; congruence).
  assert (Em : mapped b = mapped c) by (unfold mapped; rewrite E4, Ed; reflexivity).
  rewrite Em, Hr in A7. rewrite Em in A6. clear - E1 E2 Ed Hr E4 E5 A6 A7 B6 B7.
  destruct b, c; cbn in *; congruence. Qed.
Lemma eq_same m : forall n, made m -> made n -> moments_eq m n = true -> b_ref (bottom_of m) = b_ref (bottom_of n) -> m = n.
Proof.
  induction m as [b|o IH s]; intros [c|p t] Hm Hn E Hr; cbn [moments_eq] in E; try discriminate.
  - f_equal. apply basis_same; assumption.
  - rewrite !Bool.andb_true_iff in E. destruct E as [[_ E1] E2].
    apply (all_eq_true (all_eq req) (all_eq_true req req_true)) in E2. subst t. f_equal.
    assert (made_inner : forall o s, made (Trans o s) -> made o).
    { clear. intros o s H. inversion H as [|o' mat m Ho Hm Ht]; subst. unfold mk_trans in Ht. destruct (forallb _ _); [|discriminate]. injection Ht as -> ->. exact Ho. }
    apply IH; [exact (made_inner _ _ Hm)|exact (made_inner _ _ Hn)|exact E1|exact Hr]. Qed.

(** C153. Objects that compare equal and have the same reference domain (as they do when it is not given) return the same values.
    Missing: the reference domain is not compared. *)
Theorem C153_equal_partial m n : made m -> made n -> moments_eq m n = true -> b_ref (bottom_of m) = b_ref (bottom_of n) ->
  forall v size, eval_all m v size = eval_all n v size.
Proof. intros Hm Hn E Hr v size. rewrite (eq_same m n Hm Hn E Hr). reflexivity. Qed.
Theorem C153_reference_partial k s d log safe b s' d' log' safe' c : init k s d RNone log safe = Ok b -> init k s' d' RNone log' safe' = Ok c ->
  moments_eq (Basis b) (Basis c) = true -> forall v size, eval_all (Basis b) v size = eval_all (Basis c) v size.
Proof.
  intros Hb Hc E. apply C153_equal_partial; [exact (made_basis _ _ _ _ _ _ _ Hb)|exact (made_basis _ _ _ _ _ _ _ Hc)|exact E|].
  apply init_ok in Hb as (_ & _ & _ & _ & _ & _ & _ & _ & _ & _ & Hb & _). apply init_ok in Hc as (_ & _ & _ & _ & _ & _ & _ & _ & _ & _ & Hc & _).
  cbn [bottom_of]. rewrite Hb, Hc by reflexivity. reflexivity. Qed.
(** Comparison is an equivalence. *)
Theorem C153_equivalence : (forall m, moments_eq m m = true) /\ (forall m n, moments_eq m n = moments_eq n m)
  /\ (forall m n p, moments_eq m n = true -> moments_eq n p = true -> moments_eq m p = true).
Proof.
  assert (Rr : forall x, req x x = true) by (intros; apply req_true; reflexivity).
  assert (Rs : forall x y, req x y = req y x) by (intros; unfold req; destruct (Req_EM_T x y), (Req_EM_T y x); congruence).
  pose proof (all_eq_true (all_eq req) (all_eq_true req req_true)) as AE.
  split; [|split].
  - induction m as [b|o IH s]; cbn [moments_eq].
    + rewrite (proj2 (kind_eq_true _ _) eq_refl), Nat.eqb_refl, !Rr, !Bool.eqb_reflx. reflexivity.
    + rewrite Nat.eqb_refl, IH, (proj2 (AE s s) eq_refl). reflexivity.
  - induction m as [b|o IH s]; intros [c|p t]; cbn [moments_eq]; try reflexivity.
    + rewrite (Nat.eqb_sym (b_size b)), (Rs (fst (b_domain b))), (Rs (snd (b_domain b))).
      assert (Ek : kind_eq (b_kind b) (b_kind c) = kind_eq (b_kind c) (b_kind b)) by (destruct (b_kind b), (b_kind c); reflexivity).
      rewrite Ek. destruct (b_log b), (b_log c), (b_safe b), (b_safe c); reflexivity.
    + rewrite (Nat.eqb_sym (length s)), IH. f_equal. apply Bool.eq_iff_eq_true. rewrite !AE. split; congruence.
  - induction m as [b|o IH s]; intros [c|p t] [d|q u]; cbn [moments_eq]; try discriminate.
    + rewrite !Bool.andb_true_iff, !kind_eq_true, !Nat.eqb_eq, !req_true, !Bool.eqb_true_iff.
      intros [[[[A1 A2] [A3 A4]] A5] A6] [[[[B1 B2] [B3 B4]] B5] B6]. repeat split; congruence.
    + rewrite !Bool.andb_true_iff, !Nat.eqb_eq. intros [[A1 A2] A3] [[B1 B2] B3]. apply AE in A3, B3. subst. split; [split|].
      * reflexivity.
      * exact (IH _ _ A2 B2).
      * apply AE. reflexivity. Qed.

(** Monomials of size 2 on [0, 1] with the default reference domain [0, 1] and with [0, 2]. *)
Definition mono02 : mfn := Basis (mkBasis Monomial 2 (0, 1) (0, 2) false true ((2 - 0) / Rmax (1 - 0) tiny) 0).
Lemma mono02_made : made mono02.
Proof. apply (made_basis Monomial 2 (0, 1) (RPair 0 2) false true). unfold init. cbn. destruct (Rlt_dec 0 (1 - 0)); [reflexivity|lra]. Qed.
(** C153, refuted: objects that compare equal and return different values, 1 and 2 for the value 1. *)
Theorem C153_equal_refuted : exists m n v, made m /\ made n /\ moments_eq m n = true /\ eval_all m v None <> eval_all n v None.
Proof.
  assert (M1 : made mono2) by (apply (made_basis Monomial 2 (0, 1) RNone false true); unfold init; cbn; destruct (Rlt_dec 0 (1 - 0)); [reflexivity|lra]).
  exists mono2, mono02, (Fin 1). split; [exact M1|]. split; [exact mono02_made|]. split.
  - unfold mono2, mono02. cbn [moments_eq b_kind b_size b_domain b_log b_safe fst snd kind_eq Nat.eqb Bool.eqb]. rewrite !(proj2 (req_true _ _)) by reflexivity. reflexivity.
  - pose proof tiny_small as T.
    assert (E1 : transform (bottom_of mono2) (Fin 1) = Fin 1).
    { unfold mono2, transform, clip, linear. cbn [bottom_of b_log b_safe b_shift b_scale b_ref fst snd nsub nneg nadd nmul].
      rewrite (Rmax_left (1 - 0) tiny) by lra. replace ((1 + - 0) * ((1 - 0) / (1 - 0)) + 0) with 1 by field.
      cbn. rewrite ?Rmin_left, ?Rmax_right by lra. destruct (Rlt_dec 1 0); [lra|]. destruct (Rlt_dec 1 1); [lra|]. reflexivity. }
    assert (E2 : transform (bottom_of mono02) (Fin 1) = Fin 2).
    { unfold mono02, transform, clip, linear. cbn [bottom_of b_log b_safe b_shift b_scale b_ref fst snd nsub nneg nadd nmul].
      rewrite (Rmax_left (1 - 0) tiny) by lra. replace ((1 + - 0) * ((2 - 0) / (1 - 0)) + 0) with 2 by field.
      cbn. rewrite ?Rmin_left, ?Rmax_right by lra. destruct (Rlt_dec 2 0); [lra|]. destruct (Rlt_dec 2 2); [lra|]. reflexivity. }
    unfold eval_all, mono2, mono02 in *. cbn [msize b_size eval_all_ seq map b_kind col poly_col bottom_of] in *. rewrite E1, E2.
    intros H. injection H. intros. lra. Qed.
Example C153_ex : made leg3 /\ moments_eq leg3 leg3 = true /\ moments_eq leg3 mono2 = false.
Proof. split; [apply leg3_made|]. split; [apply C153_equivalence|reflexivity]. Qed.

Print Assumptions C153_equal_partial.
Print Assumptions C153_reference_partial.
Print Assumptions C153_equivalence.
Print Assumptions C153_equal_refuted.
