(** Facts about the numbers of NumModel.v and about sums of real numbers. *)
From Coq Require Import Lra.
From Verif Require Import Base BaseFacts NumModel.

Lemma nadd_comm x y : nadd x y = nadd y x.
Proof. destruct x, y; cbn; auto. f_equal. ring. Qed.
Lemma nadd_assoc x y z : nadd x (nadd y z) = nadd (nadd x y) z.
Proof. destruct x, y, z; cbn; auto. f_equal. ring. Qed.
Lemma nadd_0_l x : nadd (Fin 0) x = x.
Proof. destruct x; cbn; auto. f_equal. ring. Qed.
Lemma nadd_0_r x : nadd x (Fin 0) = x.
Proof. rewrite nadd_comm. apply nadd_0_l. Qed.
Lemma nsum_cons x l : nsum (x :: l) = nadd x (nsum l).
Proof. reflexivity. Qed.
Lemma nsum_app a b : nsum (a ++ b) = nadd (nsum a) (nsum b).
Proof.
  induction a as [|x a IH]; [symmetry; apply nadd_0_l|]. cbn [app]. rewrite !nsum_cons, IH. apply nadd_assoc.
Qed.
Lemma nsum_perm a b : Permutation a b -> nsum a = nsum b.
Proof.
  induction 1; rewrite ?nsum_cons; auto; [now f_equal| |congruence].
  rewrite !nadd_assoc. f_equal. apply nadd_comm.
Qed.

(** Sum of real numbers. *)
Definition rsum (l : list R) : R := fold_right Rplus 0%R l.
Lemma nsum_fin l : nsum (map Fin l) = Fin (rsum l).
Proof. induction l as [|x l IH]; auto. cbn [map]. now rewrite nsum_cons, IH. Qed.
Lemma rsum_cons x l : rsum (x :: l) = (x + rsum l)%R.
Proof. reflexivity. Qed.
Lemma rsum_app a b : rsum (a ++ b) = (rsum a + rsum b)%R.
Proof.
  induction a as [|x a IH]; cbn [app]; [change (rsum []) with 0%R; ring|]. rewrite !rsum_cons, IH. ring.
Qed.
Lemma rsum_map_add {A} (f g : A -> R) l : rsum (map (fun x => f x + g x)%R l) = (rsum (map f l) + rsum (map g l))%R.
Proof. induction l as [|x l IH]; cbn [map]; [change (rsum []) with 0%R; ring|]. rewrite !rsum_cons, IH. ring. Qed.
Lemma rsum_map_mul {A} (f : A -> R) c l : rsum (map (fun x => c * f x)%R l) = (c * rsum (map f l))%R.
Proof. induction l as [|x l IH]; cbn [map]; [change (rsum []) with 0%R; ring|]. rewrite !rsum_cons, IH. ring. Qed.
Lemma rsum_const {A} c (l : list A) : rsum (map (fun _ => c) l) = (INR (length l) * c)%R.
Proof. induction l as [|x l IH]; [change (rsum (map (fun _ => c) [])) with 0%R; cbn; ring|]. cbn [map length]. rewrite rsum_cons, IH, S_INR. ring. Qed.
Lemma rsum_nonneg l : (forall x, In x l -> 0 <= x)%R -> (0 <= rsum l)%R.
Proof.
  induction l as [|x l IH]; intros H; [apply Rle_refl|]. rewrite rsum_cons.
  pose proof (H x (or_introl eq_refl)). assert (0 <= rsum l)%R by (apply IH; intros; apply H; now right). lra.
Qed.
Lemma rsum_zero l : (forall x, In x l -> 0 <= x)%R -> rsum l = 0%R -> forall x, In x l -> x = 0%R.
Proof.
  induction l as [|y l IH]; intros H E x Hx; [easy|]. rewrite rsum_cons in E.
  pose proof (H y (or_introl eq_refl)). assert (0 <= rsum l)%R by (apply rsum_nonneg; intros; apply H; now right).
  destruct Hx as [->|Hx]; [lra|]. apply IH; auto; [intros; apply H; now right|lra].
Qed.
Lemma rsum_ext {A} (f g : A -> R) l : (forall x, In x l -> f x = g x) -> rsum (map f l) = rsum (map g l).
Proof. intros H. f_equal. now apply map_ext_in. Qed.

Lemma nmul_fin a b : nmul (Fin a) (Fin b) = Fin (a * b).
Proof. reflexivity. Qed.
Lemma ndivn_fin a n : n <> 0 -> ndivn (Fin a) n = Fin (a / INR n).
Proof. now destruct n. Qed.

(** All values are finite: the list is a list of real numbers. *)
Lemma fin_list (l : list num) : (forall x, In x l -> exists r, x = Fin r) -> exists rs, l = map Fin rs.
Proof.
  induction l as [|x l IH]; intros H; [now exists []|].
  destruct (H x (or_introl eq_refl)) as [r ->]. destruct IH as [rs ->]; [intros; apply H; now right|].
  now exists (r :: rs).
Qed.
