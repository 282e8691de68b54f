From Verif Require Import Base.

Lemma dget_dset_eq {A} (d : dict A) k v : dget (dset d k v) k = Some v.
Proof.
  induction d as [|[k' v'] d IH]; cbn.
  - now rewrite Nat.eqb_refl.
  - destruct (Nat.eqb k k') eqn:E; cbn; rewrite E; auto.
Qed.

Lemma dget_dset_neq {A} (d : dict A) k k' v : k <> k' -> dget (dset d k v) k' = dget d k'.
Proof.
  intros H. induction d as [|[k1 v1] d IH]; cbn.
  - destruct (Nat.eqb_spec k' k); congruence.
  - destruct (Nat.eqb_spec k k1); cbn.
    + subst. destruct (Nat.eqb_spec k' k1); congruence.
    + destruct (Nat.eqb_spec k' k1); auto.
Qed.

Lemma dlist_dset_eq {A} (d : dict (list A)) k v : dlist (dset d k v) k = v.
Proof. unfold dlist; now rewrite dget_dset_eq. Qed.

Lemma dlist_dset_neq {A} (d : dict (list A)) k k' v :
  k <> k' -> dlist (dset d k v) k' = dlist d k'.
Proof. intros H; unfold dlist; now rewrite dget_dset_neq. Qed.

Lemma dget_None {A} (d : dict A) k : ~ In k (dkeys d) <-> dget d k = None.
Proof.
  induction d as [|[k' v] d IH]; cbn; [tauto|].
  destruct (Nat.eqb_spec k k').
  - subst. split; [tauto|discriminate].
  - rewrite <- IH. intuition congruence.
Qed.

Lemma dkeys_dset_in {A} (d : dict A) k v k' :
  In k' (dkeys (dset d k v)) <-> k' = k \/ In k' (dkeys d).
Proof.
  induction d as [|[k1 v1] d IH]; cbn; [intuition congruence|].
  destruct (Nat.eqb_spec k k1); cbn.
  - subst. intuition congruence.
  - rewrite IH. intuition congruence.
Qed.

Lemma dkeys_dset_nodup {A} (d : dict A) k v :
  NoDup (dkeys d) -> NoDup (dkeys (dset d k v)).
Proof.
  induction d as [|[k1 v1] d IH]; cbn; intros H.
  - repeat constructor; auto.
  - destruct (Nat.eqb_spec k k1); cbn; [exact H|].
    inversion H; subst. constructor; auto.
    change (~ In k1 (dkeys (dset d k v))). rewrite dkeys_dset_in. intuition congruence.
Qed.

Lemma dget_In {A} (d : dict A) k v : dget d k = Some v -> In (k, v) d.
Proof.
  induction d as [|[k1 v1] d IH]; cbn; [discriminate|].
  destruct (Nat.eqb_spec k k1); [intros [= ->]; subst; auto|auto].
Qed.

Lemma In_dget {A} (d : dict A) k v : NoDup (dkeys d) -> In (k, v) d -> dget d k = Some v.
Proof.
  induction d as [|[k1 v1] d IH]; cbn; [tauto|]. intros H [E|E].
  - inversion E; subst. now rewrite Nat.eqb_refl.
  - inversion H; subst. destruct (Nat.eqb_spec k k1).
    + subst. exfalso. apply H2. change k1 with (fst (k1, v)). now apply in_map.
    + auto.
Qed.

Lemma upd_length {A} (l : list A) i f : length (upd l i f) = length l.
Proof. revert i; induction l as [|x l IH]; intros [|i]; cbn; auto. Qed.

Lemma nth_error_upd_eq {A} (l : list A) i f :
  nth_error (upd l i f) i = option_map f (nth_error l i).
Proof. revert i; induction l as [|x l IH]; intros [|i]; cbn; auto. Qed.

Lemma nth_error_upd_neq {A} (l : list A) i j f :
  i <> j -> nth_error (upd l i f) j = nth_error l j.
Proof.
  revert i j; induction l as [|x l IH]; intros [|i] [|j] H; cbn; auto; try congruence.
Qed.

Lemma nth_error_seq i n s : nth_error (seq s n) i = if Nat.ltb i n then Some (s + i) else None.
Proof.
  revert i s; induction n as [|n IH]; intros [|i] s; cbn [seq nth_error]; auto.
  - cbn. f_equal; lia.
  - rewrite IH. change (Nat.ltb (S i) (S n)) with (Nat.ltb i n).
    destruct (Nat.ltb i n); f_equal; lia.
Qed.

Lemma seq_app1 a n : seq a (S n) = seq a n ++ [a + n].
Proof. rewrite seq_S. reflexivity. Qed.

Lemma NoDup_app_iff {A} (l1 l2 : list A) :
  NoDup (l1 ++ l2) <-> NoDup l1 /\ NoDup l2 /\ (forall x, In x l1 -> ~ In x l2).
Proof.
  induction l1 as [|x l1 IH]; cbn.
  - intuition constructor.
  - rewrite !NoDup_cons_iff, IH, in_app_iff. firstorder; subst; firstorder.
Qed.

Lemma nth_error_ext {A} (l1 l2 : list A) :
  (forall i, nth_error l1 i = nth_error l2 i) -> l1 = l2.
Proof.
  revert l2; induction l1 as [|x l1 IH]; intros [|y l2] H; auto.
  - specialize (H 0); discriminate.
  - specialize (H 0); discriminate.
  - f_equal; [specialize (H 0); cbn in H; congruence|]. apply IH. intros i. exact (H (S i)).
Qed.

Ltac ands := repeat match goal with |- _ /\ _ => split end.
