(** Dictionaries of quantities with repeated keys. *)
From Coq Require Import String.
From Verif Require Import Base BaseFacts QTypeModel QTypeProofs QuantityModel.

Notation skey := string.

Section Repeat.
Context {K : Type} (K_eq : forall a b : K, {a = b} + {a <> b}).
Lemma pget_pset {A} (d : list (K * A)) k v k' : pget K_eq (pset K_eq d k v) k' = if K_eq k k' then Some v else pget K_eq d k'.
Proof.
  induction d as [|[n w] d IH]; cbn [pset pget].
  - destruct (K_eq k k'); reflexivity.
  - destruct (K_eq n k) as [->|N]; cbn [pget].
    + destruct (K_eq k k'); reflexivity.
    + rewrite IH. destruct (K_eq n k') as [->|N']; [|reflexivity]. destruct (K_eq k k') as [->|]; [now destruct N|reflexivity].
Qed.
Lemma pset_in {A} (d : list (K * A)) k v n : In n (map fst (pset K_eq d k v)) <-> n = k \/ In n (map fst d).
Proof.
  induction d as [|[m w] d IH]; cbn [pset map fst In].
  - intuition.
  - destruct (K_eq m k) as [->|N]; cbn [map fst In]; [intuition|]. rewrite IH. intuition.
Qed.
Lemma pset_nodup {A} (d : list (K * A)) k v : NoDup (map fst d) -> NoDup (map fst (pset K_eq d k v)).
Proof.
  induction d as [|[m w] d IH]; cbn [pset map fst]; intros H; [repeat constructor; intros []|].
  inversion H as [|? ? H1 H2]; subst. destruct (K_eq m k) as [->|N]; cbn [map fst]; constructor; auto.
  rewrite pset_in. intros [E|E]; auto.
Qed.
(** The value of the last pair with the key. *)
Definition last_with {A} (ps : list (K * A)) (k : K) (v : A) : Prop :=
  exists a b, ps = a ++ (k, v) :: b /\ ~ In k (map fst b).
Lemma pdict_spec {A} (ps : list (K * A)) : NoDup (map fst (pdict K_eq ps)) /\ (forall n, In n (map fst (pdict K_eq ps)) <-> In n (map fst ps))
  /\ forall k v, pget K_eq (pdict K_eq ps) k = Some v -> last_with ps k v.
Proof.
  unfold pdict. induction ps as [|[n w] ps IH] using rev_ind.
  - split; [constructor|]. split; [tauto|]. discriminate.
  - rewrite fold_left_app. cbn [fold_left fst snd]. set (d := fold_left _ ps []) in *. destruct IH as (N & I & L).
    split; [now apply pset_nodup|]. split.
    + intros m. rewrite pset_in, I, map_app, in_app_iff. cbn. intuition.
    + intros k v. rewrite pget_pset. destruct (K_eq n k) as [->|Nk].
      * intros E. injection E as <-. exists ps, []. split; [reflexivity|intros []].
      * intros E. destruct (L k v E) as (a & b & -> & Hb). exists a, (b ++ [(n, w)]). split; [now rewrite <- app_assoc|].
        rewrite map_app, in_app_iff. cbn. intuition.
Qed.
End Repeat.

(** ** C170: a dictionary of quantities holds, as a python dict, the last part given for a key.
    The types do: *)
Theorem C170_types_partial : forall {K} (K_eq : forall a b : K, {a = b} + {a <> b}) args t k q s, mk_dict K_eq args = Ok t ->
  (exists items, t = QDict items /\ NoDup (map fst items) /\ forall n, In n (map fst items) <-> In n (map fst args))
  /\ (get_key K_eq t (Key k) = Ok (q, s) -> last_with args k q).
Proof.
  intros K K_eq args t k q s H. unfold mk_dict in H. destruct (pdict_spec K_eq args) as (N & I & L).
  destruct (pdict K_eq args) as [|x r] eqn:E; [discriminate|]. destruct (_ || _)%bool in H; [|discriminate]. injection H as <-.
  split; [exists (x :: r); auto|]. unfold get_key. intros G. destruct (pget K_eq (x :: r) k) as [q'|] eqn:P; [|discriminate].
  injection G as <- _. now apply L.
Qed.
Print Assumptions C170_types_partial.
(** The samples do not: the samples of all parts are joined, and the key reads those of its first part; the chunk has more rows than the
    size of the type. *)
Theorem C170_rows_refuted : exists (parts : list (skey * @part skey nat)) t rows x,
  q_dict string_dec parts = Ok (t, rows) /\ last_with parts "a"%string x /\ getitem_rows string_dec t (Key "a"%string) rows <> Ok (p_rows x) /\ List.length rows <> size t
  /\ exists y, last_with parts "b"%string y /\ getitem_rows string_dec t (Key "b"%string) rows = Ok (p_rows y).
Proof.
  exists [("a", mkPart 0 QScalar [10]); ("b", mkPart 0 QScalar [11]); ("a", mkPart 0 QScalar [12])]%string, (QDict [("a", QScalar); ("b", QScalar)])%string, [10; 11; 12],
    (mkPart 0 QScalar [12]).
  split; [vm_compute; reflexivity|]. split; [|split; [vm_compute; discriminate|]].
  - eexists [_; _], []. split; [reflexivity|intros []].
  - split; [vm_compute; discriminate|]. exists (mkPart 0 QScalar [11]). split; [|vm_compute; reflexivity].
    eexists [_], [_]. split; [reflexivity|]. intros [H|[]]. discriminate H.
Qed.
Print Assumptions C170_rows_refuted.
Example C170_ex : mk_dict string_dec [("a", QScalar); ("b", QScalar); ("a", QArray [2] QScalar)]%string = Ok (QDict [("a", QArray [2] QScalar); ("b", QScalar)])%string
  /\ get_key string_dec (QDict [("a", QArray [2] QScalar); ("b", QScalar)])%string (Key "a"%string) = Ok (QArray [2] QScalar, 0).
Proof. split; vm_compute; reflexivity. Qed.
