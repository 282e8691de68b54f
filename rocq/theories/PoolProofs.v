From Verif Require Import Base BaseFacts PoolModel.

(** Number of queued items *)
Fixpoint qtotal {A} (qs : dict (list A)) : nat :=
  match qs with [] => 0 | (_, q) :: r => length q + qtotal r end.

Lemma qtotal_dset {A} (qs : dict (list A)) l v :
  qtotal (dset qs l v) + length (dlist qs l) = qtotal qs + length v.
Proof.
  unfold dlist. induction qs as [|[k q] qs IH]; cbn [dset qtotal dget]; [cbn; lia|].
  destruct (Nat.eqb l k); cbn [qtotal]; lia.
Qed.

Lemma qtotal_put {A} (qs : dict (list A)) l x : qtotal (put qs l x) = S (qtotal qs).
Proof.
  unfold put. pose proof (qtotal_dset qs l (dlist qs l ++ [x])) as H.
  rewrite app_length in H; cbn [length] in H. lia.
Qed.

Lemma dlist_put_eq {A} (qs : dict (list A)) l x : dlist (put qs l x) l = dlist qs l ++ [x].
Proof. apply dlist_dset_eq. Qed.
Lemma dlist_put_neq {A} (qs : dict (list A)) l l' x : l <> l' -> dlist (put qs l x) l' = dlist qs l'.
Proof. apply dlist_dset_neq. Qed.

Lemma qtotal_zero {A} (qs : dict (list A)) : qtotal qs = 0 -> forall l, dlist qs l = [].
Proof.
  unfold dlist. induction qs as [|[k q] qs IH]; cbn [qtotal dget]; auto.
  intros H l. destruct (Nat.eqb l k); [destruct q; cbn in *; auto; lia|]. apply IH; lia.
Qed.

Lemma queues_to_list_ok {A} (qs : dict (list A)) :
  exists r c, queues_to_list qs = (r, c, Z.of_nat (qtotal qs))
  /\ dkeys c = dkeys qs /\ qtotal c = 0
  /\ (forall k, In k (dkeys r) -> In k (dkeys qs))
  /\ (NoDup (dkeys qs) -> NoDup (dkeys r))
  /\ (NoDup (dkeys qs) -> forall l, dlist r l = dlist qs l)
  /\ (forall l, dget r l <> Some []).
Proof.
  induction qs as [|[k q] qs IH].
  - exists [], []. cbn. repeat split; auto; discriminate.
  - destruct IH as (r & c & E & Hk & Hc & Hr & Hn & Hd & He).
    cbn [queues_to_list]. rewrite E. destruct q as [|x q].
    + exists r, ((k, []) :: c). cbn [qtotal length dkeys map fst].
      repeat split; auto.
      * cbn [dkeys map fst]. f_equal. exact Hk.
      * intros k' H. right. now apply Hr.
      * intros H. inversion H; subst. auto.
      * intros H l. inversion H; subst. rewrite Hd by auto.
        unfold dlist; cbn [dget]. destruct (Nat.eqb_spec l k); auto.
        subst. apply dget_None in H2. now rewrite H2.
    + exists ((k, x :: q) :: r), ((k, []) :: c).
      repeat split.
      * f_equal. cbn [qtotal]. lia.
      * cbn [dkeys map fst]. f_equal. exact Hk.
      * exact Hc.
      * intros k' [H|H]; [left; exact H|right; now apply Hr].
      * intros H. inversion H; subst. cbn. constructor; auto.
      * intros H l. inversion H; subst. specialize (Hd H3 l).
        unfold dlist in *; cbn [dget]. destruct (Nat.eqb_spec l k); auto.
      * intros l. cbn [dget]. destruct (Nat.eqb l k); [discriminate|apply He].
Qed.

Lemma dkeys_put {A} (qs : dict (list A)) l x k :
  In k (dkeys (put qs l x)) <-> k = l \/ In k (dkeys qs).
Proof. apply dkeys_dset_in. Qed.

Lemma NoDup_put {A} (qs : dict (list A)) l x : NoDup (dkeys qs) -> NoDup (dkeys (put qs l x)).
Proof. apply dkeys_dset_nodup. Qed.

Lemma save_running_time_keys ts l t k :
  In k (dkeys (save_running_time ts l t)) -> k = l \/ In k (dkeys ts).
Proof.
  unfold save_running_time. intros H.
  destruct (dget ts l) as [[a b]|] eqn:E.
  - destruct (Qeq_bool t 0); auto. rewrite E in H. apply dkeys_dset_in in H. tauto.
  - rewrite dget_dset_eq in H.
    destruct (Qeq_bool t 0); rewrite ?dkeys_dset_in in H; tauto.
Qed.

Lemma save_running_time_nodup ts l t :
  NoDup (dkeys ts) -> NoDup (dkeys (save_running_time ts l t)).
Proof.
  unfold save_running_time. intros H.
  destruct (dget ts l) as [[a b]|] eqn:E.
  - destruct (Qeq_bool t 0); auto. rewrite E. now apply dkeys_dset_nodup.
  - rewrite dget_dset_eq. destruct (Qeq_bool t 0); repeat apply dkeys_dset_nodup; auto.
Qed.
