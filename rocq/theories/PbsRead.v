(** Reading back the files of a job. *)
From Verif Require Import Base BaseFacts PoolModel PoolProofs PbsModel PbsSpec.

Lemma pair_eq_dec : forall x y : nat * pystr, {x = y} + {x <> y}.
Proof. decide equality; [apply pystr_eq_dec|apply Nat.eq_dec]. Defined.

Lemma entries_dset {B} (d : dict (list B)) k v :
  Permutation (entries (dset d k v) ++ map (pair k) (dlist d k)) (entries d ++ map (pair k) v).
Proof.
  unfold entries, dlist. induction d as [|[k' q] d IH]; cbn [dset dget flat_map].
  - cbn. now rewrite !app_nil_r.
  - destruct (Nat.eqb_spec k k') as [->|N]; cbn [flat_map fst snd].
    + rewrite <- !app_assoc. rewrite (Permutation_app_comm (map (pair k') v)), <- app_assoc.
      rewrite app_assoc. rewrite (Permutation_app_comm (flat_map _ d)), <- app_assoc. reflexivity.
    + rewrite <- !app_assoc. apply Permutation_app_head. exact IH.
Qed.
Lemma entries_put {B} (d : dict (list B)) k x : Permutation (entries (put d k x)) (entries d ++ [(k, x)]).
Proof.
  unfold put. pose proof (entries_dset d k (dlist d k ++ [x])) as H. rewrite map_app in H. cbn in H.
  apply Permutation_app_inv_r with (l := map (pair k) (dlist d k)). rewrite H, <- app_assoc.
  apply Permutation_app_head, Permutation_app_comm.
Qed.
Lemma entries_In {B} (d : dict (list B)) k x : NoDup (dkeys d) -> In (k, x) (entries d) <-> In x (dlist d k).
Proof.
  intros N. unfold entries, dlist. rewrite in_flat_map. split.
  - intros ([k' q] & Hin & H). cbn in H. apply in_map_iff in H as (y & [= -> ->] & Hy).
    now rewrite (In_dget _ _ _ N Hin).
  - intros H. destruct (dget d k) as [q|] eqn:E; [|destruct H]. exists (k, q). split; [now apply dget_In|].
    cbn. now apply in_map.
Qed.
Lemma fold_put_ok {B C} (k : C -> nat) (v : C -> B) l : forall d, NoDup (dkeys d) ->
  let r := fold_left (fun d c => put d (k c) (v c)) l d in
  NoDup (dkeys r) /\ Permutation (entries r) (entries d ++ map (fun c => (k c, v c)) l).
Proof.
  induction l as [|c l IH]; intros d N; cbn.
  - rewrite app_nil_r. auto.
  - destruct (IH (put d (k c) (v c)) (NoDup_put _ _ _ N)) as [N' P]. split; auto. rewrite P, entries_put, <- app_assoc. reflexivity.
Qed.
Lemma group_ok {B} (l : list (nat * pystr * B)) :
  NoDup (dkeys (group l)) /\ Permutation (entries (group l)) (map (fun r => (fst (fst r), (snd (fst r), snd r))) l).
Proof. exact (fold_put_ok (fun r => fst (fst r)) (fun r => (snd (fst r), snd r)) l [] (NoDup_nil _)). Qed.

Lemma pys_in_true x l : pys_in x l = true <-> In x l.
Proof. unfold pys_in. destruct in_dec; intuition discriminate. Qed.
Lemma in_lids {B} (d : dict (list (pystr * B))) l i :
  NoDup (dkeys d) -> pys_in i (map fst (dlist d l)) = true <-> In (l, i) (map lid (entries d)).
Proof.
  intros N. rewrite pys_in_true, !in_map_iff. split.
  - intros ([i' b] & <- & H). exists (l, (i', b)). split; [reflexivity|]. now apply entries_In.
  - intros ([l' [i' b]] & [= -> ->] & H). exists (i, b). split; [reflexivity|]. now apply entries_In in H.
Qed.

Definition missing (l d : list (nat * pystr)) : list (nat * pystr) :=
  filter (fun p => if in_dec pair_eq_dec p d then false else true) l.

Lemma missing_ext l d d' : (forall x, In x l -> In x d <-> In x d') -> missing l d = missing l d'.
Proof.
  intros H. apply filter_ext_in. intros x Hx. specialize (H x Hx).
  destruct (in_dec pair_eq_dec x d), (in_dec pair_eq_dec x d'); intuition.
Qed.

Section Add.
Context {A : Type}.
Lemma add_missing_ok (succ : dict (list (pystr * A))) ss : NoDup (dkeys succ) -> forall fail,
  NoDup (dkeys fail) -> NoDup (map slid ss) ->
  let r := add_missing succ fail ss in
  NoDup (dkeys r)
  /\ Permutation (entries r) (entries fail ++ map (fun p => (fst p, (snd p, job_failed)))
                               (missing (map slid ss) (map lid (entries fail) ++ map lid (entries succ)))).
Proof.
  intros Ns. unfold add_missing. induction ss as [|s ss IH]; intros fail N ND; cbn [fold_left map].
  - cbn. rewrite app_nil_r. auto.
  - cbn [map] in ND. apply NoDup_cons_iff in ND as [Nin ND].
    destruct (pys_in (s_id s) (map fst (dlist fail (s_level s))) || pys_in (s_id s) (map fst (dlist succ (s_level s)))) eqn:E.
    + destruct (IH fail N ND) as [N1 P1]. split; auto. cbn zeta in P1. rewrite P1. unfold missing at 2. cbn [filter].
      destruct in_dec as [_|X]; [reflexivity|]. exfalso. apply X. apply in_app_iff. apply orb_prop in E as [E|E];
        apply in_lids in E; auto.
    + apply orb_false_elim in E as [E1 E2].
      destruct (IH (put fail (s_level s) (s_id s, job_failed)) (NoDup_put _ _ _ N) ND) as [N1 P1]. split; auto.
      cbn zeta in P1. rewrite P1.
      assert (missing (map slid ss) (map lid (entries (put fail (s_level s) (s_id s, job_failed))) ++ map lid (entries succ))
              = missing (map slid ss) (map lid (entries fail) ++ map lid (entries succ))) as Em.
      { apply missing_ext. intros x Hx. rewrite !in_app_iff.
        assert (In x (map lid (entries (put fail (s_level s) (s_id s, job_failed)))) <-> In x (map lid (entries fail))) as H.
        { pose proof (Permutation_map lid (entries_put fail (s_level s) (s_id s, job_failed))) as Q. rewrite map_app in Q. split; intros H.
          - apply (Permutation_in _ Q) in H. apply in_app_iff in H as [H|[H|[]]]; auto. exfalso. apply Nin. subst x. exact Hx.
          - apply (Permutation_in _ (Permutation_sym Q)). apply in_app_iff. now left. }
        now rewrite H. }
      rewrite Em, entries_put. unfold missing at 2. cbn [filter]. destruct in_dec as [X|_].
      * exfalso. apply in_app_iff in X as [X|X]; apply in_lids in X; auto; unfold slid in *; congruence.
      * cbn [map fst snd slid]. rewrite <- app_assoc. reflexivity.
Qed.
End Add.

Lemma missing_perm l d : NoDup l -> NoDup d -> incl d l -> Permutation (d ++ missing l d) l.
Proof.
  intros Nl Nd I. apply NoDup_Permutation; auto.
  - apply NoDup_app_iff. ands; auto; [now apply NoDup_filter|]. intros x Hx H. unfold missing in H. apply filter_In in H as [_ H].
    destruct in_dec; [discriminate|contradiction].
  - intros x. rewrite in_app_iff. unfold missing. rewrite filter_In. split.
    + intros [H|[H _]]; auto.
    + intros H. destruct (in_dec pair_eq_dec x d); auto.
Qed.

Section Worker.
Context {A : Type}.
Variable out : samp -> A + pystr.
Variable clock : nat -> Z.

Lemma done_app (a b : list (event A)) : done (a ++ b) = done a ++ done b.
Proof. apply flat_map_app. Qed.
Lemma done_calc ss : forall cur start n k, done (calc out clock ss cur start n k) = map slid ss.
Proof.
  induction ss as [|s ss IH]; intros; [reflexivity|]. cbn -[done]. unfold done; cbn [flat_map]. fold (@done A).
  change (flat_map _ ?x) with (done x). rewrite IH. destruct (out s); reflexivity.
Qed.
Lemma insert_perm s l : Permutation (insert s l) (s :: l).
Proof.
  induction l as [|x l IH]; cbn; [reflexivity|]. destruct Nat.leb; [reflexivity|]. rewrite IH. apply perm_swap.
Qed.
Lemma sort_perm l : Permutation (sort_level l) l.
Proof. induction l as [|x l IH]; cbn; [constructor|]. now rewrite insert_perm, IH. Qed.
Lemma sorted_insert s l : sorted l -> sorted (insert s l).
Proof.
  induction l as [|x l IH]; cbn; intros H; [auto|]. destruct H as [F H].
  destruct (Nat.leb_spec (s_level s) (s_level x)); cbn; ands; auto.
  - constructor; [auto|]. eapply Forall_impl; [|exact F]. cbn. intros; lia.
  - apply Forall_forall. intros y Hy. apply (Permutation_in _ (insert_perm s l)) in Hy as [<-|Hy]; [lia|].
    rewrite Forall_forall in F. auto.
Qed.
Lemma sort_sorted l : sorted (sort_level l).
Proof. induction l; cbn; auto using sorted_insert. Qed.

(** What the events leave in the files. *)
Definition succs (es : list (event A)) := flat_map (fun e => match e with EvSucc r => [r] | _ => [] end) es.
Definition fails (es : list (event A)) := flat_map (fun e => match e with EvFail r => [r] | _ => [] end) es.
Definition trecs (es : list (event A)) := flat_map (fun e => match e with EvTimes r => r | _ => [] end) es.
Lemma do_events_files es : forall x,
  do_events x es = mkJ (f_sched x) (f_succ x ++ succs es) (f_fail x ++ fails es) (f_times x ++ trecs es).
Proof.
  unfold do_events. induction es as [|e es IH]; intros x; cbn [fold_left].
  - cbn. rewrite !app_nil_r. now destruct x.
  - rewrite IH. destruct e; cbn; rewrite <- ?app_assoc; reflexivity.
Qed.
Lemma done_files es : Permutation (done es) (map fst (succs es) ++ map fst (fails es)).
Proof.
  induction es as [|e es IH]; cbn; [constructor|]. change (flat_map _ es) with (done es) at 1. destruct e as [r|r|r]; cbn.
  - now rewrite IH.
  - rewrite IH. apply Permutation_middle.
  - exact IH.
Qed.
Lemma calc_events ss : forall cur start n k e, In e (calc out clock ss cur start n k) ->
  match e with
  | EvSucc r => exists s, In s ss /\ out s = inl (snd r) /\ fst r = slid s
  | EvFail r => exists s, In s ss /\ out s = inr (snd r) /\ fst r = slid s
  | EvTimes _ => True
  end.
Proof.
  induction ss as [|s ss IH]; intros cur start n k e H; [destruct H|]. cbn in H. destruct H as [<-|[<-|H]].
  - destruct (out s) eqn:E; exists s; cbn; auto.
  - exact I.
  - apply IH in H. destruct e; auto; destruct H as (s' & H); exists s'; cbn; tauto.
Qed.
End Worker.
