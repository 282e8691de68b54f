(** Properties of the process and thread pools (C07, C08, C77, C78). *)
From Coq Require Import Permutation.
From Verif Require Import Base BaseFacts PoolModel PoolProofs ConcModel ConcSpec ConcProofs.

Definition smp (c : ascii) : pystr := [c].
Definition a : pystr := smp "a".
Definition b : pystr := smp "b".

(** C07, all interleavings: no sample is returned twice, only delivered results are returned, and the counter is the
    number of scheduled samples not returned yet. Missing against the full statement: that every delivered result is
    returned, which is false when a result arrives between copy and clear (see the refutation). *)
Theorem C07_handover_partial {A} (ls : list (label A)) s :
  crun init ls = Some s -> NoDup (scheduled ls) ->
  NoDup (map fst (reported s)) /\ incl (reported s) (delivered ls)
  /\ (main s = Idle -> running s = (Z.of_nat (length (scheduled ls)) - Z.of_nat (length (reported s)))%Z)
  /\ (0 <= running s)%Z.
Proof.
  intros R N. destruct (run_inv _ _ _ _ _ _ _ inv_init R) as (e & lo & I & _). cbn in I.
  destruct I as (P & T & Rn & _). ands.
  - apply (Permutation_NoDup T) in N. apply NoDup_app_iff in N as (_ & N & _). apply NoDup_app_iff in N as (N & _ & _).
    apply (Permutation_NoDup (Permutation_map fst P)) in N. rewrite map_app in N. now apply NoDup_app_iff in N as (N & _ & _).
  - intros x Hx. apply (Permutation_in _ (Permutation_sym P)). apply in_app_iff. now left.
  - intros M. rewrite Rn, M. cbn. lia.
  - rewrite Rn. apply Permutation_length in P, T. rewrite !app_length in P, T. rewrite !map_length in T. unfold item in *. lia.
Qed.

(** C07 is false: a result delivered between the copy of its queue and the clear is never returned, whatever happens
    later, and the counter never gets back to zero. *)
Theorem C07_handover_refuted : exists (ls : list (label Z)) s id,
  crun init ls = Some s /\ scheduled ls = [a; b] /\ In id (map fst (delivered ls)) /\ map fst (delivered ls) = scheduled ls
  /\ tasks s = [] /\ alive s = true /\ main s = Idle /\ forallb (fun l => negb (escapes l)) ls = true
  /\ forall ls' s', crun s ls' = Some s' -> ~ In id (map fst (reported s')) \/ ~ NoDup (scheduled (ls ++ ls')).
Proof.
  pose (ls := [Schedule 0 a; Schedule 0 b; Deliver 0 a (Done 1%Z); Main; Main; Deliver 0 b (Done 2%Z); Main; Main; Main]).
  pose (s := mkC 1 [(0, [])] [] [] true Idle [([(a, inl 1%Z)], 1%Z)]).
  assert (crun init ls = Some s) as R by (vm_compute; reflexivity). exists ls, s, b.
  ands; try exact R; try reflexivity; [cbn; auto|]. intros ls' s' R'.
  assert (inv s [a; b] [(a, inl 1%Z); (b, inl 2%Z)] [] [(b, inl 2%Z)]) as I.
  { unfold inv, window; cbn. ands; auto; try (apply NoDup_cons; [cbn; tauto|apply NoDup_nil]); try apply NoDup_nil. }
  destruct (run_inv _ _ _ _ _ _ _ I R') as (e & lo & I' & _). destruct I' as (P & T & _).
  destruct (ListDec.NoDup_dec pystr_eq_dec (scheduled (ls ++ ls'))) as [N|N]; [left|now right].
  unfold scheduled in N. rewrite flat_map_app in N. change (flat_map _ ls) with [a; b] in N.
  apply (Permutation_NoDup T) in N. apply NoDup_app_iff in N as (_ & N & _). apply NoDup_app_iff in N as (N & _ & _).
  apply (Permutation_NoDup (Permutation_map fst P)) in N. rewrite map_app in N. apply NoDup_app_iff in N as (_ & _ & N).
  intros Hb. apply (N _ Hb). rewrite !map_app, !in_app_iff. cbn. tauto.
Qed.
Theorem C07_counter_refuted : exists (ls : list (label Z)) s,
  crun init ls = Some s /\ tasks s = [] /\ main s = Idle /\ map fst (delivered ls) = scheduled ls
  /\ forall ls' s', crun s ls' = Some s' -> (1 <= running s')%Z.
Proof.
  pose (ls := [Schedule 0 a; Schedule 0 b; Deliver 0 a (Done 1%Z); Main; Main; Deliver 0 b (Done 2%Z); Main; Main; Main]).
  pose (s := mkC 1 [(0, [])] [] [] true Idle [([(a, inl 1%Z)], 1%Z)]).
  assert (crun init ls = Some s) as R by (vm_compute; reflexivity). exists ls, s.
  ands; try exact R; try reflexivity. intros ls' s' R'.
  assert (inv s [a; b] [(a, inl 1%Z); (b, inl 2%Z)] [] [(b, inl 2%Z)]) as I.
  { unfold inv, window; cbn. ands; auto; try (apply NoDup_cons; [cbn; tauto|apply NoDup_nil]); try apply NoDup_nil. }
  destruct (run_inv _ _ _ _ _ _ _ I R') as (e & lo & I' & _). destruct I' as (P & T & Rn & _).
  apply Permutation_length in P, T. rewrite Rn. revert P T. rewrite !app_length, !map_length. cbn [length]. intros. unfold item in *. rewrite app_length in T. cbn [length] in T. lia.
Qed.

(** C77: without an escaping exception and without a delivery in the window, the next get_finished after the last
    delivery completes, all delivered results have then been returned exactly once, and nothing is counted as running. *)
Theorem C77_quiet_handover {A} (ls : list (label A)) s :
  crun init ls = Some s -> quiet init ls = true -> main s = Idle -> tasks s = [] ->
  exists n s' r, crun s (repeat Main (S n)) = Some s' /\ main s' = Idle /\ answers s' = answers s ++ [(r, 0%Z)]
  /\ Permutation (reported s') (delivered ls) /\ Permutation (map fst (reported s')) (scheduled ls) /\ running s' = 0%Z.
Proof.
  intros R Q M T. destruct (run_inv _ _ _ _ _ _ _ inv_init R) as (e & lo & I & QI). cbn in I.
  destruct (QI Logic.I Q) as (-> & -> & Ti & _).
  pose proof I as (_ & _ & _ & _ & Ng & Nb).
  destruct (finish s M Ng Nb) as (n & s' & R' & M' & (r & An) & G & B & Q').
  destruct (run_inv _ _ _ _ _ _ _ I R') as (e & lo & I' & QI'). destruct (QI' Ti Q') as (-> & -> & _ & _).
  assert (forall k, scheduled (repeat (@Main A) k) = [] /\ delivered (repeat (@Main A) k) = []) as E
    by (induction k; cbn; auto).
  destruct (E (S n)) as [E1 E2]. rewrite E1, E2, !app_nil_r in I'. destruct I' as (P & Tk & Rn & _).
  rewrite G, B, M' in P. cbn in P. rewrite !app_nil_r in P.
  assert (tasks s' = []) as T'.
  { clear - R' T. revert s T R'. induction (S n) as [|k IH]; intros s T R; cbn [repeat crun] in R; [now injection R as <-|].
    destruct (cstep s Main) as [s1|] eqn:St; [|discriminate]. apply (IH s1); auto. cbn in St.
    destruct (main s) as [|f [|l todo] acc|f l q todo acc]; try destruct f; injection St as <-; exact T. }
  rewrite T' in Tk. cbn in Tk. rewrite app_nil_r in Tk.
  assert (running s' = 0%Z) as Z0.
  { rewrite Rn, M'. cbn. apply Permutation_length in P, Tk. rewrite map_length in Tk. unfold item in *. lia. }
  exists n, s', r. ands; auto.
  - now rewrite <- Z0.
  - now rewrite P.
  - rewrite Tk. apply Permutation_map. now rewrite P.
Qed.

(** C08 is false: once an exception has escaped from the worker for a sample, that sample is never returned, neither as
    finished nor as failed, the counter stays positive, and no later result is delivered. *)
Theorem C08_escaped_never_reported {A} (ls : list (label A)) s level id :
  crun init ls = Some s -> NoDup (scheduled ls) -> In (Deliver level id Escaped) ls ->
  ~ In id (map fst (reported s)) /\ (1 <= running s)%Z /\ alive s = false.
Proof.
  intros R N H. apply in_split in H as (l1 & l2 & ->). rewrite crun_app in R.
  destruct (crun init l1) as [s1|] eqn:R1; [|discriminate]. cbn [crun] in R.
  destruct (cstep s1 (Deliver level id Escaped)) as [s2|] eqn:St; [|discriminate].
  destruct (run_inv _ _ _ _ _ _ _ inv_init R1) as (e1 & lo1 & I1 & _). cbn in I1.
  assert (inv s2 (scheduled l1) (delivered l1) (e1 ++ [id]) lo1) as I2.
  { cbn in St. destruct (alive s1); [|discriminate]. destruct (remove_task (level, id) (tasks s1)) as [ts|] eqn:RT; [|discriminate].
    apply remove_task_perm in RT. injection St as <-. unfold inv, window in *; cbn in *. destruct I1 as (P & T & Rest).
    ands; try tauto. rewrite T, (Permutation_map snd RT); cbn. rewrite !app_assoc. apply Permutation_cons_append. }
  destruct (run_inv _ _ _ _ _ _ _ I2 R) as (e & lo & I' & _). destruct I' as (P & T & Rn & _).
  assert (alive s2 = false) as Al.
  { cbn in St. destruct (alive s1); [|discriminate]. destruct remove_task; [|discriminate]. now injection St as <-. }
  unfold scheduled in N. rewrite flat_map_app in N. cbn [flat_map app] in N. unfold scheduled in T.
  assert (length (flat_map (fun l => match l with Schedule _ id => [id] | _ => [] end) l1 ++
                  flat_map (fun l => match l with Schedule _ id => [id] | _ => [] end) l2) >=
          1 + length (delivered l1 ++ delivered l2)) as Len.
  { apply Permutation_length in T. rewrite T. rewrite !app_length, !map_length. cbn. rewrite !app_length. lia. }
  ands.
  - apply (Permutation_NoDup T) in N. apply NoDup_app_iff in N as (_ & N & _). apply NoDup_app_iff in N as (_ & _ & N).
    intros Hb. apply (N id).
    + apply (Permutation_in _ (Permutation_map fst (Permutation_sym P))). rewrite map_app, in_app_iff. now left.
    + rewrite !in_app_iff. cbn. tauto.
  - apply Permutation_length in P. rewrite P in Len. rewrite Rn. unfold scheduled. rewrite !app_length in *. unfold item in *. lia.
  - clear - R Al. revert s2 Al R. induction l2 as [|l ls IH]; intros s2 Al R; cbn in R; [now injection R as <-|].
    destruct (cstep s2 l) as [s3|] eqn:St; [|discriminate]. apply (IH s3); auto.
    destruct l as [lv i|lv i w|]; cbn in St.
    + destruct (main s2); try discriminate. now injection St as <-.
    + now rewrite Al in St.
    + destruct (main s2) as [|f [|l todo] acc|f l q todo acc]; try destruct f; now injection St as <-.
Qed.
Theorem C08_worker_error_refuted : exists (ls : list (label Z)) s,
  crun init ls = Some s /\ main s = Idle /\ scheduled ls = [a] /\ In (Deliver 0 a Escaped) ls
  /\ forall ls' s', crun s ls' = Some s' -> NoDup (scheduled (ls ++ ls')) ->
       ~ In a (map fst (reported s')) /\ (1 <= running s')%Z.
Proof.
  pose (ls := [Schedule 0 a; Deliver 0 a Escaped] : list (label Z)).
  pose (s := mkC 1 [] [] [] false Idle [] : cst Z).
  assert (crun init ls = Some s) as R by (vm_compute; reflexivity). exists ls, s. ands; try exact R; try reflexivity; [cbn; auto|].
  intros ls' s' R' N. assert (crun init (ls ++ ls') = Some s') as RR by (rewrite crun_app, R; exact R').
  destruct (C08_escaped_never_reported _ _ 0 a RR N) as (H1 & H2 & _); [cbn; auto|]. auto.
Qed.

(** C08 for errors raised inside the try block: they are returned as failed samples with their message, and the wait
    ends. Missing: errors outside of it, for which the statement is false. *)
Theorem C08_worker_error_partial {A} (ls : list (label A)) s :
  crun init ls = Some s -> quiet init ls = true -> main s = Idle -> tasks s = [] ->
  exists n s', crun s (repeat Main (S n)) = Some s' /\ main s' = Idle /\ running s' = 0%Z
  /\ forall id m, In (id, inr m) (reported s') <-> exists level, In (Deliver level id (Failed m)) ls.
Proof.
  intros R Q M T. destruct (C77_quiet_handover ls s R Q M T) as (n & s' & r & R' & M' & _ & P & _ & Z0).
  exists n, s'. ands; auto. intros id m. split.
  - intros H. apply (Permutation_in _ P) in H. unfold delivered in H. apply in_flat_map in H as (l & Hl & H).
    destruct l as [?|lv i [x|m'|]|]; cbn in H; try tauto; destruct H as [H|[]]; try discriminate.
    injection H as <- <-. now exists lv.
  - intros (lv & H). apply (Permutation_in _ (Permutation_sym P)). unfold delivered. apply in_flat_map.
    exists (Deliver lv id (Failed m)). cbn. auto.
Qed.
Theorem C78_guarded_errors_reported {A} (ls : list (label A)) s :
  crun init ls = Some s -> quiet init ls = true -> main s = Idle -> tasks s = [] ->
  exists n s', crun s (repeat Main (S n)) = Some s' /\ main s' = Idle /\ running s' = 0%Z
  /\ forall id m, In (id, inr m) (reported s') <-> exists level, In (Deliver level id (Failed m)) ls.
Proof. exact (C08_worker_error_partial ls s). Qed.

(** Two samples on two levels, one finished while get_finished already runs and one failed. *)
Definition demo : list (label Z) :=
  [Schedule 0 a; Schedule 1 b; Main; Deliver 1 b (Failed (smp "!")); Main; Deliver 0 a (Done 7%Z); Main; Main; Main].
Example demo_runs : exists s, crun init demo = Some s /\ quiet init demo = true /\ main s = Idle /\ tasks s = []
  /\ NoDup (scheduled demo) /\ reported s = [(b, inr (smp "!"))] /\ running s = 1%Z.
Proof.
  exists (mkC 1 [(0, [(a, inl 7%Z)])] [(1, [])] [] true Idle [([(b, inr (smp "!"))], 1%Z)]).
  ands; try (vm_compute; reflexivity). change (scheduled demo) with [a; b]. apply NoDup_cons; [intros [H|[]]; discriminate H|apply NoDup_cons; [intros []|apply NoDup_nil]].
Qed.
Example demo_next : exists s, crun init (demo ++ repeat Main 6) = Some s /\ main s = Idle
  /\ reported s = [(b, inr (smp "!")); (a, inl 7%Z)] /\ running s = 0%Z.
Proof. exists (mkC 0 [(0, [])] [(1, [])] [] true Idle [([(b, inr (smp "!"))], 1%Z); ([(a, inl 7%Z)], 0%Z)]). ands; vm_compute; reflexivity. Qed.

Print Assumptions C07_handover_partial.
Print Assumptions C07_handover_refuted.
Print Assumptions C07_counter_refuted.
Print Assumptions C77_quiet_handover.
Print Assumptions C08_escaped_never_reported.
Print Assumptions C08_worker_error_refuted.
Print Assumptions C08_worker_error_partial.
Print Assumptions C78_guarded_errors_reported.
