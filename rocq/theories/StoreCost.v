From Coq Require Import Lqa.
From Verif Require Import Base BaseFacts PoolModel PoolProofs PoolSpec PoolFacts HdfModel HdfProofs StoreModel StoreSpec StoreProofs.

Definition Zn (n : nat) : Q := inject_Z (Z.of_nat n).
Lemma Zn_S n : (Zn (S n) == Zn n + 1)%Q.
Proof. unfold Zn. rewrite Nat2Z.inj_succ, <- Z.add_1_r, inject_Z_plus. reflexivity. Qed.
Lemma Zn_pos n : (0 <= Zn n)%Q.
Proof. unfold Zn. change 0%Q with (inject_Z 0). rewrite <- Zle_Qle. lia. Qed.

(** Sum of the times and of the counts of the records with at least one sample. *)
Definition total_time (rs : list (Q * nat)) : Q := fold_right (fun r a => match snd r with 0 => a | S _ => (fst r + a)%Q end) 0%Q rs.
Definition total_count (rs : list (Q * nat)) : nat := list_sum (map snd rs).

Lemma add_records rs : forall c,
  (fst (fold_left add_record rs c) == fst c + total_time rs)%Q
  /\ (snd (fold_left add_record rs c) == snd c + Zn (total_count rs))%Q.
Proof.
  induction rs as [|[t n] rs IH]; intros c; cbn [fold_left].
  - unfold Zn, total_count; cbn. split; ring.
  - destruct (IH (add_record c (t, n))) as [A B]. rewrite A, B.
    assert (Ec : (Zn (total_count ((t, n) :: rs)) == Zn n + Zn (total_count rs))%Q).
    { unfold total_count, Zn. cbn [map snd]. change (list_sum (n :: map snd rs)) with (n + list_sum (map snd rs)).
      rewrite Nat2Z.inj_add, inject_Z_plus. reflexivity. }
    rewrite Ec. unfold add_record, total_time. cbn [fst snd fold_right].
    fold (total_time rs). destruct n as [|n]; cbn [fst snd].
    + unfold Zn at 2. cbn [Z.of_nat]. change (inject_Z 0) with 0%Q. split; ring.
    + fold (Zn (S n)). split; ring.
Qed.

Section Cost.
Context {X : Type}.

(** What get_n_ops gives for every level when all levels have a record. *)
Lemma hdf_n_ops L (h : list (sop X)) o f : SInv L h o f -> (forall l, l < L -> time_records l h <> []) ->
  exists v, get_n_ops o f = Ok v /\ length v = L /\ forall l q, nth_error v l = Some q ->
    (q == if Nat.eqb (total_count (time_records l h)) 0 then 0
          else total_time (time_records l h) / Zn (total_count (time_records l h)))%Q.
Proof.
  intros (gs & HF & Hg) Hr. unfold get_n_ops. rewrite (groups_of_Full _ _ _ _ HF). cbn [bind].
  pose proof HF as (Ho & _ & Hl). rewrite Ho, seq_length, <- Hl.
  set (val := fun g : lgroup (list X * list X) => match g_nops g with Some (t, n) => if Qle_bool n 0 then 0%Q else (t / n)%Q | None => 0%Q end).
  assert (H : forall (gs0 : list (lgroup (list X * list X))) pre, (forall g, In g gs0 -> g_nops g <> None) ->
     fold_left (fun r x => bind r (fun a =>
        match g_nops (snd x) with
        | None => Err TypeError
        | Some (t, n) =>
            if Nat.ltb (fst x) (length a)
            then Ok (upd a (fst x) (fun _ => if Qle_bool n 0 then 0%Q else (t / n)%Q))
            else Err IndexError
        end)) (index_from (length pre) gs0) (Ok (pre ++ repeat 0%Q (length gs0)))
     = Ok (pre ++ map val gs0)).
  { induction gs0 as [|g gs0 IH]; intros pre Hn; cbn [index_from fold_left map length repeat]; auto.
    cbn [bind fst snd]. rewrite app_length. cbn [length].
    destruct (Nat.ltb_spec (length pre) (length pre + S (length (repeat 0%Q (length gs0))))); [|lia].
    unfold val at 1. destruct (g_nops g) as [[t n]|] eqn:En; [|exfalso; apply (Hn g); [now left|auto]].
    rewrite upd_app_r. specialize (IH (pre ++ [if Qle_bool n 0 then 0%Q else (t / n)%Q])).
    rewrite <- !app_assoc, app_length in IH. cbn [app length] in IH. rewrite Nat.add_1_r in IH. apply IH.
    intros g' Hg'. apply Hn. now right. }
  specialize (H gs []). cbn [app length] in H. rewrite H.
  - exists (map val gs). ands; auto; [now rewrite map_length|]. intros l q Hq. rewrite nth_error_map in Hq.
    destruct (nth_error gs l) as [g|] eqn:Eg; [|discriminate]. injection Hq as <-.
    pose proof (ho_nops _ _ _ (Hg _ _ Eg)) as Hn. unfold val. rewrite Hn.
    assert (Hll : l < L) by (rewrite <- Hl; apply nth_error_Some; congruence).
    specialize (Hr l Hll). unfold nops_of. destruct (time_records l h) as [|r rs]; [congruence|]. clear Hr.
    destruct (add_records (r :: rs) (0%Q, 0%Q)) as [A B]. cbn [fst snd] in A, B.
    destruct (fold_left add_record (r :: rs) (0%Q, 0%Q)) as [t n]. cbn [fst snd] in A, B.
    destruct (Nat.eqb_spec (total_count (r :: rs)) 0) as [Z|Z].
    + rewrite Z in B. unfold Zn in B. cbn [Z.of_nat] in B. change (inject_Z 0) with 0%Q in B. destruct (Qle_bool n 0) eqn:Eb; [reflexivity|].
      assert (n <= 0)%Q by lra. apply Qle_bool_iff in H0. congruence.
    + assert (0 < Zn (total_count (r :: rs)))%Q.
      { unfold Zn. change 0%Q with (inject_Z 0). rewrite <- Zlt_Qlt. lia. }
      destruct (Qle_bool n 0) eqn:Eb; [apply Qle_bool_iff in Eb; lra|]. rewrite A, B.
      assert (E1 : (0 + total_time (r :: rs) == total_time (r :: rs))%Q) by ring.
      assert (E2 : (0 + Zn (total_count (r :: rs)) == Zn (total_count (r :: rs)))%Q) by ring. rewrite E1, E2. reflexivity.
  - intros g Hin. apply In_nth_error in Hin as [l El]. rewrite (ho_nops _ _ _ (Hg _ _ El)).
    assert (Hll : l < L) by (rewrite <- Hl; apply nth_error_Some; congruence).
    specialize (Hr l Hll). unfold nops_of. destruct (time_records l h); congruence.
Qed.

Lemma total_bounds a b rs : (forall t n, In (t, n) rs -> 0 < n -> (a * Zn n <= t /\ t <= b * Zn n)%Q) ->
  (a * Zn (total_count rs) <= total_time rs /\ total_time rs <= b * Zn (total_count rs))%Q.
Proof.
  induction rs as [|[t n] rs IH]; intros H.
  - change (total_time []) with 0%Q. change (Zn (total_count [])) with 0%Q. lra.
  - destruct IH as [A B]; [intros t' n' Hin; apply H; now right|].
    assert (Ec : (Zn (total_count ((t, n) :: rs)) == Zn n + Zn (total_count rs))%Q).
    { unfold total_count, Zn. cbn [map snd]. change (list_sum (n :: map snd rs)) with (n + list_sum (map snd rs)).
      rewrite Nat2Z.inj_add, inject_Z_plus. reflexivity. }
    rewrite Ec. unfold total_time. cbn [fold_right fst snd]. fold (total_time rs). destruct n as [|n].
    + change (Zn 0) with 0%Q. lra.
    + destruct (H t (S n)) as [C D]; [now left|lia|]. lra.
Qed.

End Cost.

(** The pool's records are the cumulative running times at the moment of the poll. *)
Section PoolCost.
Context (E : env).

Lemma answers_times ops a l : In a (snd (pool_run E ops)) -> exists k, 
  time_of (fin_times a) l =
   let ts := filter (fun t => negb (Qeq_bool t 0)) (run_times E l 0 (firstn k (hands E ops))) in (Qsum ts, length ts).
Proof.
  induction ops as [|x ops IH] using rev_ind; [intros []|]. unfold pool_run. rewrite fold_left_app. fold (pool_run E ops). cbn [fold_left].
  intros Ha. rewrite hands_app. destruct x as [id ls|]; cbn [pool_step hands snd] in *.
  - destruct (IH Ha) as [k Hk]. exists (Nat.min k (length (hands E ops))). rewrite Hk. cbv zeta.
    rewrite firstn_app. replace (Nat.min k (length (hands E ops)) - length (hands E ops)) with 0 by lia. cbn [firstn].
    rewrite app_nil_r. destruct (Nat.le_gt_cases k (length (hands E ops))) as [H|H].
    + now rewrite Nat.min_l.
    + rewrite Nat.min_r by lia. rewrite firstn_all, firstn_all2 by lia. reflexivity.
  - destruct (get_finished (fst (pool_run E ops))) as [p' a'] eqn:Eg. cbn [snd] in Ha. rewrite app_nil_r.
    apply in_app_or in Ha as [Ha|[<-|[]]]; [now apply IH|]. exists (length (hands E ops)). rewrite firstn_all.
    pose proof (pi_time _ _ _ _ (run_PInv E ops) l) as A. unfold get_finished in Eg.
    destruct (queues_to_list (queues (fst (pool_run E ops)))) as [[ok qs] n1].
    destruct (queues_to_list (failed_queues (fst (pool_run E ops)))) as [[bad fqs] n2].
    injection Eg as _ <-. cbn [fin_times]. exact A.
Qed.

Lemma Qsum_bounds a b ts : Forall (fun t => a <= t /\ t <= b)%Q ts ->
  (a * Zn (length ts) <= Qsum ts /\ Qsum ts <= b * Zn (length ts))%Q.
Proof.
  unfold Qsum. induction ts as [|t ts IH] using rev_ind; intros H.
  - change (Zn (length (@nil Q))) with 0%Q. cbn [fold_left]. lra.
  - apply Forall_app in H as [H1 H2]. inversion_clear H2 as [|? ? [Ha Hb] _]. destruct (IH H1) as [A B].
    rewrite fold_left_app, app_length, Nat.add_1_r, Zn_S. cbn [fold_left]. lra.
Qed.

Lemma run_times_bounds a b l xs : (forall k, a <= duration E k /\ duration E k <= b)%Q -> forall k,
  Forall (fun t => a <= t /\ t <= b)%Q (run_times E l k xs).
Proof.
  intros H. induction xs as [|x xs IH]; intros k; cbn [run_times]; [constructor|]. apply Forall_app. split; auto.
  destruct (Nat.eqb (ls_level (snd x)) l); [|constructor]. destruct (calculate E k _ _); repeat constructor; apply H.
Qed.

Lemma answer_bounds a b ops r l t n : (forall k, a <= duration E k /\ duration E k <= b)%Q ->
  In r (snd (pool_run E ops)) -> dget (fin_times r) l = Some (t, n) -> (a * Zn n <= t /\ t <= b * Zn n)%Q.
Proof.
  intros H Hr Hd. destruct (answers_times ops r l Hr) as [k Hk]. unfold time_of in Hk. rewrite Hd in Hk. cbv zeta in Hk.
  assert (Ht : t = Qsum (filter (fun t => negb (Qeq_bool t 0)) (run_times E l 0 (firstn k (hands E ops))))) by congruence.
  assert (Hn : n = length (filter (fun t => negb (Qeq_bool t 0)) (run_times E l 0 (firstn k (hands E ops))))) by congruence.
  rewrite Ht, Hn. apply Qsum_bounds. apply Forall_forall. intros x Hx. apply filter_In in Hx as [Hx _].
  pose proof (run_times_bounds a b l (firstn k (hands E ops)) H 0) as F. rewrite Forall_forall in F. auto.
Qed.

End PoolCost.
