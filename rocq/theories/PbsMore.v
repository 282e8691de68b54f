(** Further facts about the batch system pool: sizes of pending samples, ids over whole runs, reported values. *)
From Verif Require Import Base BaseFacts PermTac PoolModel PoolProofs PbsModel PbsSpec PbsRead PbsPool PbsSystem PbsInv.

Lemma b_sizes ops : forall b pre0, exists pre, pre0 ++ map snd (b_pend b) ++ sizes ops = pre ++ map snd (b_pend (fst (b_run b ops))).
Proof.
  assert (forall b q pre0, exists pre, pre0 ++ map snd (b_pend b) = pre ++ map snd (b_pend (fst (b_submit b q)))) as Sub.
  { intros b q pre0. unfold b_submit. destruct (b_pend b) as [|x l] eqn:E; cbn; [rewrite E; eauto|]. destruct q; cbn; [|eauto].
    exists (pre0 ++ snd x :: map snd l). now rewrite app_nil_r. }
  induction ops as [|o ops IH]; intros b pre0.
  - cbn. rewrite app_nil_r. eauto.
  - cbn [b_run]. destruct (b_step b o) as [b1 e] eqn:St. destruct (b_run b1 ops) as [b2 es] eqn:R. cbn [fst].
    assert (exists pre1, pre0 ++ map snd (b_pend b) ++ sizes [o] = pre1 ++ map snd (b_pend b1)) as (pre1 & E1).
    { destruct o as [s z q|q]; cbn [b_step sizes flat_map app] in *.
      - set (b' := mkB (b_jobs b) (b_pend b ++ [(s, z)]) (b_rej b)) in *.
        assert (pre0 ++ map snd (b_pend b) ++ [z] = pre0 ++ map snd (b_pend b')) as -> by (cbn; now rewrite map_app).
        destruct (_ && _)%bool; [injection St as <- _; eauto|]. destruct (Sub b' q pre0) as (pre1 & E). rewrite St in E. eauto.
      - rewrite app_nil_r. destruct (Sub b q pre0) as (pre1 & E). rewrite St in E. eauto. }
    destruct (IH b1 pre1) as (pre & E2). rewrite R in E2. cbn [fst] in E2. exists pre. rewrite <- E2.
    replace (sizes (o :: ops)) with (sizes [o] ++ sizes ops) by (destruct o; reflexivity). rewrite (app_assoc (map snd (b_pend b))), app_assoc, E1. now rewrite <- app_assoc.
Qed.
Lemma lastn_app {B} (a b : list B) n : n = length b -> lastn n (a ++ b) = b.
Proof.
  intros ->. unfold lastn. rewrite app_length. replace (length a + length b - length b) with (length a) by lia.
  now rewrite skipn_app, skipn_all, Nat.sub_diag.
Qed.

Section More.
Context {A : Type}.
Variable out : samp -> A + pystr.
Variable clock : nat -> nat -> Z.
Implicit Types f : fs A.

Lemma rejected n : forall (p : pbs) f, scheduled p <> [] -> n_in_job p = length (scheduled p) ->
  let '(p', f', es) := p_run p f (repeat (Flush None) n) in
  scheduled p' = scheduled p /\ n_in_job p' = n_in_job p /\ weight p' = weight p /\ pbs_files f' = pbs_files f
  /\ es = map (fun i => if Nat.ltb 10 i then Some PyException else None) (seq (S (qsub_failed p)) n).
Proof.
  induction n as [|n IH]; intros p f Hs Hn; [cbn; auto|]. cbn [repeat p_run p_step seq map].
  unfold execute. destruct (scheduled p) as [|s ss] eqn:E; [congruence|]. rewrite Hn. cbn [length Nat.eqb].
  set (p1 := mkP _ _ _ _ _ _ _ _). set (f1 := add_script _ _).
  specialize (IH p1 f1). cbn [scheduled p1] in IH. specialize (IH ltac:(congruence) eq_refl).
  destruct (p_run p1 f1 (repeat (Flush None) n)) as [[p' f'] es]. destruct IH as (H1 & H2 & H3 & H4 & H5).
  cbn in H2, H3, H4. ands; auto. now rewrite H5.
Qed.

Lemma qstat_err p ans : forall p2 e, qstat_job p ans = (p2, Err e) -> pbs_ids p2 = pbs_ids p.
Proof.
  intros p2 e. unfold qstat_job. destruct (pbs_ids p) eqn:Ep; [discriminate|].
  destruct ans as [fin|]; [destruct qloop; discriminate|].
  destruct Nat.ltb; [intros [= <- <-]; reflexivity|]. destruct qloop; discriminate.
Qed.

Lemma run_ids ops : NoDup (map slid (y_added ops)) -> NoDup (y_qsub ops) ->
  ids_ok (y_pool (y_run out clock ops)) (y_fs (y_run out clock ops)) (y_qsub ops).
Proof.
  induction ops as [|o ops IH] using rev_ind; intros Nd Nq.
  - unfold ids_ok; cbn. ands; auto; try apply NoDup_nil; intros ? [].
  - assert (y_added (ops ++ [o]) = y_added ops ++ y_added [o]) as Ea by apply flat_map_app.
    assert (y_qsub (ops ++ [o]) = y_qsub ops ++ y_qsub [o]) as Eq by apply flat_map_app.
    rewrite Ea in Nd. rewrite Eq in *. pose proof Nd as Nd'. rewrite map_app in Nd'. apply NoDup_app_iff in Nd' as (Nd1 & _ & _).
    pose proof Nq as Nq'. apply NoDup_app_iff in Nq' as (Nq1 & _ & Dj). specialize (IH Nd1 Nq1).
    destruct (run_ok out clock ops Nd1) as [J Ac]. unfold y_run. rewrite fold_left_app. cbn [fold_left].
    fold (y_run out clock ops). set (y := y_run out clock ops) in *.
    destruct o as [s z q|q ans|j k]; cbn [y_step y_qsub flat_map] in *; rewrite ?app_nil_r in *.
    + unfold schedule_sample. set (p1 := mkP (scheduled (y_pool y) ++ [s]) _ _ _ _ _ _ _).
      assert (jobs_ok out clock p1 (y_fs y) (y_prog y)) as J'.
      { unfold jobs_ok, p1 in *; cbn. rewrite app_length. cbn. destruct J as (-> & J). split; [lia|exact J]. }
      destruct (_ || _)%bool.
      * pose proof (execute_ids out clock p1 (y_fs y) (y_prog y) q (y_qsub ops) J' IH) as E.
        destruct (execute p1 (y_fs y) q) as [[p' f'] e]. cbn [y_pool y_fs]. apply E.
        intros id -> Hi. apply (Dj id Hi). now left.
      * cbn [y_pool y_fs]. destruct IH as (I1 & I2 & I3 & I4). unfold ids_ok; ands; auto.
        intros i Hi. apply in_app_iff. left. auto.
    + pose proof (poll_count out clock (y_pool y) (y_fs y) (y_prog y) (y_reports y) (y_added ops) (y_qsub ops) q ans J Ac) as P.
      specialize (P Nd1 IH).
      assert (forall id, q = Some id -> ~ In id (y_qsub ops)) as Fr by (intros id -> Hi; apply (Dj id Hi); now left).
      specialize (P Fr). destruct (get_finished (y_pool y) (y_fs y) q ans) as [[p' f'] r]. cbn [y_pool y_fs]. apply P.
    + unfold work. destruct (dget _ j); [|exact IH]. destruct Nat.ltb; [|exact IH]. cbn [y_pool y_fs]. exact IH.
Qed.

(** Values in the answers. *)
Definition own (add : list samp) (a : answer A) : Prop :=
  let '(s, e, _) := a in
  (forall l i v, In (l, (i, v)) (entries s) -> exists x, In x add /\ slid x = (l, i) /\ out x = inl v)
  /\ (forall l i m, In (l, (i, m)) (entries e) -> exists x, In x add /\ slid x = (l, i) /\ (out x = inr m \/ m = job_failed)).
Lemma own_more add add' a : incl add add' -> own add a -> own add' a.
Proof.
  destruct a as [[s e] t]. intros I [H1 H2]. split.
  - intros l i v H. destruct (H1 l i v H) as (x & Hx & ?). exists x. auto.
  - intros l i v H. destruct (H2 l i v H) as (x & Hx & ?). exists x. auto.
Qed.

Lemma job_own j m x : job_state out clock j m x -> NoDup (map slid (f_sched x)) -> own (f_sched x) (fst (fst (read_results x)), snd (fst (read_results x)), []).
Proof.
  intros (ss & Ns & ->) N. rewrite (sched_of_state out clock j m _ ss eq_refl) in N |- *.
  set (l := calculate_samples out (clock j) ss).
  pose proof (killed_job out (clock j) ss (firstn m l) (skipn m l) (eq_sym (firstn_skipn _ _)) N) as K.
  destruct (read_results _) as [[s e] t]. destruct K as (_ & _ & Ps & Pe & _). cbn [fst snd].
  assert (forall ev, In ev (firstn m l) -> In ev l) as Sub by (intros ev H; rewrite <- (firstn_skipn m l); apply in_app_iff; now left).
  assert (forall s0, In s0 (sort_level ss) -> In s0 ss) as Srt by (intros s0; apply Permutation_in, sort_perm).
  split.
  - intros l' i v H. apply (Permutation_in _ Ps) in H. apply in_map_iff in H as (r & [= <- <- <-] & Hr). unfold succs in Hr.
    apply in_flat_map in Hr as (ev & Hev & Hr). destruct ev as [r'| |]; try now destruct Hr. destruct Hr as [->|[]].
    pose proof (calc_events out (clock j) _ _ _ _ _ _ (Sub _ Hev)) as (s0 & Hs & Ho & Hsl).
    exists s0. ands; auto. rewrite <- Hsl. now destruct r as [[] ?].
  - intros l' i v H. apply (Permutation_in _ Pe) in H. apply in_app_iff in H as [H|H].
    + apply in_map_iff in H as (r & [= <- <- <-] & Hr). unfold fails in Hr.
      apply in_flat_map in Hr as (ev & Hev & Hr). destruct ev as [|r'|]; try now destruct Hr. destruct Hr as [->|[]].
      pose proof (calc_events out (clock j) _ _ _ _ _ _ (Sub _ Hev)) as (s0 & Hs & Ho & Hsl).
      exists s0. ands; auto. rewrite <- Hsl. now destruct r as [[] ?].
    + apply in_map_iff in H as (r & [= <- <- <-] & Hr). unfold missing in Hr. apply filter_In in Hr as [Hr _].
      apply in_map_iff in Hr as (s0 & Hs0 & Hin). exists s0. ands; auto. rewrite Hs0. now destruct r.
Qed.

Lemma collect_own add fin : forall f acc f' acc',
  (forall j id x, In (j, id) (pbs_files f) -> dget (jobs f) j = Some x -> own add (fst (fst (read_results x)), snd (fst (read_results x)), [])) ->
  own add acc -> collect f fin acc = (f', Ok acc') -> own add acc'.
Proof.
  induction fin as [|id fin IH]; intros f acc f' acc' H Ho C; cbn [collect] in C; [now injection C as _ <-|].
  destruct (find_job f id) as [j|] eqn:Fj; [|eauto]. apply find_job_In in Fj.
  destruct (dget (jobs f) j) as [x|] eqn:Dx; [|discriminate]. specialize (H j id x Fj Dx) as Hx.
  destruct (read_results x) as [[s e] t]. destruct acc as [[s0 e0] t0]. cbn [fst snd] in Hx.
  eapply IH; [| |exact C].
  - cbn [pbs_files jobs]. intros j' id' x' Hi Hd. apply (H j' id'); [|exact Hd]. now apply filter_In in Hi.
  - destruct Hx as [X1 X2], Ho as [O1 O2]. split.
    + intros l i v Hi. apply (Permutation_in _ (entries_extend s s0)), in_app_iff in Hi as [Hi|Hi]; eauto.
    + intros l i v Hi. apply (Permutation_in _ (entries_extend e e0)), in_app_iff in Hi as [Hi|Hi]; eauto.
Qed.

Lemma file_sched p f prog rep add j id x : jobs_ok out clock p f prog -> account p f rep add -> NoDup (map slid add) ->
  In (j, id) (pbs_files f) -> dget (jobs f) j = Some x -> NoDup (map slid (f_sched x)).
Proof.
  intros J Ac Nd H Dx. apply (Permutation_NoDup Ac) in Nd. apply NoDup_app_iff in Nd as (_ & Nd & _). apply NoDup_app_iff in Nd as (Nd & _ & _).
  apply in_split in H as (a & b & E).
  assert (file_lids f = map slid (concat (map (fun e => match dget (jobs f) (fst e) with Some x => f_sched x | None => [] end) a)) ++ map slid (f_sched x) ++
          map slid (concat (map (fun e => match dget (jobs f) (fst e) with Some x => f_sched x | None => [] end) b))) as El.
  { unfold file_lids, submitted. rewrite E, map_app, concat_app, map_app. cbn. now rewrite Dx, map_app. }
  rewrite El in Nd. apply NoDup_app_iff in Nd as (_ & Nd & _). now apply NoDup_app_iff in Nd as (Nd & _ & _).
Qed.

(** Every stored job and the pending samples come from the requests; every answer holds own results. *)
Definition known (y : sys (A:=A)) (add : list samp) : Prop :=
  (forall j x, dget (jobs (y_fs y)) j = Some x -> incl (f_sched x) add) /\ incl (scheduled (y_pool y)) add
  /\ Forall (fun r => own add (fst r)) (y_reports y).
Lemma execute_known (p : pbs) f q add :
  (forall j x, dget (jobs f) j = Some x -> incl (f_sched x) add) -> incl (scheduled p) add ->
  let '(p', f', e) := execute p f q in
  (forall j x, dget (jobs f') j = Some x -> incl (f_sched x) add) /\ incl (scheduled p') add.
Proof.
  intros H1 H2. unfold execute. destruct (scheduled p) as [|s ss] eqn:E; [rewrite E; auto|]. rewrite <- E in *.
  assert (forall j x, dget (jobs (save_job f (job_count p) (scheduled p))) j = Some x -> incl (f_sched x) add) as H3.
  { intros j x. cbn. destruct (Nat.eq_dec j (job_count p)) as [->|N].
    - rewrite dget_dset_eq. intros [= <-]. exact H2.
    - rewrite dget_dset_neq by auto. apply H1. }
  destruct Nat.eqb; [auto|]. destruct q; cbn [scheduled]; split; auto. intros ? [].
Qed.
Lemma run_known ops : NoDup (map slid (y_added ops)) -> known (y_run out clock ops) (y_added ops).
Proof.
  induction ops as [|o ops IH] using rev_ind; intros Nd.
  - unfold known; cbn. ands; [discriminate|intros ? []|constructor].
  - assert (y_added (ops ++ [o]) = y_added ops ++ y_added [o]) as Ea by apply flat_map_app. rewrite Ea in *.
    pose proof Nd as Nd'. rewrite map_app in Nd'. apply NoDup_app_iff in Nd' as (Nd1 & _ & _). specialize (IH Nd1).
    destruct (run_ok out clock ops Nd1) as [J Ac]. unfold y_run. rewrite fold_left_app. cbn [fold_left].
    fold (y_run out clock ops). set (y := y_run out clock ops) in *. destruct IH as (K1 & K2 & K3).
    assert (incl (y_added ops) (y_added ops ++ y_added [o])) as I by (intros z Hz; apply in_app_iff; now left).
    assert (Forall (fun r => own (y_added ops ++ y_added [o]) (fst r)) (y_reports y)) as K3'.
    { eapply Forall_impl; [|exact K3]. intros r. now apply own_more. }
    assert (forall j x, dget (jobs (y_fs y)) j = Some x -> incl (f_sched x) (y_added ops ++ y_added [o])) as K1'.
    { intros j x H. eapply incl_tran; [now apply (K1 j)|exact I]. }
    destruct o as [s z q|q ans|j k]; cbn [y_step].
    + unfold schedule_sample. set (p1 := mkP (scheduled (y_pool y) ++ [s]) _ _ _ _ _ _ _).
      assert (incl (scheduled p1) (y_added ops ++ y_added [SAdd s z q])) as K2'.
      { cbn. intros x Hx. apply in_app_iff in Hx as [Hx|Hx]; apply in_app_iff; auto. }
      destruct (_ || _)%bool; [|unfold known; cbn [y_fs y_pool y_reports]; auto].
      pose proof (execute_known p1 (y_fs y) q _ K1' K2') as E. destruct (execute p1 (y_fs y) q) as [[p' f'] e].
      unfold known; cbn [y_fs y_pool y_reports]. tauto.
    + unfold get_finished. pose proof (execute_inv out clock (y_pool y) (y_fs y) (y_prog y) q J) as Ei.
      pose proof (execute_known (y_pool y) (y_fs y) q _ K1' (incl_tran K2 I)) as E.
      destruct (execute (y_pool y) (y_fs y) q) as [[p1 f1] e]. destruct E as [E1 E2]. destruct Ei as (J1 & Ac1 & _). specialize (Ac1 _ _ Ac).
      destruct e as [e|]; [unfold known; cbn [y_fs y_pool y_reports]; auto|].
      pose proof (qstat_same p1 ans) as Q. destruct (qstat_job p1 ans) as [p2 r]. destruct Q as (Q1 & Q2 & Q3 & Q4). rewrite <- Q1 in E2.
      assert (jobs_ok out clock p2 f1 (y_prog y)) as J2 by (unfold jobs_ok in *; now rewrite Q1, Q2, Q3, Q4).
      assert (account p2 f1 (y_reports y) (y_added ops)) as Ac2 by (unfold account in *; now rewrite Q1).
      destruct r as [[fin unf]|e]; [|unfold known; cbn [y_fs y_pool y_reports]; auto].
      pose proof (readable_inv out clock _ _ _ _ _ J2 Ac2 Nd1) as R. destruct (count_ok f1 unf R) as (n & Cn). rewrite Cn.
      pose proof J2 as (_ & U2 & F2 & N2 & D2 & _).
      destruct (collect_ok fin f1 ([], [], []) N2 R) as (f' & acc & Cc & Jb & _). rewrite Cc, U2.
      unfold known; cbn [y_fs y_pool y_reports]. rewrite Jb. ands; auto. apply Forall_app. split; [exact K3'|].
      constructor; [|constructor]. cbn [fst]. eapply collect_own; [| |exact Cc]; [|split; intros ? ? ? []].
      intros j id x Hj Dx. apply (own_more (f_sched x)); [exact (E1 j x Dx)|]. rewrite Forall_forall in F2. specialize (F2 _ Hj). cbn in F2.
      destruct (D2 j F2) as (x' & Dx' & Js). rewrite Dx in Dx'. injection Dx' as <-.
      apply (job_own j (y_prog y j)); [exact Js|]. eapply file_sched; eauto.
    + unfold work. destruct (dget (jobs (y_fs y)) j) as [x|] eqn:Dx; [|unfold known; ands; eauto using incl_tran].
      destruct Nat.ltb; [|unfold known; ands; eauto using incl_tran]. unfold known; cbn [y_fs y_pool y_reports jobs]. ands; auto.
      * intros i x' Hx. destruct (Nat.eq_dec i j) as [->|Ni].
        -- rewrite dget_dset_eq in Hx. injection Hx as <-. rewrite do_events_files. cbn [f_sched]. now apply (K1' j).
        -- rewrite dget_dset_neq in Hx by auto. now apply (K1' i).
      * eapply incl_tran; eauto.
Qed.
End More.
