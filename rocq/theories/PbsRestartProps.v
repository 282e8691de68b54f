(** Restart of a campaign on a batch system: recovery of samples, new samples, level simulations. *)
From Verif Require Import Base BaseFacts PermTac PoolModel PoolProofs PbsModel PbsSpec PbsRead PbsSystem PbsInv PbsRecover PbsMore PbsProps PbsRestartModel PbsRestart.

(** [lost_run] for a whole restart. *)
Lemma restart_lost {A} (out : samp -> A + pystr) clock p f ids i prog ops :
  In i ids -> ~ In i (map s_id (y_added ops)) -> scheduled p = [] -> sget (id_job f) i = None ->
  (forall j x, dget (jobs f) j = Some x -> ~ In i (map s_id (f_sched x)) /\ ~ In i (map rid (recorded x))) ->
  y_reports (fold_left (y_step out clock) ops (mkS (have_permanent p ids) f prog [])) = [].
Proof.
  intros Hi N Sp E R. rewrite (lost_run out clock i); [reflexivity| |exact N]. cbn [y_pool y_fs have_permanent unfinished_ids scheduled].
  split; [exact Hi|]. cbn [have_permanent scheduled]. rewrite Sp. split; [intros []|]. auto.
Qed.

(** C141. The full claim: after a restart of a campaign the unfinished samples of the storage are handed to the new pool, and the
    pool gives the results of those that were computed. False: (a) without debug, whatever was on the disk and whatever happens
    later, no poll of the new pool ever gives an answer, so that no new sample is collected either. *)
Theorem C141_erased_never_returns {A} (out : samp -> A + pystr) clock (f : fs A) files ids prog ops :
  ids <> [] -> (forall s, In s (y_added ops) -> ~ In (s_id s) ids) ->
  let '(p, f') := restart_pool false f files in
  y_reports (fold_left (y_step out clock) ops (mkS (have_permanent p ids) f' prog [])) = [].
Proof.
  intros Ni N. cbn [restart_pool]. destruct ids as [|i ids]; [now destruct Ni|]. apply (restart_lost _ _ _ _ _ i); auto.
  - now left.
  - intros H. apply in_map_iff in H as (s & E & Hs). apply (N s Hs). rewrite E. now left.
  - discriminate.
Qed.
Print Assumptions C141_erased_never_returns.

(** (b) Even with debug: a sample that was still pending in the package of the old pool blocks all polls. *)
Theorem C141_pending_never_returns {A} (out : samp -> A + pystr) clock ops files ids i ops' :
  let y := y_run out clock ops in
  NoDup (map s_id (y_added (ops ++ ops'))) -> In i ids -> In i (map s_id (y_added ops)) ->
  (forall j x s, dget (jobs (y_fs y)) j = Some x -> In s (f_sched x) -> s_id s <> i) ->
  sget (id_job (y_fs y)) i = None ->
  let '(p, f') := restart_pool true (y_fs y) files in
  y_reports (fold_left (y_step out clock) ops' (mkS (have_permanent p ids) f' (y_prog y) [])) = [].
Proof.
  intros y N Hi Ha Hj Hm. cbn [restart_pool]. apply (restart_lost _ _ _ _ _ i); auto.
  - assert (y_added (ops ++ ops') = y_added ops ++ y_added ops') as E by apply flat_map_app. rewrite E, map_app in N.
    apply NoDup_app_iff in N as (_ & _ & N). now apply N.
  - intros j x Dx. split.
    + intros H. apply in_map_iff in H as (s & Es & Hs). exact (Hj j x s Dx Hs Es).
    + intros H. apply in_map_iff in H as (e & Ee & He).
      assert (NoDup (map s_id (y_added ops))) as N1.
      { assert (y_added (ops ++ ops') = y_added ops ++ y_added ops') as E by apply flat_map_app. rewrite E, map_app in N.
        now apply NoDup_app_iff in N. }
      destruct (run_records out clock ops j x N1 Dx) as [_ R]. destruct (R e He) as (s & Hs & Es & _).
      apply (Hj j x s Dx Hs). apply (f_equal snd) in Es. cbn in Es. congruence.
Qed.
Print Assumptions C141_pending_never_returns.

Definition old_ops : list sop :=
  [SAdd (0, sa, 1%Z) (1#2) None; SPoll (Some 71) (Some []); SWork 0 4; SAdd (1, sc, 3%Z) (1#4) None].
Definition new_ops : list sop := [SAdd (0, sb, 2%Z) 2 (Some 72); SWork 1 4; SPoll None (Some [72]); SPoll None None].
(** The sample [sa] was computed before the crash, and no poll of the new pools gives it. *)
Theorem C141_resume_refuted : exists (out : samp -> nat + pystr) clock ops ids ops',
  let y := y_run out clock ops in
  NoDup (map s_id (y_added (ops ++ ops'))) /\ incl ids (map s_id (y_added ops)) /\ (exists i e, In i ids /\ succeeded (y_fs y) i e)
  /\ (exists q ans, In (SPoll q ans) ops')
  /\ forall debug, let '(p, f') := restart_pool debug (y_fs y) (scripts (y_fs y)) in
     y_reports (fold_left (y_step out clock) ops' (mkS (have_permanent p ids) f' (y_prog y) [])) = [].
Proof.
  exists out1, clk, old_ops, [sa; sc], new_ops. cbv zeta. split; [|split; [|split; [|split]]].
  - cbn. repeat constructor; cbn; intros X; repeat destruct X as [X|X]; try discriminate X; destruct X.
  - intros z [<-|[<-|[]]]; cbn; auto.
  - exists sa, (0, (sa, 12)). split; [now left|]. eexists 0, _. split; [split; vm_compute; reflexivity|]. split; [vm_compute; auto|reflexivity].
  - exists None, None. cbn. auto.
  - intros [|]; cbn [restart_pool]; vm_compute; reflexivity.
Qed.
Print Assumptions C141_resume_refuted.
Example C141_example : (forall j x s, dget (jobs (y_fs (y_run out1 clk old_ops))) j = Some x -> In s (f_sched x) -> s_id s <> sc)
  /\ sget (id_job (y_fs (y_run out1 clk old_ops))) sc = None /\ In sc (map s_id (y_added old_ops)).
Proof.
  split; [|split; [reflexivity|cbn; auto]]. intros j x s. destruct j as [|j].
  - vm_compute. intros [= <-]. cbn. intros [<-|[]]. discriminate.
  - change (dget (jobs (y_fs (y_run out1 clk old_ops))) (S j)) with (@None (jobfiles nat)). discriminate.
Qed.

(** C142: the campaign of a fresh pool stops at any moment (between steps of the model). A new pool with debug gets a set of ids of
    samples that were requested and are not pending. Whatever the batch system answers, its first poll gives exactly the computed
    results of the samples of the set, each with the outcome of its own calculation. *)
Theorem C142_restart {A} (out : samp -> A + pystr) clock ops files ids q ans :
  let y := y_run out clock ops in
  NoDup (map s_id (y_added ops)) -> incl ids (map s_id (y_added ops)) ->
  (forall i, In i ids -> ~ In i (map s_id (scheduled (y_pool y)))) ->
  let '(p, f) := restart_pool true (y_fs y) files in
  exists s, get_finished (have_permanent p ids) f q ans = (p, f, Done ((s, [], []), 0))
  /\ (forall e, In e (entries s) <-> In (rid e) ids /\ exists j x, dget (jobs (y_fs y)) j = Some x /\ In e (recorded x))
  /\ (forall l i v, In (l, (i, v)) (entries s) -> exists r, In r (y_added ops) /\ slid r = (l, i) /\ out r = inl v)
  /\ (NoDup ids -> (forall i, In i ids -> exists e, In e (entries s) /\ rid e = i) -> Permutation (map rid (entries s)) ids).
Proof.
  intros y N I P. cbn [restart_pool]. pose proof (run_consistent out clock ops ids N I P) as C.
  destruct (C27_recovery_partial (y_fs y) files ids q ans C) as (s & H1 & H2). exists s.
  pose proof (run_homes out clock ops N) as H. split; [exact H1|]. split; [|split].
  - intros e. rewrite H2. split.
    + intros [Hi (j & x & [_ Dx] & He & _)]. eauto 6.
    + intros [Hi (j & x & Dx & He)]. split; [exact Hi|]. exists j, x. split; [|auto]. split; [|exact Dx].
      destruct (run_records out clock ops j x N Dx) as [_ R]. destruct (R e He) as (r & Hr & Er & _). apply (f_equal snd) in Er. cbn in Er.
      rewrite <- Er. now apply (hm_job _ _ _ H j x).
  - intros l i v He. apply H2 in He as [_ (j & x & [_ Dx] & He & _)].
    destruct (run_records out clock ops j x N Dx) as [_ R]. destruct (R _ He) as (r & Hr & Er & Eo). exists r. split; [|auto].
    destruct (run_known out clock ops (ids_lids _ N)) as (K & _). now apply (K j x Dx).
  - intros Ni All. destruct (C80_recovery (y_fs y) files ids q ans C Ni) as (s' & E & Ps & _).
    + intros i Hi. destruct (All i Hi) as (e & He & Ee). exists e. apply H2 in He as [_ He]. now rewrite <- Ee.
    + rewrite H1 in E. now injection E as <-.
Qed.
Print Assumptions C142_restart.
Definition crash_ops : list sop :=
  [SAdd (0, sa, 1%Z) (1#2) None; SAdd (0, sb, 2%Z) (1#4) None; SAdd (1, sc, 3%Z) 2 (Some 70); SWork 0 5].
Example C142_example : NoDup (map s_id (y_added crash_ops)) /\ incl [sc; sa; sb] (map s_id (y_added crash_ops))
  /\ scheduled (y_pool (y_run out1 clk crash_ops)) = []
  /\ exists s, get_finished (have_permanent (new_pbs [0]) [sc; sa]) (y_fs (y_run out1 clk crash_ops)) None None
               = (new_pbs [0], y_fs (y_run out1 clk crash_ops), Done ((s, [], []), 0)) /\ map rid (entries s) = [sa; sc].
Proof.
  split; [|split; [|split]].
  - cbn. repeat constructor; cbn; intros X; repeat destruct X as [X|X]; try discriminate X; destruct X.
  - intros z [<-|[<-|[<-|[]]]]; cbn; auto.
  - reflexivity.
  - eexists. split; vm_compute; reflexivity.
Qed.

(** C141: what holds: with debug and no pending sample in the set (missing: the two cases above). *)
Theorem C141_resume_partial {A} (out : samp -> A + pystr) clock ops files ids q ans :
  let y := y_run out clock ops in
  NoDup (map s_id (y_added ops)) -> incl ids (map s_id (y_added ops)) -> scheduled (y_pool y) = [] ->
  let '(p, f) := restart_pool true (y_fs y) files in
  exists s, get_finished (have_permanent p ids) f q ans = (p, f, Done ((s, [], []), 0))
  /\ forall i e, In i ids -> succeeded (y_fs y) i e -> In e (entries s).
Proof.
  intros y N I P. pose proof (C142_restart out clock ops files ids q ans N I) as H. cbn [restart_pool] in *.
  destruct H as (s & H1 & H2 & _); [fold y; rewrite P; intros i _ []|]. exists s. split; [exact H1|].
  intros i e Hi (j & x & [_ Dx] & He & <-). apply H2. eauto.
Qed.
Print Assumptions C141_resume_partial.

(** C143: the restarted pool works on. If the listing of the scripts ends with the last one, every later request and every
    sample of the old jobs that was not collected is, at any time, in exactly one place: given back by one of the polls, in the
    files of one uncollected job, or pending. *)
Theorem C143_works_on {A} (out : samp -> A + pystr) clock ops files ids q ans ops' :
  let y := y_run out clock ops in
  NoDup (map s_id (y_added (ops ++ ops'))) -> incl ids (map s_id (y_added ops)) ->
  (forall i, In i ids -> ~ In i (map s_id (scheduled (y_pool y)))) ->
  Permutation files (scripts (y_fs y)) -> (forall j, In j files -> j <= last files 0) ->
  let '(p, f) := restart_pool true (y_fs y) files in
  let '(p1, f1, r) := get_finished (have_permanent p ids) f q ans in
  let y2 := fold_left (y_step out clock) ops' (mkS p1 f1 (y_prog y) []) in
  (exists a, r = Done a)
  /\ Permutation (map slid (concat (submitted (y_fs y)) ++ y_added ops'))
                 (flat_map report_lids (y_reports y2) ++ map slid (concat (submitted (y_fs y2))) ++ map slid (scheduled (y_pool y2))).
Proof.
  intros y N I P Pf Lf. assert (y_added (ops ++ ops') = y_added ops ++ y_added ops') as Ea by apply flat_map_app. rewrite Ea, map_app in N.
  pose proof N as N0. apply NoDup_app_iff in N0 as (N1 & N2 & N3).
  pose proof (C142_restart out clock ops files ids q ans N1 I P) as H. cbn [restart_pool] in *. destruct H as (s & H1 & _). fold y in H1. rewrite H1.
  split; [eauto|]. pose proof (restart_ok out clock ops files (ids_lids _ N1) Pf Lf) as J. fold y in J.
  destruct (run_ok out clock ops (ids_lids _ N1)) as [_ Ac]. fold y in Ac.
  destruct (steps_ok out clock ops' (mkS (new_pbs files) (y_fs y) (y_prog y) []) (concat (submitted (y_fs y)))) as [_ R].
  - split; [exact J|]. unfold account. cbn [y_reports y_pool y_fs flat_map app new_pbs scheduled map]. rewrite app_nil_r. reflexivity.
  - rewrite map_app. apply NoDup_app_iff. unfold account in Ac. pose proof (Permutation_NoDup Ac (ids_lids _ N1)) as Nx.
    apply NoDup_app_iff in Nx as (_ & Nx & _). apply NoDup_app_iff in Nx as (Nx & _ & _). split; [exact Nx|]. split; [now apply ids_lids|].
    intros z Hz Hz'. assert (In z (map slid (y_added ops))) as Hy.
      { apply (Permutation_in _ (Permutation_sym Ac)). apply in_app_iff. right. apply in_app_iff. now left. }
      apply in_map_iff in Hy as (a & Ez & Hy), Hz' as (b & Ez' & Hz'). apply (N3 (s_id a)); [now apply in_map|].
      apply in_map_iff. exists b. split; [|exact Hz']. apply (f_equal snd) in Ez, Ez'. cbn in Ez, Ez'. congruence.
  - exact R.
Qed.
Print Assumptions C143_works_on.
Example C143_example : let y := y_run out1 clk crash_ops in
  Permutation [0] (scripts (y_fs y)) /\ (forall j, In j [0] -> j <= last [0] 0)
  /\ NoDup (map s_id (y_added (crash_ops ++ [SAdd (0, str "n", 2%Z) 2 (Some 72)])))
  /\ map s_id (concat (submitted (y_fs y))) = [sa; sb; sc].
Proof.
  cbv zeta. split; [vm_compute; repeat constructor|]. split; [cbn; lia|]. split; [|reflexivity].
  cbn. repeat constructor; cbn; intros X; repeat destruct X as [X|X]; try discriminate X; destruct X.
Qed.
(** Without the condition on the listing the number of an old job is used again and its records are given back for the new one. *)
Theorem C143_listing_refuted : exists (out : samp -> nat + pystr) clock ops files ops' i,
  let y := y_run out clock ops in
  Permutation files (scripts (y_fs y)) /\ NoDup (map s_id (y_added (ops ++ ops'))) /\ In i (map s_id (y_added ops))
  /\ let y2 := fold_left (y_step out clock) ops' (mkS (new_pbs files) (y_fs y) (y_prog y) []) in
     ~ In i (map s_id (concat (submitted (y_fs y)))) /\ exists a l, In a (y_reports y2) /\ In (l, i) (report_lids a).
Proof.
  exists out1, clk, [SAdd (0, sa, 1%Z) 2 (Some 70); SAdd (0, sb, 2%Z) 2 (Some 71); SWork 0 4; SWork 1 4; SPoll None (Some [70; 71])],
    [1; 0], [SAdd (0, sc, 3%Z) 2 (Some 72); SPoll None (Some [72])], sb.
  cbv zeta. split; [vm_compute; apply perm_swap|]. split; [cbn; repeat constructor; cbn; intros X; repeat destruct X as [X|X]; try discriminate X; destruct X|].
  split; [cbn; auto|]. split; [vm_compute; tauto|]. eexists _, 0. split; [vm_compute; left; reflexivity|]. vm_compute. auto.
Qed.
Print Assumptions C143_listing_refuted.

(** C144: level simulations. The full claim: a job calculates its samples with the simulation they were scheduled with. It holds in
    a work directory without files of levels when every level has one simulation. *)
Theorem C144_level_simulation_partial {S} (files : dict S) debug l level sim :
  (debug = true -> files = []) ->
  (forall lv s s', In (lv, s) l -> In (lv, s') l -> s = s') -> In (level, sim) l ->
  get_level_sim (serialize_all (restart_sims debug files) l) level = Ok sim.
Proof.
  intros Hd U Hi. assert (restart_sims debug files = []) as -> by (unfold restart_sims; destruct debug; auto).
  assert (forall l d, (forall s, dget d level = Some s -> s = sim) -> (forall s, In (level, s) l -> s = sim) ->
            (dget d level = Some sim \/ In (level, sim) l) -> dget (serialize_all d l) level = Some sim) as G.
  { clear. unfold serialize_all. induction l as [|[lv s] l IH]; intros d Hd Hl H; cbn [fold_left fst snd].
    - destruct H as [H|[]]. exact H.
    - apply IH.
      + intros s'. unfold serialize_level_sim. destruct (dget d lv) as [s0|] eqn:E; [apply Hd|]. destruct (Nat.eq_dec lv level) as [->|N].
        * rewrite dget_dset_eq. intros [= <-]. apply Hl. now left.
        * rewrite dget_dset_neq by auto. apply Hd.
      + intros s' Hs. apply Hl. now right.
      + unfold serialize_level_sim. destruct H as [H|[[= -> ->]|H]]; [left|left|now right].
        * destruct (dget d lv) eqn:E; [exact H|]. destruct (Nat.eq_dec lv level) as [->|N]; [congruence|]. now rewrite dget_dset_neq by auto.
        * destruct (dget d level) as [s0|] eqn:E; [rewrite (Hd s0 eq_refl) in E; exact E|apply dget_dset_eq]. }
  unfold get_level_sim. rewrite G; [reflexivity|discriminate| |now right]. intros s Hs. now apply (U level).
Qed.
Print Assumptions C144_level_simulation_partial.
Example C144_example : let l := [(0, 7); (1, 8); (0, 7)] in
  (forall lv s s', In (lv, s) l -> In (lv, s') l -> s = s') /\ get_level_sim (serialize_all (restart_sims false [(1, 5)]) l) 1 = Ok 8.
Proof.
  cbv zeta. split; [|reflexivity]. intros lv s s' [[= <- <-]|[[= <- <-]|[[= <- <-]|[]]]] [[= <-]|[[= <-]|[[= <-]|[]]]]; reflexivity.
Qed.
(** After a restart with debug the old simulation is used for the new samples. *)
Theorem C144_level_simulation_refuted : exists (files : dict nat) l level sim,
  (forall lv s s', In (lv, s) l -> In (lv, s') l -> s = s') /\ In (level, sim) l
  /\ get_level_sim (serialize_all (restart_sims true files) l) level <> Ok sim.
Proof.
  exists [(0, 1)], [(0, 2)], 0, 2. split; [|split; [now left|discriminate]].
  intros lv s s' [[= <- <-]|[]] [[= <-]|[]]; reflexivity.
Qed.
Print Assumptions C144_level_simulation_refuted.
