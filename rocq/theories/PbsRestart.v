(** Records of the samples of jobs are consistent at any moment. *)
From Verif Require Import Base BaseFacts PermTac PoolModel PoolProofs PbsModel PbsSpec PbsRead PbsPool PbsSystem PbsInv PbsRecover PbsMore PbsRestartModel.

Section Homes.
Context {A : Type}.
Variable out : samp -> A + pystr.
Variable clock : nat -> nat -> Z.
Implicit Types f : fs A.

Lemma sget_app l l' k : sget (l ++ l') k = match sget l k with Some j => Some j | None => sget l' k end.
Proof.
  unfold sget. induction l as [|[a b] l IH]; cbn; [reflexivity|]. destruct (pystr_eq_dec k a); [reflexivity|]. exact IH.
Qed.
Lemma sget_jobs (ss : list samp) j k : sget (map (fun s => (s_id s, j)) ss) k = if in_dec pystr_eq_dec k (map s_id ss) then Some j else None.
Proof.
  unfold sget. induction ss as [|s ss IH]; [reflexivity|]. cbn [map find fst].
  destruct (in_dec pystr_eq_dec k (s_id s :: map s_id ss)) as [I|I]; destruct (pystr_eq_dec k (s_id s)) as [E|N]; try reflexivity.
  - rewrite IH. destruct (in_dec _ _ _) as [_|I']; [reflexivity|]. destruct I as [I|I]; [congruence|contradiction].
  - destruct I. now left.
  - rewrite IH. destruct (in_dec _ _ _) as [I'|_]; [|reflexivity]. destruct I. now right.
Qed.

(** The sample id to job file names the job of every sample of a job; the samples of submitted jobs are not pending; every
    request is pending or in a job. *)
Record homes (p : pbs) f (add : list samp) : Prop := mkHomes
  { hm_job : forall j x s, dget (jobs f) j = Some x -> In s (f_sched x) -> sget (id_job f) (s_id s) = Some j;
    hm_sep : forall j x s, j < job_count p -> dget (jobs f) j = Some x -> In s (f_sched x) -> ~ In (s_id s) (map s_id (scheduled p));
    hm_next : forall j, job_count p < j -> dget (jobs f) j = None;
    hm_nd : forall j x, dget (jobs f) j = Some x -> NoDup (map s_id (f_sched x));
    hm_pend : NoDup (map s_id (scheduled p));
    hm_last : forall x, dget (jobs f) (job_count p) = Some x -> incl (f_sched x) (scheduled p);
    hm_in : forall s, In s add -> In s (scheduled p) \/ exists j x, j < job_count p /\ dget (jobs f) j = Some x /\ In s (f_sched x) }.

Lemma homes_same p p' f f' add : homes p f add -> scheduled p' = scheduled p -> job_count p' = job_count p -> jobs f' = jobs f -> id_job f' = id_job f ->
  homes p' f' add.
Proof. intros [H1 H2 H3 H4 H5 H6 H7] E1 E2 E3 E4. constructor; rewrite ?E1, ?E2, ?E3, ?E4; assumption. Qed.

Lemma save_homes p f add : homes p f add -> homes p (save_job f (job_count p) (scheduled p)) add.
Proof.
  intros [H1 H2 H3 H4 H5 H6 H7]. constructor; unfold save_job; cbn [jobs id_job].
  - intros j x s Dx Hs. rewrite sget_app, sget_jobs. destruct (Nat.eq_dec j (job_count p)) as [->|N].
    + rewrite dget_dset_eq in Dx. injection Dx as <-. cbn [f_sched] in Hs.
      destruct (in_dec _ _ _) as [_|Ni]; [reflexivity|]. destruct Ni. now apply in_map.
    + rewrite dget_dset_neq in Dx by auto.
      destruct (in_dec _ _ _) as [Hi|_]; [|now apply (H1 j x)].
      destruct (Nat.lt_trichotomy j (job_count p)) as [L|[L|L]]; [|congruence|].
      * now destruct (H2 j x s L Dx Hs).
      * rewrite (H3 j L) in Dx. discriminate.
  - intros j x s L Dx. rewrite dget_dset_neq in Dx by lia. now apply (H2 j).
  - intros j L. rewrite dget_dset_neq by lia. now apply H3.
  - intros j x Dx. destruct (Nat.eq_dec j (job_count p)) as [->|N].
    + rewrite dget_dset_eq in Dx. injection Dx as <-. exact H5.
    + rewrite dget_dset_neq in Dx by auto. now apply (H4 j).
  - exact H5.
  - intros x Dx. rewrite dget_dset_eq in Dx. injection Dx as <-. apply incl_refl.
  - intros s Hs. destruct (H7 s Hs) as [H|(j & x & L & Dx & H)]; [now left|right]. exists j, x. rewrite dget_dset_neq by lia. auto.
Qed.

Lemma execute_homes p f q add : homes p f add -> let '(p', f', e) := execute p f q in homes p' f' add.
Proof.
  intros H. unfold execute. destruct (scheduled p) as [|s ss] eqn:Es; [exact H|]. rewrite <- Es.
  pose proof (save_homes p f add H) as H1. destruct (Nat.eqb (n_in_job p) 0); [exact H1|]. destruct q as [id|].
  - destruct H1 as [A1 A2 A3 A4 A5 A6 A7]. constructor; cbn [jobs id_job scheduled job_count write_pbs_id add_script map].
    + exact A1.
    + intros j x s' _ _ _ [].
    + intros j L. apply A3. lia.
    + exact A4.
    + constructor.
    + intros x Dx. rewrite A3 in Dx by lia. discriminate.
    + intros s' Hs. right. destruct (A7 s' Hs) as [I|(j & x & L & Dx & I)].
      * eexists (job_count p), _. split; [lia|]. split; [apply dget_dset_eq|exact I].
      * exists j, x. split; [lia|]. auto.
  - apply (homes_same p _ (save_job f (job_count p) (scheduled p))); auto.
Qed.

Lemma add_homes p f s z q add : homes p f add -> (forall j x, dget (jobs f) j = Some x -> incl (f_sched x) add) -> incl (scheduled p) add ->
  ~ In (s_id s) (map s_id add) -> let '(p', f', e) := schedule_sample p f s z q in homes p' f' (add ++ [s]).
Proof.
  intros H K K' N. unfold schedule_sample. set (p1 := mkP (scheduled p ++ [s]) _ _ _ _ _ _ _).
  assert (homes p1 f (add ++ [s])) as H1.
  { destruct H as [A1 A2 A3 A4 A5 A6 A7]. constructor; cbn [p1 scheduled job_count]; auto.
    - intros j x s' L Dx Hs Hi. rewrite map_app, in_app_iff in Hi. destruct Hi as [Hi|[Hi|[]]]; [now apply (A2 j x s')|].
      apply N. rewrite Hi. apply in_map. now apply (K j x Dx).
    - rewrite map_app. apply NoDup_app_iff. ands; [exact A5|repeat constructor; intros []|].
      intros i Hi [<-|[]]. apply N. revert Hi. apply incl_map. exact K'.
    - intros x Dx. intros y Hy. apply in_app_iff. left. now apply (A6 x).
    - intros s' Hs. rewrite in_app_iff in Hs. rewrite in_app_iff. destruct Hs as [Hs|Hs]; [|auto]. destruct (A7 s' Hs) as [I|I]; auto. }
  destruct (_ || _)%bool; [|exact H1]. now apply execute_homes.
Qed.

Lemma poll_homes p f q ans add : homes p f add -> let '(p', f', r) := get_finished p f q ans in homes p' f' add.
Proof.
  intros H. unfold get_finished. pose proof (execute_homes p f q add H) as H1. destruct (execute p f q) as [[p1 f1] e].
  destruct e as [e|]; [exact H1|].
  pose proof (qstat_same p1 ans) as Q. destruct (qstat_job p1 ans) as [p2 r]. destruct Q as (Q1 & Q2 & Q3 & Q4).
  assert (homes p2 f1 add) as H2 by (apply (homes_same p1 _ f1); auto).
  destruct r as [[fin unf]|e]; [|exact H2]. destruct (count_running f1 unf); [|exact H2].
  assert (forall acc f', fst (collect f1 fin acc) = f' -> homes p2 f' add) as H3.
  { clear - H2. revert f1 H2. induction fin as [|id fin IH]; intros f1 H2 acc f'; cbn [collect]; [intros <-; exact H2|].
    destruct (find_job f1 id) as [j|]; [|now apply IH]. destruct (dget (jobs f1) j) as [x|]; [|intros <-; exact H2].
    destruct (read_results x) as [[s e] t]. destruct acc as [[s0 e0] t0]. apply IH.
    eapply homes_same; [exact H2|reflexivity|reflexivity|reflexivity|reflexivity]. }
  destruct (collect f1 fin ([], [], [])) as [f3 r3] eqn:Ec. specialize (H3 ([], [], []) f3). rewrite Ec in H3. specialize (H3 eq_refl).
  destruct r3 as [acc|e]; [|exact H3]. destruct (unfinished_ids p2) as [|i ids]; [exact H3|].
  destruct (collect_loop _ _ _ _ _); try exact H3. apply (homes_same p2 _ f3); auto.
Qed.

Lemma work_homes y j k add : homes (y_pool y) (y_fs y) add -> homes (y_pool (work out clock y j k)) (y_fs (work out clock y j k)) add.
Proof.
  intros [H1 H2 H3 H4 H5 H6 H7]. unfold work. destruct (dget (jobs (y_fs y)) j) as [x|] eqn:Dx; [|constructor; assumption].
  destruct (Nat.ltb_spec j (job_count (y_pool y))) as [L|]; [|constructor; assumption].
  set (x1 := do_events x _). assert (f_sched x1 = f_sched x) as Ex by (unfold x1; now rewrite do_events_files).
  assert (forall i x', dget (dset (jobs (y_fs y)) j x1) i = Some x' ->
            exists x0, dget (jobs (y_fs y)) i = Some x0 /\ f_sched x' = f_sched x0) as E.
  { intros i x' Hx. destruct (Nat.eq_dec i j) as [->|N].
    - rewrite dget_dset_eq in Hx. injection Hx as <-. exists x. auto.
    - rewrite dget_dset_neq in Hx by auto. eauto. }
  constructor; cbn [y_pool y_fs jobs id_job].
  - intros i x' s Hx Hs. destruct (E i x' Hx) as (x0 & D0 & E0). rewrite E0 in Hs. now apply (H1 i x0).
  - intros i x' s Li Hx Hs. destruct (E i x' Hx) as (x0 & D0 & E0). rewrite E0 in Hs. now apply (H2 i x0).
  - intros i Li. rewrite dget_dset_neq by lia. now apply H3.
  - intros i x' Hx. destruct (E i x' Hx) as (x0 & D0 & E0). rewrite E0. now apply (H4 i).
  - exact H5.
  - intros x' Hx. destruct (E _ x' Hx) as (x0 & D0 & E0). rewrite E0. now apply H6.
  - intros s Hs. destruct (H7 s Hs) as [I|(i & x0 & Li & D0 & I)]; [now left|right].
    destruct (Nat.eq_dec i j) as [->|N].
    + exists j, x1. rewrite dget_dset_eq, Ex. rewrite D0 in Dx. injection Dx as <-. auto.
    + exists i, x0. rewrite dget_dset_neq by auto. auto.
Qed.

Lemma ids_lids (l : list samp) : NoDup (map s_id l) -> NoDup (map slid l).
Proof.
  intros N. apply (NoDup_map_inv snd). rewrite map_map. exact N.
Qed.

Lemma run_homes ops : NoDup (map s_id (y_added ops)) -> homes (y_pool (y_run out clock ops)) (y_fs (y_run out clock ops)) (y_added ops).
Proof.
  induction ops as [|o ops IH] using rev_ind; intros Nd.
  - constructor; cbn; try discriminate; try reflexivity; try apply NoDup_nil. intros ? [].
  - assert (y_added (ops ++ [o]) = y_added ops ++ y_added [o]) as Ea by apply flat_map_app. rewrite Ea in *.
    pose proof Nd as Nd'. rewrite map_app in Nd'. apply NoDup_app_iff in Nd' as (Nd1 & _ & Nd2). specialize (IH Nd1).
    destruct (run_known out clock ops (ids_lids _ Nd1)) as (K1 & K2 & _). unfold y_run. rewrite fold_left_app. cbn [fold_left].
    fold (y_run out clock ops). set (y := y_run out clock ops) in *. destruct o as [s z q|q ans|j k]; cbn [y_step].
    + assert (~ In (s_id s) (map s_id (y_added ops))) as N.
      { intros Hi. apply (Nd2 (s_id s) Hi). cbn. now left. }
      pose proof (add_homes (y_pool y) (y_fs y) s z q (y_added ops) IH K1 K2 N) as E. destruct schedule_sample as [[p f] e]. exact E.
    + pose proof (poll_homes (y_pool y) (y_fs y) q ans _ IH) as E. destruct get_finished as [[p f] r]. cbn. rewrite app_nil_r. exact E.
    + cbn. rewrite app_nil_r. now apply work_homes.
Qed.

(** A successful sample recorded in the files of a job: one record, of a sample of the job. *)
Lemma job_records j m x : job_state out clock j m x -> NoDup (map s_id (f_sched x)) ->
  NoDup (map rid (recorded x)) /\ forall e, In e (recorded x) -> exists s, In s (f_sched x) /\ slid s = (fst e, rid e) /\ out s = inl (snd (snd e)).
Proof.
  intros (ss & Ns & ->) N. rewrite (sched_of_state out clock j m _ ss eq_refl) in N |- *.
  set (l := calculate_samples out (clock j) ss). unfold recorded. rewrite do_events_files. cbn [f_succ app].
  assert (Permutation (map slid ss) (done (firstn m l) ++ done (skipn m l))) as P.
  { apply (killed_done out (clock j)). symmetry. apply firstn_skipn. }
  split.
  - assert (NoDup (map snd (done (firstn m l)))) as Nd.
    { apply (Permutation_map snd) in P. rewrite map_map in P. apply (Permutation_NoDup P) in N. rewrite map_app in N. now apply NoDup_app_iff in N. }
    apply (Permutation_NoDup (Permutation_map snd (done_files (firstn m l)))) in Nd. rewrite map_app in Nd. apply NoDup_app_iff in Nd as (Nd & _ & _).
    rewrite !map_map in *. erewrite map_ext; [exact Nd|]. intros [[a b] c]. reflexivity.
  - intros e He. apply in_map_iff in He as ([[a b] c] & <- & Hr). unfold succs in Hr. apply in_flat_map in Hr as (ev & Hev & Hr).
    destruct ev as [r|r|r]; [|destruct Hr|destruct Hr]. destruct Hr as [Hr|[]]. subst r.
    assert (In (EvSucc (a, b, c)) (calculate_samples out (clock j) ss)) as Hin.
    { rewrite <- (firstn_skipn m). apply in_app_iff. left. exact Hev. }
    unfold calculate_samples in Hin. apply (calc_events out (clock j)) in Hin. destruct Hin as (s & Hs & Ho & Hl). exists s. split.
    + apply (Permutation_in _ (sort_perm ss)). exact Hs.
    + cbn in *. split; [now symmetry|exact Ho].
Qed.

(** The records of all samples in jobs are consistent at any time. *)
Lemma run_records ops j x : NoDup (map s_id (y_added ops)) -> dget (jobs (y_fs (y_run out clock ops))) j = Some x ->
  NoDup (map rid (recorded x)) /\ forall e, In e (recorded x) -> exists s, In s (f_sched x) /\ slid s = (fst e, rid e) /\ out s = inl (snd (snd e)).
Proof.
  intros N Dx. destruct (run_ok out clock ops (ids_lids _ N)) as [(_ & _ & _ & _ & J1 & J2) _]. pose proof (run_homes ops N) as H.
  destruct (Nat.lt_ge_cases j (job_count (y_pool (y_run out clock ops)))) as [L|L].
  - destruct (J1 j L) as (x' & Dx' & Js). rewrite Dx in Dx'. injection Dx' as <-. apply (job_records _ _ _ Js). now apply (hm_nd _ _ _ H j).
  - destruct (J2 j L) as [_ E]. destruct (E x Dx) as (ss & ->). cbn. split; [constructor|]. intros e [].
Qed.
Lemma run_consistent ops ids : NoDup (map s_id (y_added ops)) ->
  incl ids (map s_id (y_added ops)) -> (forall i, In i ids -> ~ In i (map s_id (scheduled (y_pool (y_run out clock ops))))) ->
  consistent (y_fs (y_run out clock ops)) ids.
Proof.
  intros N I P. pose proof (run_homes ops N) as H. split.
  - intros i Hi. apply I in Hi as Hs. apply in_map_iff in Hs as (s & <- & Hs). destruct (hm_in _ _ _ H s Hs) as [X|(j & x & L & Dx & X)].
    + destruct (P _ Hi). now apply in_map.
    + exists j, x. split; [now apply (hm_job _ _ _ H j x)|exact Dx].
  - intros i j x _ [_ Dx]. destruct (run_records ops j x N Dx) as [R1 R2]. split; [exact R1|]. intros e He _.
    destruct (R2 e He) as (s & Hs & E & _). apply (f_equal snd) in E. cbn in E. rewrite <- E. now apply (hm_job _ _ _ H j x).
Qed.

(** An id of the set that no file knows: the polls never return. *)
Definition lost (i : pystr) (p : pbs) f : Prop :=
  In i (unfinished_ids p) /\ ~ In i (map s_id (scheduled p)) /\ sget (id_job f) i = None
  /\ forall j x, dget (jobs f) j = Some x -> ~ In i (map s_id (f_sched x)) /\ ~ In i (map rid (recorded x)).

Lemma loop_lost f ids i : sget (id_job f) i = None -> (forall j x, dget (jobs f) j = Some x -> ~ In i (map rid (recorded x))) ->
  forall order already acc, In i order -> ~ In i already -> forall r, collect_loop f ids order already acc <> Done r.
Proof.
  intros E R. induction order as [|sid order IH]; intros already acc Hi Na r; [destruct Hi|]. cbn [collect_loop].
  destruct (pys_in sid already) eqn:Ep.
  - apply pys_in_true in Ep. destruct Hi as [->|Hi]; [contradiction|]. now apply IH.
  - destruct Hi as [->|Hi]; [now rewrite E|]. destruct (sget (id_job f) sid) as [j|]; [|discriminate].
    destruct (dget (jobs f) j) as [x|] eqn:Dx; [|discriminate]. destruct (read_succ x) as (e & t & ->). destruct acc as [[s0 e0] t0].
    destruct existsb; [discriminate|]. destruct t0; [|discriminate]. apply IH; [exact Hi|]. rewrite in_app_iff, wanted_ids.
    intros [H|H]; [contradiction|]. apply (R j x Dx). apply in_map_iff in H as (a & <- & H). apply filter_In in H as [H _].
    apply in_map. apply (Permutation_in _ (proj2 (group_ok (f_succ x)))). exact H.
Qed.

Lemma lost_save i p f : lost i p f -> lost i p (save_job f (job_count p) (scheduled p)).
Proof.
  intros (H1 & H2 & H3 & H4). unfold lost, save_job. cbn [jobs id_job]. split; [exact H1|]. split; [exact H2|]. split.
  - rewrite sget_app, sget_jobs. destruct (in_dec _ _ _); [contradiction|exact H3].
  - intros j x Dx. destruct (Nat.eq_dec j (job_count p)) as [->|N].
    + rewrite dget_dset_eq in Dx. injection Dx as <-. split; [exact H2|].
      destruct (dget (jobs f) (job_count p)) as [x0|] eqn:D0; [|intros []]. exact (proj2 (H4 _ x0 D0)).
    + rewrite dget_dset_neq in Dx by auto. now apply (H4 j).
Qed.
Lemma lost_execute i p f q : lost i p f -> let '(p', f', e) := execute p f q in lost i p' f'.
Proof.
  intros H. unfold execute. destruct (scheduled p) as [|s ss] eqn:Es; [exact H|]. rewrite <- Es.
  pose proof (lost_save i p f H) as H1. destruct (Nat.eqb (n_in_job p) 0); [exact H1|]. destruct H1 as (A1 & A2 & A3 & A4).
  destruct q as [id|]; split; auto.
Qed.
Lemma lost_step i y o : lost i (y_pool y) (y_fs y) -> ~ In i (map s_id (y_added [o])) ->
  let y' := y_step out clock y o in lost i (y_pool y') (y_fs y') /\ y_reports y' = y_reports y.
Proof.
  intros L N. destruct o as [s z q|q ans|j k]; cbn [y_step].
  - unfold schedule_sample. set (p1 := mkP (scheduled (y_pool y) ++ [s]) _ _ _ _ _ _ _).
    assert (lost i p1 (y_fs y)) as L1.
    { destruct L as (H1 & H2 & H3 & H4). split; [exact H1|]. split; [|auto]. cbn [p1 scheduled]. rewrite map_app, in_app_iff.
      cbn in N |- *. tauto. }
    destruct (_ || _)%bool; [|split; [exact L1|reflexivity]]. pose proof (lost_execute i p1 (y_fs y) q L1) as E.
    destruct (execute p1 (y_fs y) q) as [[p' f'] e]. split; [exact E|reflexivity].
  - unfold get_finished. pose proof (lost_execute i _ _ q L) as E. destruct (execute (y_pool y) (y_fs y) q) as [[p1 f1] e].
    destruct e as [e|]; [split; [exact E|reflexivity]|].
    pose proof (qstat_same p1 ans) as Q. destruct (qstat_job p1 ans) as [p2 r]. destruct Q as (Q1 & Q2 & Q3 & Q4).
    assert (lost i p2 f1) as L2 by (unfold lost in *; now rewrite Q1, Q4).
    destruct r as [[fin unf]|e]; [|split; [exact L2|reflexivity]]. destruct (count_running f1 unf); [|split; [exact L2|reflexivity]].
    assert (forall acc f', fst (collect f1 fin acc) = f' -> lost i p2 f') as H3.
    { clear - L2. revert f1 L2. induction fin as [|id fin IH]; intros f1 H2 acc f'; cbn [collect]; [intros <-; exact H2|].
      destruct (find_job f1 id) as [j|]; [|now apply IH]. destruct (dget (jobs f1) j) as [x|]; [|intros <-; exact H2].
      destruct (read_results x) as [[s e] t]. destruct acc as [[s0 e0] t0]. apply IH. exact H2. }
    destruct (collect f1 fin ([], [], [])) as [f3 r3] eqn:Ec. specialize (H3 ([], [], []) f3). rewrite Ec in H3. specialize (H3 eq_refl).
    destruct r3 as [acc|e]; [|split; [exact H3|reflexivity]]. pose proof H3 as (A1 & A2 & A3 & A4).
    destruct (unfinished_ids p2) as [|i0 ids] eqn:Eu; [destruct A1|].
    assert (forall j x, dget (jobs f3) j = Some x -> ~ In i (map rid (recorded x))) as A5 by (intros j x Dx; apply (A4 j x Dx)).
    pose proof (loop_lost f3 (i0 :: ids) i A3 A5 (i0 :: ids) [] acc A1 (fun z => z)) as NL.
    destruct (collect_loop f3 (i0 :: ids) (i0 :: ids) [] acc) as [r|e|]; [now destruct (NL r)| |]; (split; [exact H3|reflexivity]).
  - unfold work. destruct (dget (jobs (y_fs y)) j) as [x|] eqn:Dx; [|split; [exact L|reflexivity]].
    destruct (Nat.ltb j (job_count (y_pool y))); [|split; [exact L|reflexivity]]. split; [|reflexivity]. cbn [y_pool y_fs].
    destruct L as (H1 & H2 & H3 & H4). split; [exact H1|]. split; [exact H2|]. split; [exact H3|]. cbn [jobs]. intros a x' Hx.
    destruct (Nat.eq_dec a j) as [->|Na]; [|rewrite dget_dset_neq in Hx by auto; now apply (H4 a)].
    rewrite dget_dset_eq in Hx. injection Hx as <-. destruct (H4 j x Dx) as [K1 K2]. rewrite do_events_files. cbn [f_sched recorded f_succ].
    split; [exact K1|]. unfold recorded. cbn [f_succ]. rewrite !map_app, in_app_iff. intros [H|H]; [now apply K2|].
    rewrite map_map in H. apply in_map_iff in H as (r & Er & Hr). unfold rid in Er. cbn [snd fst] in Er. unfold succs in Hr. apply in_flat_map in Hr as (ev & Hev & Hr).
    destruct ev as [r0|r0|r0]; [|destruct Hr|destruct Hr]. destruct Hr as [Hr|[]]. subst r0.
    assert (In (EvSucc r) (calculate_samples out (clock j) (f_sched x))) as Hin.
    { rewrite <- (firstn_skipn (y_prog y j)). apply in_app_iff. right. rewrite <- (firstn_skipn k). apply in_app_iff. now left. }
    unfold calculate_samples in Hin. apply (calc_events out (clock j)) in Hin. destruct Hin as (s & Hs & _ & Hl).
    apply K1. rewrite <- Er, Hl. cbn. apply in_map. apply (Permutation_in _ (sort_perm (f_sched x))). exact Hs.
Qed.
Lemma lost_run i ops : forall y, lost i (y_pool y) (y_fs y) -> ~ In i (map s_id (y_added ops)) ->
  y_reports (fold_left (y_step out clock) ops y) = y_reports y.
Proof.
  induction ops as [|o ops IH]; intros y L N; [reflexivity|]. cbn [fold_left].
  change (y_added (o :: ops)) with ((match o with SAdd s _ _ => [s] | _ => [] end) ++ y_added ops) in N. rewrite map_app, in_app_iff in N.
  destruct (lost_step i y o L) as [L1 R1]; [cbn [y_added flat_map]; rewrite app_nil_r; tauto|]. rewrite IH; [exact R1|exact L1|tauto].
Qed.

(** The scripts of the jobs are numbered from zero; the last one may belong to a job that was rejected. *)
Definition scripts_ok (p : pbs) f : Prop :=
  scripts f = seq 0 (job_count p)
  \/ scripts f = seq 0 (S (job_count p)) /\ scheduled p <> [] /\ exists x, dget (jobs f) (job_count p) = Some x /\ f_sched x <> [].
Lemma in_seq0 n j : In j (seq 0 n) <-> j < n.
Proof. rewrite in_seq. lia. Qed.
Lemma scripts_execute p f prog q : jobs_ok out clock p f prog -> scripts_ok p f -> let '(p', f', e) := execute p f q in scripts_ok p' f'.
Proof.
  intros (N & _) H. unfold execute. destruct (scheduled p) as [|s ss] eqn:Es; [exact H|]. rewrite N. cbn [length Nat.eqb].
  assert (scripts (add_script (save_job f (job_count p) (s :: ss)) (job_count p)) = seq 0 (S (job_count p))) as E.
  { cbn [add_script save_job scripts]. destruct H as [H|(H & _)]; rewrite H; destruct (in_dec _ _ _) as [I|I]; rewrite ?in_seq0 in I; try lia.
    - now rewrite seq_S.
    - reflexivity. }
  destruct q as [id|].
  - left. cbn [write_pbs_id scripts job_count]. rewrite E. f_equal. lia.
  - right. cbn [job_count scheduled]. split; [exact E|]. split; [discriminate|]. eexists. split; [apply dget_dset_eq|]. discriminate.
Qed.
Lemma scripts_same p p' f f' : scripts_ok p f -> job_count p' = job_count p -> (scheduled p <> [] -> scheduled p' <> []) ->
  scripts f' = scripts f -> (forall x, dget (jobs f) (job_count p) = Some x -> dget (jobs f') (job_count p) = Some x) -> scripts_ok p' f'.
Proof.
  intros [H|(H & S1 & x & Dx & Nx)] E1 E2 E3 E4; unfold scripts_ok; rewrite E1, E3; [left; exact H|right].
  split; [exact H|]. split; [now apply E2|]. exists x. auto.
Qed.
Lemma run_scripts ops : NoDup (map slid (y_added ops)) -> scripts_ok (y_pool (y_run out clock ops)) (y_fs (y_run out clock ops)).
Proof.
  induction ops as [|o ops IH] using rev_ind; intros Nd; [left; reflexivity|].
  assert (y_added (ops ++ [o]) = y_added ops ++ y_added [o]) as Ea by apply flat_map_app. rewrite Ea in *.
  rewrite map_app in Nd. apply NoDup_app_iff in Nd as (Nd1 & _ & _). specialize (IH Nd1).
  destruct (run_ok out clock ops Nd1) as [J Ac]. unfold y_run. rewrite fold_left_app. cbn [fold_left].
  fold (y_run out clock ops). set (y := y_run out clock ops) in *. destruct o as [s z q|q ans|j k]; cbn [y_step].
  - unfold schedule_sample. set (p1 := mkP (scheduled (y_pool y) ++ [s]) _ _ _ _ _ _ _).
    assert (scripts_ok p1 (y_fs y)) as H1.
    { apply (scripts_same (y_pool y) _ (y_fs y)); auto. intros _ X. cbn in X. now destruct (scheduled (y_pool y)). }
    assert (jobs_ok out clock p1 (y_fs y) (y_prog y)) as J1.
    { destruct J as (J1 & J2). split; [|exact J2]. cbn [p1 n_in_job scheduled]. rewrite app_length, <- J1. cbn. lia. }
    destruct (_ || _)%bool; [|exact H1]. pose proof (scripts_execute p1 (y_fs y) _ q J1 H1) as E. destruct (execute p1 (y_fs y) q) as [[p' f'] e]. exact E.
  - unfold get_finished. pose proof (scripts_execute _ _ _ q J IH) as E. destruct (execute (y_pool y) (y_fs y) q) as [[p1 f1] e].
    destruct e as [e|]; [exact E|].
    pose proof (qstat_same p1 ans) as Q. destruct (qstat_job p1 ans) as [p2 r]. destruct Q as (Q1 & Q2 & Q3 & Q4).
    assert (scripts_ok p2 f1) as H2 by (apply (scripts_same p1 _ f1); auto; now rewrite Q1).
    destruct r as [[fin unf]|e]; [|exact H2]. destruct (count_running f1 unf); [|exact H2].
    assert (forall acc f', fst (collect f1 fin acc) = f' -> scripts_ok p2 f') as H3.
    { clear - H2. revert f1 H2. induction fin as [|id fin IH]; intros f1 H2 acc f'; cbn [collect]; [intros <-; exact H2|].
      destruct (find_job f1 id) as [j|]; [|now apply IH]. destruct (dget (jobs f1) j) as [x|]; [|intros <-; exact H2].
      destruct (read_results x) as [[s e] t]. destruct acc as [[s0 e0] t0]. apply IH. exact H2. }
    destruct (collect f1 fin ([], [], [])) as [f3 r3] eqn:Ec. specialize (H3 ([], [], []) f3). rewrite Ec in H3. specialize (H3 eq_refl).
    destruct r3 as [acc|e]; [|exact H3]. destruct (unfinished_ids p2) as [|i ids]; [exact H3|].
    destruct (collect_loop _ _ _ _ _); exact H3.
  - unfold work. destruct (dget (jobs (y_fs y)) j) as [x|] eqn:Dx; [|exact IH].
    destruct (Nat.ltb_spec j (job_count (y_pool y))) as [L|]; [|exact IH].
    apply (scripts_same (y_pool y) _ (y_fs y)); auto. intros x' D'. cbn [y_fs jobs]. rewrite dget_dset_neq by lia. exact D'.
Qed.

(** A new pool on the files of a crashed campaign, when the listing ends with the last script. *)
Lemma last_count files n : Permutation files (seq 0 n) -> (forall j, In j files -> j <= last files 0) -> get_job_count files = n.
Proof.
  intros P L. unfold get_job_count. destruct files as [|a l _] using rev_ind.
  - apply Permutation_nil in P. destruct n; [reflexivity|discriminate P].
  - rewrite rev_app_distr. cbn [rev app]. rewrite last_last in L.
    assert (a < n) as La by (apply in_seq0, (Permutation_in _ P), in_app_iff; right; now left).
    assert (In (n - 1) (l ++ [a])) as In1 by (apply (Permutation_in _ (Permutation_sym P)), in_seq0; lia). apply L in In1. lia.
Qed.
Lemma restart_ok ops files : NoDup (map slid (y_added ops)) -> let y := y_run out clock ops in
  Permutation files (scripts (y_fs y)) -> (forall j, In j files -> j <= last files 0) ->
  jobs_ok out clock (new_pbs files) (y_fs y) (y_prog y).
Proof.
  intros Nd y P L. destruct (run_ok out clock ops Nd) as [(J1 & J2 & J3 & J4 & J5 & J6) _]. pose proof (run_scripts ops Nd) as Sc.
  fold y in J1, J2, J3, J4, J5, J6, Sc. unfold jobs_ok. cbn [new_pbs n_in_job scheduled unfinished_ids job_count length].
  destruct Sc as [Sc|(Sc & _ & x & Dx & Nx)]; rewrite Sc in P; rewrite (last_count _ _ P L).
  - auto 10.
  - split; [reflexivity|]. split; [reflexivity|]. split; [eapply Forall_impl; [|exact J3]; cbn; intros; lia|]. split; [exact J4|]. split.
    + intros j Lj. destruct (Nat.eq_dec j (job_count (y_pool y))) as [->|N]; [|apply J5; lia].
      exists x. split; [exact Dx|]. destruct (J6 _ (le_n _)) as [-> E]. destruct (E x Dx) as (ss & ->). exists ss. auto.
    + intros j Lj. apply J6. lia.
Qed.
Lemma steps_ok ops : forall y add, sys_ok out clock y add -> NoDup (map slid (add ++ y_added ops)) ->
  sys_ok out clock (fold_left (y_step out clock) ops y) (add ++ y_added ops).
Proof.
  induction ops as [|o ops IH]; intros y add H N; [cbn; now rewrite app_nil_r|]. cbn [fold_left].
  assert (add ++ y_added (o :: ops) = (add ++ y_added [o]) ++ y_added ops) as E.
  { rewrite <- app_assoc. f_equal. change (o :: ops) with ([o] ++ ops). apply flat_map_app. }
  rewrite E in *. apply IH; [|exact N]. apply step_ok; [exact H|]. rewrite map_app in N. now apply NoDup_app_iff in N.
Qed.
End Homes.
