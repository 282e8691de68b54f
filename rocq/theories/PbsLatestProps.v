(** The job of a sample that was put into several jobs; the class file of several pools. *)
From Verif Require Import Base BaseFacts PermTac PoolModel PoolProofs PbsModel PbsSpec PbsRead PbsPool PbsSystem PbsInv PbsRecover PbsMore PbsProps PbsRestartModel PbsRestart.

(** Job j was written for sample i, and no later job was. *)
Definition in_job {A} (f : fs A) (i : pystr) (j : nat) : Prop := exists x, dget (jobs f) j = Some x /\ In i (map s_id (f_sched x)).
Definition latest {A} (f : fs A) (i : pystr) (j : nat) : Prop := in_job f i j /\ forall k, in_job f i k -> k <= j.

Section Latest.
Context {A : Type}.
Variable out : samp -> A + pystr.
Variable clock : nat -> nat -> Z.
Implicit Types f : fs A.

Record kept (p : pbs) f : Prop := mkKept
  { k_latest : forall i j, sget (id_job f) i = Some j -> latest f i j;
    k_known : forall i j, in_job f i j -> sget (id_job f) i <> None;
    k_next : forall j, job_count p < j -> dget (jobs f) j = None;
    k_last : forall x, dget (jobs f) (job_count p) = Some x -> incl (f_sched x) (scheduled p) }.

Lemma kept_same p p' f f' : kept p f -> scheduled p' = scheduled p -> job_count p' = job_count p -> jobs f' = jobs f -> id_job f' = id_job f -> kept p' f'.
Proof. intros [H1 H2 H3 H4] E1 E2 E3 E4. constructor; unfold latest, in_job in *; rewrite ?E1, ?E2, ?E3, ?E4; assumption. Qed.

Lemma save_in_job p f i j : kept p f -> in_job (save_job f (job_count p) (scheduled p)) i j <->
  (j = job_count p /\ In i (map s_id (scheduled p))) \/ (j <> job_count p /\ in_job f i j).
Proof.
  intros K. unfold in_job, save_job. cbn [jobs]. destruct (Nat.eq_dec j (job_count p)) as [->|N].
  - rewrite dget_dset_eq. split.
    + intros (x & E & Hi). injection E as <-. left. auto.
    + intros [[_ Hi]|[N _]]; [|now destruct N]. eexists. split; [reflexivity|exact Hi].
  - rewrite dget_dset_neq by auto. split; [intros H; right; auto|]. intros [[E _]|[_ H]]; [congruence|exact H].
Qed.
Lemma save_kept p f : kept p f -> kept p (save_job f (job_count p) (scheduled p)).
Proof.
  intros K. pose proof (save_in_job p f) as I. destruct K as [H1 H2 H3 H4] eqn:EK. assert (K' := K). clear EK.
  assert (le_count : forall i k, in_job f i k -> k <= job_count p).
  { intros i k (x & E & _). destruct (Nat.le_gt_cases k (job_count p)) as [L|L]; [exact L|]. rewrite (H3 k L) in E. discriminate. }
  assert (sg : forall i, sget (id_job (save_job f (job_count p) (scheduled p))) i
     = if in_dec pystr_eq_dec i (map s_id (scheduled p)) then Some (job_count p) else sget (id_job f) i).
  { intros i. unfold save_job. cbn [id_job]. rewrite sget_app, sget_jobs. now destruct (in_dec _ _ _). }
  constructor.
  - intros i j. rewrite sg. destruct (in_dec _ _ _) as [Hi|Hi].
    + intros E. injection E as <-. split; [apply I; auto|]. intros k Hk. apply I in Hk as [[-> _]|[_ Hk]]; [lia| |exact K']. now apply (le_count i).
    + intros E. destruct (H1 i j E) as [Hj Hm]. assert (Nj : j <> job_count p).
      { intros ->. destruct Hj as (x & Ex & Hx). apply Hi. revert Hx. apply incl_map. now apply H4. }
      split; [apply I; auto|]. intros k Hk. apply I in Hk as [[_ Hk]|[_ Hk]]; [contradiction| |exact K']. now apply Hm.
  - intros i j Hj. rewrite sg. destruct (in_dec _ _ _) as [Hi|Hi]; [discriminate|]. apply I in Hj as [[_ Hk]|[_ Hk]]; [contradiction| |exact K']. now apply (H2 i j).
  - intros j L. unfold save_job. cbn [jobs]. rewrite dget_dset_neq by lia. now apply H3.
  - intros x. unfold save_job. cbn [jobs]. rewrite dget_dset_eq. intros E. injection E as <-. apply incl_refl.
Qed.
Lemma execute_kept p f q : kept p f -> let '(p', f', e) := execute p f q in kept p' f'.
Proof.
  intros H. unfold execute. destruct (scheduled p) as [|s ss] eqn:Es; [exact H|]. rewrite <- Es.
  pose proof (save_kept p f H) as H1. destruct (Nat.eqb (n_in_job p) 0); [exact H1|]. destruct q as [id|].
  - destruct H1 as [A1 A2 A3 A4]. constructor; cbn [scheduled job_count].
    + exact A1. + exact A2. + intros j L. apply A3. lia.
    + intros x Dx. change (dget (jobs (save_job f (job_count p) (scheduled p))) (job_count p + 1) = Some x) in Dx. rewrite A3 in Dx by lia. discriminate.
  - apply (kept_same p _ (save_job f (job_count p) (scheduled p))); auto.
Qed.
Lemma add_kept p f s z q : kept p f -> let '(p', f', e) := schedule_sample p f s z q in kept p' f'.
Proof.
  intros H. unfold schedule_sample. set (p1 := mkP (scheduled p ++ [s]) _ _ _ _ _ _ _).
  assert (kept p1 f) as H1.
  { destruct H as [A1 A2 A3 A4]. constructor; cbn [p1 scheduled job_count]; auto. intros x Dx y Hy. apply in_app_iff. left. now apply (A4 x). }
  destruct (_ || _)%bool; [|exact H1]. now apply execute_kept.
Qed.
Lemma poll_kept p f q ans : kept p f -> let '(p', f', r) := get_finished p f q ans in kept p' f'.
Proof.
  intros H. unfold get_finished. pose proof (execute_kept p f q H) as H1. destruct (execute p f q) as [[p1 f1] e].
  destruct e as [e|]; [exact H1|].
  pose proof (qstat_same p1 ans) as Q. destruct (qstat_job p1 ans) as [p2 r]. destruct Q as (Q1 & Q2 & Q3 & Q4).
  assert (kept p2 f1) as H2 by (apply (kept_same p1 _ f1); auto).
  destruct r as [[fin unf]|e]; [|exact H2]. destruct (count_running f1 unf); [|exact H2].
  assert (forall acc f', fst (collect f1 fin acc) = f' -> kept p2 f') as H3.
  { clear - H2. revert f1 H2. induction fin as [|id fin IH]; intros f1 H2 acc f'; cbn [collect]; [intros <-; exact H2|].
    destruct (find_job f1 id) as [j|]; [|now apply IH]. destruct (dget (jobs f1) j) as [x|]; [|intros <-; exact H2].
    destruct (read_results x) as [[s e] t]. destruct acc as [[s0 e0] t0]. apply IH.
    eapply kept_same; [exact H2|reflexivity|reflexivity|reflexivity|reflexivity]. }
  destruct (collect f1 fin ([], [], [])) as [f3 r3] eqn:Ec. specialize (H3 ([], [], []) f3). rewrite Ec in H3. specialize (H3 eq_refl).
  destruct r3 as [acc|e]; [|exact H3]. destruct (unfinished_ids p2) as [|i ids]; [exact H3|].
  destruct (collect_loop _ _ _ _ _); try exact H3. apply (kept_same p2 _ f3); auto.
Qed.
Lemma work_kept y j k : kept (y_pool y) (y_fs y) -> kept (y_pool (work out clock y j k)) (y_fs (work out clock y j k)).
Proof.
  intros K. unfold work. destruct (dget (jobs (y_fs y)) j) as [x|] eqn:Dx; [|exact K].
  destruct (Nat.ltb_spec j (job_count (y_pool y))) as [L|]; [|exact K].
  set (x1 := do_events x _). assert (f_sched x1 = f_sched x) as Ex by (unfold x1; now rewrite do_events_files).
  set (f' := mkF (dset (jobs (y_fs y)) j x1) _ _ _).
  assert (I : forall i n, in_job f' i n <-> in_job (y_fs y) i n).
  { intros i n. unfold in_job, f'. cbn [jobs]. destruct (Nat.eq_dec n j) as [->|N].
    - rewrite dget_dset_eq, Dx. split; intros (x' & E & H); injection E as <-; eexists; (split; [reflexivity|]); [now rewrite <- Ex|now rewrite Ex].
    - now rewrite dget_dset_neq by auto. }
  destruct K as [H1 H2 H3 H4]. constructor; cbn [y_pool y_fs].
  - intros i n E. destruct (H1 i n E) as [A1 A2]. split; [now apply I|]. intros m Hm. apply A2. now apply I.
  - intros i n Hn. apply I in Hn. now apply (H2 i n).
  - intros n Ln. unfold f'. cbn [jobs]. rewrite dget_dset_neq by lia. now apply H3.
  - intros x' Hx. unfold f' in Hx. cbn [jobs] in Hx. rewrite dget_dset_neq in Hx by lia. now apply H4.
Qed.
Lemma run_kept ops : kept (y_pool (y_run out clock ops)) (y_fs (y_run out clock ops)).
Proof.
  induction ops as [|o ops IH] using rev_ind.
  - constructor; cbn; try discriminate; try reflexivity. intros i j (x & E & _). discriminate E.
  - unfold y_run. rewrite fold_left_app. cbn [fold_left]. fold (y_run out clock ops). set (y := y_run out clock ops) in *.
    destruct o as [s z q|q ans|j k]; cbn [y_step].
    + pose proof (add_kept (y_pool y) (y_fs y) s z q IH) as E. destruct schedule_sample as [[p f] e]. exact E.
    + pose proof (poll_kept (y_pool y) (y_fs y) q ans IH) as E. destruct get_finished as [[p f] r]. exact E.
    + now apply work_kept.
Qed.
End Latest.

(** ** C168: the recorded job of a sample is the latest job written for it, also when an id was scheduled again. *)
Theorem C168_latest_job {A} (out : samp -> A + pystr) clock ops i j :
  let f := y_fs (y_run out clock ops) in sget (id_job f) i = Some j <-> latest f i j.
Proof.
  intros f. pose proof (run_kept out clock ops) as K. split; [apply (k_latest _ _ K)|]. intros [H1 H2].
  destruct (sget (id_job f) i) as [j'|] eqn:E; [|now destruct (k_known _ _ K i j H1)].
  destruct (k_latest _ _ K i j' E) as [A1 A2]. f_equal. apply Nat.le_antisymm; [now apply H2|now apply A2].
Qed.
Print Assumptions C168_latest_job.
(** A sample in two jobs. *)
Definition twice_ops : list sop := [SAdd (0, str "a", 1%Z) 2 (Some 7); SAdd (0, str "b", 2%Z) 2 (Some 8); SAdd (0, str "a", 1%Z) 2 (Some 9)].
Example C168_ex : let f := y_fs (y_run (fun _ => inl 0) (fun _ _ => 0%Z) twice_ops) in
  in_job f (str "a") 0 /\ in_job f (str "b") 1 /\ latest f (str "a") 2 /\ sget (id_job f) (str "a") = Some 2.
Proof.
  intros f. assert (E : sget (id_job f) (str "a") = Some 2) by (vm_compute; reflexivity).
  split; [|split; [|split; [|exact E]]].
  - eexists. split; [vm_compute; reflexivity|]. cbn. auto.
  - eexists. split; [vm_compute; reflexivity|]. cbn. auto.
  - now apply (C168_latest_job (fun _ => inl 0) (fun _ _ => 0%Z) twice_ops).
Qed.

(** ** C169: in one output directory the processes of all pools work with the parameters of the first pool. *)
Definition class_file_of (pools : list (pystr * pystr * bool)) : option pystr :=
  fold_left (fun old p => Some (serialize old (fst (fst p)) (snd (fst p)) (snd p))) pools None.
Theorem C169_first_pool : forall dir lev debug pools, plain dir -> plain lev ->
  exists c, class_file_of ((dir, lev, debug) :: pools) = Some c /\ deserialize c = Ok (dir, lev, debug).
Proof.
  intros dir lev debug pools Hd Hl. exists (serialize None dir lev debug). split; [|now apply class_file].
  unfold class_file_of. cbn [fold_left fst snd]. generalize (serialize None dir lev debug). induction pools as [|p r IH]; intros c; [reflexivity|].
  cbn [fold_left serialize]. apply IH.
Qed.
Print Assumptions C169_first_pool.
Example C169_ex : plain (str "/out/jobs") /\ exists c, class_file_of [(str "/out/jobs", str "level_{}", false); (str "/out/jobs", str "other_{}", true)] = Some c
  /\ deserialize c = Ok (str "/out/jobs", str "level_{}", false).
Proof.
  assert (P : forall s, forallb (fun c => negb (Ascii.eqb c semi) && negb (newline c))%bool s = true -> plain s).
  { intros s F c Hc. rewrite forallb_forall in F. specialize (F c Hc). apply andb_prop in F as [F1 F2].
    split; [intros ->; now rewrite Ascii.eqb_refl in F1|now destruct (newline c)]. }
  split; [now apply P|]. apply C169_first_pool; now apply P.
Qed.
