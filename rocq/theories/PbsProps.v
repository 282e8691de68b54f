(** Properties of the pool for a batch system (C23-C29, C79-C83). *)
From Verif Require Import Base BaseFacts PermTac PoolModel PoolProofs PbsModel PbsSpec PbsRead PbsTimes PbsPool PbsSystem PbsInv PbsRecover PbsMore.

Notation F0 := (mkF [] [] [] []).
Definition sa : pystr := str "L00_S0000000".
Definition sb : pystr := str "L00_S0000001".
Definition sc : pystr := str "L01_S0000000".

(** C23: batching. The pool behaves like [b_run]; every sample is in exactly one submitted job or pending; after a
    request that was not rejected the pending samples are within the limits. *)
Theorem C23_batching {A} (files : list nat) (f : fs A) (ops : list op) :
  Forall (fun e => fst e < get_job_count files) (pbs_files f) ->
  let '(p, f', es) := p_run (new_pbs files) f ops in
  let '(b, es') := b_run (mkB (submitted f) [] 0) ops in
  submitted f' = b_jobs b /\ scheduled p = map fst (b_pend b) /\ es = es'
  /\ concat (submitted f') ++ scheduled p = concat (submitted f) ++ added ops
  /\ (qsub_failed p = 0%nat ->
      (qsum (lastn (length (scheduled p)) (sizes ops)) <= 1)%Q /\ length (scheduled p) <= 1000).
Proof.
  intros F. assert (bsim (new_pbs files) f (mkB (submitted f) [] 0)) as S0.
  { unfold bsim; cbn. ands; auto; reflexivity. }
  pose proof (run_sim ops _ _ _ S0) as R. pose proof (b_partition ops (mkB (submitted f) [] 0)) as P.
  pose proof (b_limits ops (mkB (submitted f) [] 0)) as L. destruct (b_sizes ops (mkB (submitted f) [] 0) []) as (pre & Z).
  destruct (p_run (new_pbs files) f ops) as [[p f'] es]. destruct (b_run (mkB (submitted f) [] 0) ops) as [b es'].
  cbn in P, L, Z. destruct R as ((R1 & R2 & R3 & R4 & R5 & R6) & ->). rewrite R1, R2, R5. ands; auto.
  intros Hr. rewrite map_length. rewrite Z, lastn_app by (now rewrite map_length). apply L; [|exact Hr].
  intros _. split; [discriminate|lia].
Qed.
Print Assumptions C23_batching.
Theorem C23_rejections {A} (p : pbs) (f : fs A) n : scheduled p <> [] -> n_in_job p = length (scheduled p) -> qsub_failed p = 0 ->
  let '(p', f', es) := p_run p f (repeat (Flush None) n) in
  scheduled p' = scheduled p /\ weight p' = weight p /\ pbs_files f' = pbs_files f
  /\ es = repeat None (min n 10) ++ repeat (Some PyException) (n - 10).
Proof.
  intros H1 H2 H3. pose proof (rejected n p f H1 H2) as R. destruct (p_run p f (repeat (Flush None) n)) as [[p' f'] es].
  destruct R as (R1 & R2 & R3 & R4 & ->). ands; auto. rewrite H3.
  assert (forall k m, map (fun i => if Nat.ltb 10 i then Some PyException else None) (seq (S k) m)
                      = repeat None (min m (10 - k)) ++ repeat (Some PyException) (m - (10 - k))) as E.
  { intros k m. revert k. induction m as [|m IH]; intros k; [reflexivity|]. cbn [seq map]. rewrite IH.
    destruct (Nat.ltb_spec 10 (S k)).
    - replace (10 - k) with 0 by lia. replace (10 - S k) with 0 by lia. rewrite !Nat.min_0_r, !Nat.sub_0_r. reflexivity.
    - replace (10 - k) with (S (10 - S k)) by lia. cbn [min repeat app]. reflexivity. }
  apply (E 0 n).
Qed.
Print Assumptions C23_rejections.
Example C23_example : let '(p, f, es) := p_run (A:=nat) (new_pbs []) F0
    [Add (0, sa, 1%Z) (3#5) (Some 71); Add (0, sb, 2%Z) (3#5) None; Add (1, sc, 3%Z) (1#5) (Some 72)] in
  submitted f = [[(0, sa, 1%Z); (0, sb, 2%Z); (1, sc, 3%Z)]] /\ scheduled p = [] /\ es = [None; None; None].
Proof. vm_compute. auto. Qed.
Example C23_rejections_example : exists p f, p_run (A:=nat) (new_pbs []) F0 [Add (0, sa, 1%Z) (3#5) None] = (p, f, [None])
  /\ scheduled p <> [] /\ n_in_job p = length (scheduled p) /\ qsub_failed p = 0.
Proof. eexists _, _. split; [vm_compute; reflexivity|]. cbn. split; [discriminate|auto]. Qed.

(** C24: outcomes of a killed job. *)
Theorem C24_outcomes {A} (out : samp -> A + pystr) (clock : nat -> Z) ss es rest :
  calculate_samples out clock ss = es ++ rest -> NoDup (map slid ss) ->
  let '(s, e, t) := read_results (do_events (mkJ ss [] [] []) es) in
  Permutation (map lid (entries s) ++ map lid (entries e)) (map slid ss)
  /\ (forall l i a, In (l, (i, a)) (entries s) <->
        exists x, In x ss /\ slid x = (l, i) /\ In (l, i) (done es) /\ out x = inl a)
  /\ (forall l i m, In (l, (i, m)) (entries e) <->
        exists x, In x ss /\ slid x = (l, i)
                  /\ (In (l, i) (done es) /\ out x = inr m \/ ~ In (l, i) (done es) /\ m = job_failed)).
Proof.
  intros C N. pose proof (killed_job out clock ss es rest C N) as K.
  destruct (read_results _) as [[s e] t]. destruct K as (Ns & Ne & Ps & Pe & P). split; [exact P|].
  assert (forall ev, In ev es -> In ev (calculate_samples out clock ss)) as Sub by (intros ev H; rewrite C; apply in_app_iff; now left).
  assert (forall s0, In s0 (sort_level ss) -> In s0 ss) as Srt by (intros s0; apply Permutation_in, sort_perm).
  assert (forall x y, In x ss -> In y ss -> slid x = slid y -> x = y) as Inj.
  { clear - N. induction ss as [|z ss IH]; [intros x y []|]. cbn in N. apply NoDup_cons_iff in N as [Nz N].
    intros x y [->|Hx] [->|Hy] E; auto; [exfalso; apply Nz; rewrite E; now apply in_map|exfalso; apply Nz; rewrite <- E; now apply in_map]. }
  assert (forall l i a, In (l, i, a) (succs es) <-> exists x, In x ss /\ slid x = (l, i) /\ In (l, i) (done es) /\ out x = inl a) as Hs.
  { intros l i a. split.
    - intros H. pose proof H as H'. apply in_flat_map in H as (ev & Hev & H). destruct ev as [r| |]; try now destruct H. destruct H as [->|[]].
      pose proof (calc_events out clock _ _ _ _ _ _ (Sub _ Hev)) as (x & Hx & Ho & Hsl). exists x. cbn in Hsl, Ho. ands; auto.
      apply (Permutation_in _ (Permutation_sym (done_files es))), in_app_iff. left. apply in_map_iff. now exists (l, i, a).
    - intros (x & Hx & Hsl & Hd & Ho). apply (Permutation_in _ (done_files es)), in_app_iff in Hd.
      destruct Hd as [Hd|Hd]; apply in_map_iff in Hd as (r & Er & Hr); apply in_flat_map in Hr as (ev & Hev & Hr).
      + destruct ev as [r'| |]; try now destruct Hr. destruct Hr as [->|[]].
        pose proof (calc_events out clock _ _ _ _ _ _ (Sub _ Hev)) as (y & Hy & Hoy & Hsly).
        assert (x = y) as <- by (apply Inj; auto; congruence). rewrite Ho in Hoy. injection Hoy as Hoy.
        apply in_flat_map. exists (EvSucc r). split; [exact Hev|]. left. destruct r as [p v]. cbn in *. congruence.
      + destruct ev as [|r'|]; try now destruct Hr. destruct Hr as [->|[]].
        pose proof (calc_events out clock _ _ _ _ _ _ (Sub _ Hev)) as (y & Hy & Hoy & Hsly).
        assert (x = y) as <- by (apply Inj; auto; congruence). congruence. }
  assert (forall l i m, In (l, i, m) (fails es) <-> exists x, In x ss /\ slid x = (l, i) /\ In (l, i) (done es) /\ out x = inr m) as Hf.
  { intros l i a. split.
    - intros H. pose proof H as H'. apply in_flat_map in H as (ev & Hev & H). destruct ev as [|r|]; try now destruct H. destruct H as [->|[]].
      pose proof (calc_events out clock _ _ _ _ _ _ (Sub _ Hev)) as (x & Hx & Ho & Hsl). exists x. cbn in Hsl, Ho. ands; auto.
      apply (Permutation_in _ (Permutation_sym (done_files es))), in_app_iff. right. apply in_map_iff. now exists (l, i, a).
    - intros (x & Hx & Hsl & Hd & Ho). apply (Permutation_in _ (done_files es)), in_app_iff in Hd.
      destruct Hd as [Hd|Hd]; apply in_map_iff in Hd as (r & Er & Hr); apply in_flat_map in Hr as (ev & Hev & Hr).
      + destruct ev as [r'| |]; try now destruct Hr. destruct Hr as [->|[]].
        pose proof (calc_events out clock _ _ _ _ _ _ (Sub _ Hev)) as (y & Hy & Hoy & Hsly).
        assert (x = y) as <- by (apply Inj; auto; congruence). congruence.
      + destruct ev as [|r'|]; try now destruct Hr. destruct Hr as [->|[]].
        pose proof (calc_events out clock _ _ _ _ _ _ (Sub _ Hev)) as (y & Hy & Hoy & Hsly).
        assert (x = y) as <- by (apply Inj; auto; congruence). rewrite Ho in Hoy. injection Hoy as Hoy.
        apply in_flat_map. exists (EvFail r). split; [exact Hev|]. left. destruct r as [p v]. cbn in *. congruence. }
  split; intros l i a.
  - rewrite <- Hs. split; intros H.
    + apply (Permutation_in _ Ps), in_map_iff in H as ([[l' i'] a'] & [= -> -> ->] & H). exact H.
    + apply (Permutation_in _ (Permutation_sym Ps)), in_map_iff. now exists (l, i, a).
  - split; intros H.
    + apply (Permutation_in _ Pe), in_app_iff in H as [H|H].
      * apply in_map_iff in H as ([[l' i'] a'] & [= -> -> ->] & H). apply Hf in H as (x & ? & ? & ? & ?). exists x. auto.
      * apply in_map_iff in H as ([l' i'] & [= -> -> <-] & H). apply filter_In in H as [H H'].
        apply in_map_iff in H as (x & Ex & Hx). exists x. ands; auto. right. split; [|reflexivity]. destruct in_dec; [discriminate|assumption].
    + destruct H as (x & Hx & Ex & [[Hd Ho]|[Hd ->]]); apply (Permutation_in _ (Permutation_sym Pe)), in_app_iff.
      * left. apply in_map_iff. exists (l, i, a). split; [reflexivity|]. apply Hf. exists x. auto.
      * right. apply in_map_iff. exists (l, i). split; [reflexivity|]. apply filter_In. split; [rewrite <- Ex; now apply in_map|].
        destruct in_dec; [contradiction|reflexivity].
Qed.
Print Assumptions C24_outcomes.
Definition out1 (s : samp) : nat + pystr := if pystr_eq_dec (s_id s) sb then inr (str "bad") else inl (length (s_id s)).
Definition clock1 (k : nat) : Z := Z.of_nat (k * k).
Example C24_example : let ss := [(1, sc, 5%Z); (0, sa, 6%Z); (0, sb, 7%Z)] in
  exists rest, calculate_samples out1 clock1 ss = firstn 4 (calculate_samples out1 clock1 ss) ++ rest /\ rest <> []
  /\ NoDup (map slid ss)
  /\ read_results (do_events (mkJ ss [] [] []) (firstn 4 (calculate_samples out1 clock1 ss)))
     = ([(0, [(sa, 12)])], [(0, [(sb, str "bad")]); (1, [(sc, job_failed)])], [(0, [(1%Z, 1); (4%Z, 2)])]).
Proof.
  cbv zeta. exists (skipn 4 (calculate_samples out1 clock1 [(1, sc, 5%Z); (0, sa, 6%Z); (0, sb, 7%Z)])).
  split; [symmetry; apply firstn_skipn|]. split; [vm_compute; discriminate|]. split; [|vm_compute; reflexivity].
  cbn. repeat constructor; cbn; intros H; repeat destruct H as [H|H]; try discriminate H; destruct H.
Qed.

(** C25, restricted to kills between two samples and to levels with executed samples: the last record of the level has
    their number and the time from the reading that opened the level to the last one that closed it. Missing: a kill
    between the two appends of a sample, and records of levels without samples, see the refutations. *)
Theorem C25_times_partial {A} (out : samp -> A + pystr) (clock : nat -> Z) ss m l :
  let E := firstn m (sort_level ss) in
  (exists s, In s E /\ s_level s = l) ->
  let '(_, _, t) := read_results (do_events (mkJ ss [] [] []) (firstn (2 * m) (calculate_samples out clock ss))) in
  exists b e, last (dlist t l) (0%Z, 0) = ((clock e - clock b)%Z, length (filter (fun s => Nat.eqb (s_level s) l) E))
  /\ nth_error (readings E) b = Some (Open l) /\ nth_error (readings E) e = Some (Close l) /\ b < e
  /\ forall i, e < i -> nth_error (readings E) i <> Some (Close l).
Proof.
  intros E H. unfold read_results. rewrite do_events_files. cbn [f_times app].
  unfold calculate_samples. rewrite calc_firstn. fold E.
  destruct (last_record out clock E l (sorted_firstn m _ (sort_sorted ss)) H (l, 0%Z, 0)) as (b & e & L & R).
  exists b, e. split; [|exact R]. rewrite (fold_put_list (fun r => fst (fst r)) (fun r => (snd (fst r), snd r))). cbn [dlist dget app].
  assert (forall q, last (map (fun r : nat * Z * nat => (snd (fst r), snd r)) q) (0%Z, 0)
                    = (snd (fst (last q (l, 0%Z, 0))), snd (last q (l, 0%Z, 0)))) as Lm.
  { induction q as [|x q IH]; [reflexivity|]. destruct q; [reflexivity|]. exact IH. }
  rewrite Lm. change (filter _ (trecs _)) with (of_level l (trecs (calc out clock E 0 (clock 0) 0 1))). rewrite L. reflexivity.
Qed.
Print Assumptions C25_times_partial.
Example C25_example : let ss := [(1, sc, 5%Z); (0, sa, 6%Z); (0, sb, 7%Z)] in
  exists s, In s (firstn 3 (sort_level ss)) /\ s_level s = 1.
Proof. exists (1, sc, 5%Z). split; [vm_compute; auto|reflexivity]. Qed.
(** A kill between the append of the result and the append of the time: one sample executed, no record. *)
Theorem C25_times_refuted : exists (out : samp -> nat + pystr) clock ss k l,
  let es := firstn k (calculate_samples out clock ss) in
  let '(_, _, t) := read_results (do_events (mkJ ss [] [] []) es) in
  length (filter (fun p => Nat.eqb (fst p) l) (done es)) = 2 /\ last (dlist t l) (0%Z, 0) = (1%Z, 1).
Proof. exists out1, clock1, [(0, sa, 6%Z); (0, sb, 7%Z)], 3, 0. vm_compute. auto. Qed.
Print Assumptions C25_times_refuted.
(** A level without samples gets a record with time. *)
Theorem C25_level0_refuted : exists (out : samp -> nat + pystr) clock ss,
  (forall s, In s ss -> s_level s <> 0) /\
  let '(_, _, t) := read_results (do_events (mkJ ss [] [] []) (calculate_samples out clock ss)) in
  exists z, dlist t 0 = [(z, 0)] /\ (0 < z)%Z.
Proof.
  exists out1, clock1, [(1, sc, 5%Z)]. split; [intros s [<-|[]]; discriminate|]. vm_compute. exists 1%Z. auto.
Qed.
Print Assumptions C25_level0_refuted.

(** C26: a poll never counts a finished job, and forgets no running one: ids of all jobs still to be collected are
    kept for later polls. The count may be too small. *)
Section Polls.
Context {A : Type}.
Variable out : samp -> A + pystr.
Variable clock : nat -> nat -> Z.
Theorem C26_running_partial ops q ans p' f' acc n :
  NoDup (map slid (y_added ops)) -> NoDup (y_qsub (ops ++ [SPoll q ans])) ->
  get_finished (y_pool (y_run out clock ops)) (y_fs (y_run out clock ops)) q ans = (p', f', Done (acc, n)) ->
  n <= length (concat (submitted f')) /\ incl (map snd (pbs_files f')) (pbs_ids p').
Proof.
  intros N1 N2 G. assert (y_qsub (ops ++ [SPoll q ans]) = y_qsub ops ++ y_qsub [SPoll q ans]) as Eq by apply flat_map_app.
  rewrite Eq in N2. apply NoDup_app_iff in N2 as (N2 & _ & Dj).
  destruct (run_ok out clock ops N1) as [J Ac]. pose proof (run_ids out clock ops N1 N2) as I.
  pose proof (poll_count out clock _ _ _ _ _ _ q ans J Ac N1 I) as P. rewrite G in P.
  destruct P as [P1 P2]; [intros id -> Hi; apply (Dj id Hi); now left|].
  split; [now apply (P2 acc n eq_refl)|]. now destruct P1 as (_ & _ & P1 & _).
Qed.

(** C79: the count is exact when no running job stands directly after a finished one in the list of submitted jobs. *)
Theorem C79_running ops q ans p' f' acc n :
  NoDup (map slid (y_added ops)) -> NoDup (y_qsub (ops ++ [SPoll q ans])) ->
  get_finished (y_pool (y_run out clock ops)) (y_fs (y_run out clock ops)) q ans = (p', f', Done (acc, n)) ->
  (let '(p1, _, _) := execute (y_pool (y_run out clock ops)) (y_fs (y_run out clock ops)) q in
   forall c y i d, pbs_ids p1 = c ++ y :: i :: d -> forall fin, ans = Some fin -> In y fin -> In i fin) ->
  n = length (concat (submitted f')).
Proof.
  intros N1 N2 G H. assert (y_qsub (ops ++ [SPoll q ans]) = y_qsub ops ++ y_qsub [SPoll q ans]) as Eq by apply flat_map_app.
  rewrite Eq in N2. apply NoDup_app_iff in N2 as (N2 & _ & Dj).
  destruct (run_ok out clock ops N1) as [J Ac]. pose proof (run_ids out clock ops N1 N2) as I.
  pose proof (poll_count out clock _ _ _ _ _ _ q ans J Ac N1 I) as P. rewrite G in P.
  destruct P as [_ P2]; [intros id -> Hi; apply (Dj id Hi); now left|].
  destruct (P2 acc n eq_refl) as [_ P3]. destruct (execute (y_pool (y_run out clock ops)) (y_fs (y_run out clock ops)) q) as [[p1 f1] e].
  exact (P3 H).
Qed.

(** C83: over any run every requested sample is exactly once in the answers, the submitted jobs still to be collected
    or the pending package; answers hold own results. *)
Theorem C83_exactly_once ops : NoDup (map slid (y_added ops)) ->
  let y := y_run out clock ops in
  Permutation (map slid (y_added ops))
    (flat_map report_lids (y_reports y) ++ map slid (concat (submitted (y_fs y))) ++ map slid (scheduled (y_pool y))).
Proof. intros N. apply (run_ok out clock ops N). Qed.
Theorem C83_own_results ops : NoDup (map slid (y_added ops)) ->
  forall s e t n, In ((s, e, t), n) (y_reports (y_run out clock ops)) ->
  (forall l i v, In (l, (i, v)) (entries s) -> exists x, In x (y_added ops) /\ slid x = (l, i) /\ out x = inl v)
  /\ (forall l i m, In (l, (i, m)) (entries e) -> exists x, In x (y_added ops) /\ slid x = (l, i) /\ (out x = inr m \/ m = job_failed)).
Proof.
  intros N s e t n H. destruct (run_known out clock ops N) as (_ & _ & K). rewrite Forall_forall in K. exact (K _ H).
Qed.
End Polls.
Print Assumptions C26_running_partial.
Print Assumptions C79_running.
Print Assumptions C83_exactly_once.
Print Assumptions C83_own_results.
Definition ops1 : list sop :=
  [SAdd (0, sa, 1%Z) (1#2) None; SPoll (Some 71) (Some []); SAdd (0, sb, 2%Z) (1#2) None; SAdd (1, sc, 3%Z) (1#4) None;
   SWork 0 2].
Definition clk (j k : nat) : Z := Z.of_nat (j + k).
Example C26_example : NoDup (map slid (y_added ops1)) /\ NoDup (y_qsub (ops1 ++ [SPoll (Some 72) (Some [72])]))
  /\ exists p f acc, get_finished (y_pool (y_run out1 clk ops1)) (y_fs (y_run out1 clk ops1)) (Some 72) (Some [72]) = (p, f, Done (acc, 1))
     /\ pbs_ids p = [71]
     /\ (let '(p1, _, _) := execute (y_pool (y_run out1 clk ops1)) (y_fs (y_run out1 clk ops1)) (Some 72) in
         forall c y i d, pbs_ids p1 = c ++ y :: i :: d -> forall fin, Some [72] = Some fin -> In y fin -> In i fin).
Proof.
  split; [cbn; repeat constructor; cbn; intros H; repeat destruct H as [H|H]; try discriminate H; destruct H|].
  split; [cbn; repeat constructor; cbn; intros H; repeat destruct H as [H|H]; try discriminate H; destruct H|].
  eexists _, _, _. split; [vm_compute; reflexivity|]. split; [reflexivity|]. vm_compute.
  intros c y i d E fin [= <-] [<-|[]]. destruct c as [|c0 [|c1 c]]; [discriminate E|discriminate E|]. destruct c; discriminate E.
Qed.
(** Jobs 71 and 72 are submitted, 71 has finished: job 72 with two samples is running, the poll returns 0. *)
Theorem C26_running_refuted : exists (out : samp -> nat + pystr) clock ops q ans p f acc n,
  NoDup (map slid (y_added ops)) /\ NoDup (y_qsub (ops ++ [SPoll q ans]))
  /\ get_finished (y_pool (y_run out clock ops)) (y_fs (y_run out clock ops)) q ans = (p, f, Done (acc, n))
  /\ n = 0 /\ length (concat (submitted f)) = 2.
Proof.
  exists out1, clk, ops1, (Some 72), (Some [71]). eexists _, _, _, _.
  split; [cbn; repeat constructor; cbn; intros H; repeat destruct H as [H|H]; try discriminate H; destruct H|].
  split; [cbn; repeat constructor; cbn; intros H; repeat destruct H as [H|H]; try discriminate H; destruct H|].
  split; [vm_compute; reflexivity|]. vm_compute. auto.
Qed.
Print Assumptions C26_running_refuted.
Example C83_example : NoDup (map slid (y_added ops1))
  /\ exists r, y_reports (y_run out1 clk (ops1 ++ [SPoll (Some 72) (Some [71]); SWork 1 1; SPoll None (Some [72])])) = r
     /\ length r = 3 /\ length (flat_map report_lids r) = 3.
Proof.
  split; [cbn; repeat constructor; cbn; intros H; repeat destruct H as [H|H]; try discriminate H; destruct H|].
  eexists. split; [reflexivity|]. vm_compute. auto.
Qed.

(** C27: with consistent records, a recovery poll without other finished jobs returns every successful sample of the
    set at least once with its recorded result and nothing else. Failed samples are left out. *)
Lemma first_poll {A} (f : fs A) files ids q ans s : collect_loop f ids ids [] ([], [], []) = Done (s, [], []) ->
  get_finished (have_permanent (new_pbs files) ids) f q ans = (new_pbs files, f, Done ((s, [], []), 0)).
Proof.
  intros H. unfold get_finished. cbn [execute scheduled have_permanent new_pbs qstat_job pbs_ids count_running collect unfinished_ids].
  destruct ids; [cbn in H; now injection H as <-|]. now rewrite H.
Qed.
Theorem C27_recovery_partial {A} (f : fs A) files ids q ans : consistent f ids ->
  exists s, get_finished (have_permanent (new_pbs files) ids) f q ans = (new_pbs files, f, Done ((s, [], []), 0))
  /\ forall e, In e (entries s) <-> In (rid e) ids /\ succeeded f (rid e) e.
Proof.
  intros C. destruct (loop_ok f ids C ids [] [] (incl_refl _)) as (s & H1 & _ & H3 & H4 & _). exists s. split; [now apply first_poll|].
  intros e. split.
  - intros H. apply H3 in H as [[]|H]; exact H.
  - intros [H S]. apply (H4 (rid e)); auto.
Qed.
Print Assumptions C27_recovery_partial.
(** C80: exactly once when all samples of the set succeeded. *)
Theorem C80_recovery {A} (f : fs A) files ids q ans :
  consistent f ids -> NoDup ids -> (forall i, In i ids -> exists e, succeeded f i e) ->
  exists s, get_finished (have_permanent (new_pbs files) ids) f q ans = (new_pbs files, f, Done ((s, [], []), 0))
  /\ Permutation (map rid (entries s)) ids /\ forall e, In e (entries s) -> succeeded f (rid e) e.
Proof.
  intros C N All. destruct (loop_ok f ids C ids [] [] (incl_refl _)) as (s & H1 & _ & H3 & _ & H5). exists s. split; [now apply first_poll|].
  destruct (H5 All (NoDup_nil _)) as (K1 & K2 & K3); [intros ? []|constructor|intros ? ? ? []|]. split.
  - apply NoDup_Permutation; auto. intros i. split; [apply K2|]. intros Hi. apply K3. now right.
  - intros e H. apply H3 in H as [[]|[_ H]]; exact H.
Qed.
Print Assumptions C80_recovery.
Definition crashed : fs nat := y_fs (y_run out1 clk
  [SAdd (0, sa, 1%Z) (1#2) None; SAdd (0, sb, 2%Z) (1#4) None; SAdd (1, sc, 3%Z) 0 None; SPoll (Some 71) (Some []); SWork 0 6]).
Example C80_example : consistent crashed [sc; sa] /\ NoDup [sc; sa] /\ (forall i, In i [sc; sa] -> exists e, succeeded crashed i e).
Proof.
  assert (forall i, In i [sc; sa] -> exists x, home crashed i 0 x /\ recorded x = [(0, (sa, 12)); (1, (sc, 12))]) as H.
  { intros i [<-|[<-|[]]]; eexists; (split; [split; vm_compute; reflexivity|reflexivity]). }
  split; [split|split].
  - intros i Hi. destruct (H i Hi) as (x & Hx & _). eauto.
  - intros i j x Hi Hx. destruct (H i Hi) as (x' & Hx' & R). destruct (home_eq _ _ _ _ _ _ Hx Hx') as [-> ->]. rewrite R. split.
    + cbn. repeat constructor; cbn; intros X; repeat destruct X as [X|X]; try discriminate X; destruct X.
    + intros e [<-|[<-|[]]] _; vm_compute; reflexivity.
  - repeat constructor; cbn; intros X; repeat destruct X as [X|X]; try discriminate X; destruct X.
  - intros i Hi. destruct (H i Hi) as (x & Hx & R). destruct Hi as [<-|[<-|[]]].
    + exists (1, (sc, 12)). exists 0, x. rewrite R. cbn. auto.
    + exists (0, (sa, 12)). exists 0, x. rewrite R. cbn. auto.
Qed.
Example C27_example : consistent crashed [sa; sb].
Proof.
  assert (forall i, In i [sa; sb] -> exists x, home crashed i 0 x /\ recorded x = [(0, (sa, 12)); (1, (sc, 12))]) as H.
  { intros i [<-|[<-|[]]]; eexists; (split; [split; vm_compute; reflexivity|reflexivity]). }
  split.
  - intros i Hi. destruct (H i Hi) as (x & Hx & _). eauto.
  - intros i j x Hi Hx. destruct (H i Hi) as (x' & Hx' & R). destruct (home_eq _ _ _ _ _ _ Hx Hx') as [-> ->]. rewrite R. split.
    + cbn. repeat constructor; cbn; intros X; repeat destruct X as [X|X]; try discriminate X; destruct X.
    + intros e [<-|[<-|[]]] _; vm_compute; reflexivity.
Qed.
(** A sample that succeeded is returned twice and one that failed not at all. *)
Theorem C27_recovery_refuted : exists (out : samp -> nat + pystr) clock ops ids,
  let f := y_fs (y_run out clock ops) in
  NoDup ids /\ (forall i, In i ids -> In (0, i) (flat_map (fun kv => done (calculate_samples out (clock 0) (f_sched (snd kv)))) (jobs f)))
  /\ exists p f' a, get_finished (have_permanent (new_pbs (scripts f)) ids) f None None = (p, f', Done ([(0, [a; a])], [], [], 0))
  /\ ids = [fst a; sb] /\ unfinished_ids p = [].
Proof.
  exists out1, clk, [SAdd (0, sa, 1%Z) (1#2) None; SAdd (0, sb, 2%Z) (1#4) None; SPoll (Some 71) (Some []); SWork 0 4], [sa; sb].
  split; [repeat constructor; cbn; intros X; repeat destruct X as [X|X]; try discriminate X; destruct X|].
  split; [intros i [<-|[<-|[]]]; vm_compute; auto|].
  eexists _, _, (sa, 12). split; [vm_compute; reflexivity|]. split; reflexivity.
Qed.
Print Assumptions C27_recovery_refuted.
(** When a new job has finished by the first poll after a restart, the poll raises, and the new job is not reported
    any more. *)
Theorem C27_raises_refuted : exists (out : samp -> nat + pystr) clock ops ids s q,
  let f := y_fs (y_run out clock ops) in
  let p := have_permanent (new_pbs (scripts f)) ids in
  let '(p1, f1, _) := schedule_sample p f s 2 (Some q) in
  let '(p2, f2, r) := get_finished p1 (y_fs (work out clock (mkS p1 f1 (fun _ => 0) []) 1 2)) None (Some [q]) in
  r = Raised TypeError /\ ~ In s (concat (submitted f2)) /\ ~ In s (scheduled p2).
Proof.
  exists out1, clk, [SAdd (0, sa, 1%Z) (1#2) None; SPoll (Some 71) (Some []); SWork 0 4], [sa], (1, sc, 3%Z), 72.
  vm_compute. split; [reflexivity|]. split; [intros [H|[]]; discriminate H|intros []].
Qed.
Print Assumptions C27_raises_refuted.

(** C28: job numbers. *)
Theorem C28_job_numbers_refuted : exists files j, NoDup files /\ In j files /\ job_count (new_pbs files) = j.
Proof. exists [1; 0], 1. split; [repeat constructor; cbn; intuition discriminate|]. cbn. auto. Qed.
Print Assumptions C28_job_numbers_refuted.
(** C81: the next number is new when the listing ends with the largest number. *)
Theorem C81_job_numbers files : (forall j, In j files -> j <= last files 0) -> forall j, In j files -> j < job_count (new_pbs files).
Proof.
  intros H j Hj. apply H in Hj as L. cbn. unfold get_job_count. destruct files as [|a l] using rev_ind; [destruct Hj|].
  rewrite rev_app_distr. cbn. rewrite last_last in L. lia.
Qed.
Print Assumptions C81_job_numbers.
Example C81_example : forall j, In j [0; 2; 1; 3] -> j <= last [0; 2; 1; 3] 0.
Proof. cbn. lia. Qed.

(** C29: the class file. *)
Theorem C29_class_file_refuted : exists dir lev debug, deserialize (serialize None dir lev debug) <> Ok (dir, lev, debug).
Proof. exists (str "/home/a;b/jobs"), (str "level_{}"), true. vm_compute. discriminate. Qed.
Print Assumptions C29_class_file_refuted.
(** An existing file is kept, whatever the new pool asks for. *)
Theorem C29_stale_refuted : exists dir lev debug debug', plain dir /\ plain lev /\
  deserialize (serialize (Some (serialize None dir lev debug)) dir lev debug') <> Ok (dir, lev, debug').
Proof.
  exists (str "/home/jobs"), (str "level_{}"), false, true.
  assert (forall s, forallb (fun c => negb (Ascii.eqb c semi) && negb (newline c))%bool s = true -> plain s) as P.
  { intros s F c Hc. rewrite forallb_forall in F. specialize (F c Hc). apply andb_prop in F as [F1 F2].
    split; [intros ->; now rewrite Ascii.eqb_refl in F1|now destruct (newline c)]. }
  split; [now apply P|]. split; [now apply P|]. vm_compute. discriminate.
Qed.
Print Assumptions C29_stale_refuted.
(** C82: round trip of names without separators and line ends when the file is new. *)
Theorem C82_class_file dir lev debug : plain dir -> plain lev -> deserialize (serialize None dir lev debug) = Ok (dir, lev, debug).
Proof. apply class_file. Qed.
Print Assumptions C82_class_file.
Example C82_example : plain (str "/home/user/jobs") /\ plain (str "level_{}_simulation_config").
Proof.
  assert (forall s, forallb (fun c => negb (Ascii.eqb c semi) && negb (newline c))%bool s = true -> plain s) as P.
  { intros s F c Hc. rewrite forallb_forall in F. specialize (F c Hc). apply andb_prop in F as [F1 F2].
    split; [intros ->; now rewrite Ascii.eqb_refl in F1|now destruct (newline c)]. }
  split; now apply P.
Qed.
