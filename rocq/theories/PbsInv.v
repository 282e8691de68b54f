(** Invariants of the system of pool, files and job processes. *)
From Verif Require Import Base BaseFacts PermTac PoolModel PoolProofs PbsModel PbsSpec PbsRead PbsPool PbsSystem.

Section Inv.
Context {A : Type}.
Variable out : samp -> A + pystr.
Variable clock : nat -> nat -> Z.
Implicit Types f : fs A.

Definition job_state (j : nat) (m : nat) (x : jobfiles A) : Prop :=
  exists ss, ss <> [] /\ x = do_events (mkJ ss [] [] []) (firstn m (calculate_samples out (clock j) ss)).
Definition jobs_ok (p : pbs) f (prog : nat -> nat) : Prop :=
  n_in_job p = length (scheduled p) /\ unfinished_ids p = []
  /\ Forall (fun e => fst e < job_count p) (pbs_files f) /\ NoDup (map fst (pbs_files f))
  /\ (forall j, j < job_count p -> exists x, dget (jobs f) j = Some x /\ job_state j (prog j) x)
  /\ (forall j, job_count p <= j -> prog j = 0 /\ forall x, dget (jobs f) j = Some x -> exists ss, x = mkJ ss [] [] []).
Definition account (p : pbs) f (rep : list (answer A * nat)) (add : list samp) : Prop :=
  Permutation (map slid add) (flat_map report_lids rep ++ file_lids f ++ map slid (scheduled p)).

Lemma sched_of_state j m x ss : x = do_events (mkJ ss [] [] []) (firstn m (calculate_samples out (clock j) ss)) -> f_sched x = ss.
Proof. intros ->. now rewrite do_events_files. Qed.

Lemma execute_inv p f prog q :
  jobs_ok p f prog -> let '(p', f', e) := execute p f q in
  jobs_ok p' f' prog /\ (forall rep add, account p f rep add -> account p' f' rep add)
  /\ (e <> None -> (p', f', e) = execute p f None)
  /\ ((pbs_files f' = pbs_files f /\ pbs_ids p' = pbs_ids p) \/
      exists id, q = Some id /\ pbs_files f' = pbs_files f ++ [(job_count p, id)] /\ pbs_ids p' = pbs_ids p ++ [id]).
Proof.
  intros (N & U & F & Nf & J1 & J2). unfold execute. destruct (scheduled p) as [|s ss] eqn:Es.
  - split; [unfold jobs_ok; rewrite Es; auto 10|]. split; [auto|]. split; [intros X; now destruct X|auto].
  - rewrite N. cbn [length Nat.eqb].
    assert (forall k, dget (jobs (save_job f (job_count p) (s :: ss))) k =
              if Nat.eqb k (job_count p) then Some (mkJ (s :: ss) [] [] []) else dget (jobs f) k) as Dg.
    { intros k. cbn. destruct (Nat.eqb_spec k (job_count p)) as [->|Nk]; [|apply dget_dset_neq; auto].
      rewrite dget_dset_eq. destruct (J2 (job_count p) (le_n _)) as [_ H]. destruct (dget (jobs f) (job_count p)) as [x|]; [|reflexivity].
      destruct (H x eq_refl) as (ss' & ->). reflexivity. }
    destruct q as [id|].
    + ands; try (intros X; now destruct X).
      * unfold jobs_ok. cbn [scheduled n_in_job unfinished_ids job_count pbs_files write_pbs_id add_script jobs]. ands; auto.
        -- cbn. apply Forall_app. split; [|constructor; [cbn; lia|constructor]]. eapply Forall_impl; [|exact F]. cbn; intros; lia.
        -- cbn. rewrite map_app. cbn. apply NoDup_app_iff. ands; auto; [repeat constructor; auto|].
           intros z Hz [<-|[]]. apply in_map_iff in Hz as (e & E & He). rewrite Forall_forall in F. apply F in He. lia.
        -- intros j Hj. rewrite Dg. destruct (Nat.eqb_spec j (job_count p)) as [->|Nj].
           ++ exists (mkJ (s :: ss) [] [] []). split; [reflexivity|]. destruct (J2 (job_count p) (le_n _)) as [-> _].
              exists (s :: ss). split; [discriminate|reflexivity].
           ++ apply J1. lia.
        -- intros j Hj. rewrite Dg. destruct (Nat.eqb_spec j (job_count p)) as [->|Nj]; [lia|]. apply J2. lia.
      * intros rep add Ac. unfold account in *. cbn [scheduled map]. rewrite app_nil_r. rewrite Es in Ac. rewrite Ac.
        apply Permutation_app_head. unfold file_lids.
        assert (submitted (write_pbs_id (add_script (save_job f (job_count p) (s :: ss)) (job_count p)) (job_count p) id) = submitted f ++ [s :: ss]) as ->.
        { unfold submitted at 1. change (pbs_files (write_pbs_id _ _ _)) with (pbs_files f ++ [(job_count p, id)]).
          change (jobs (write_pbs_id _ _ _)) with (jobs (save_job f (job_count p) (s :: ss))). rewrite map_app. f_equal.
          - unfold submitted. apply map_ext_in. intros e He. rewrite Dg. rewrite Forall_forall in F. specialize (F e He).
            destruct (Nat.eqb_spec (fst e) (job_count p)); [lia|reflexivity].
          - cbn [map fst]. now rewrite Dg, Nat.eqb_refl. }
        rewrite concat_app, map_app. cbn [concat]. now rewrite app_nil_r.
      * right. exists id. auto.
    + ands; auto.
      * unfold jobs_ok. cbn [scheduled n_in_job unfinished_ids job_count]. ands; auto.
        -- intros j Hj. cbn [add_script jobs]. rewrite Dg. destruct (Nat.eqb_spec j (job_count p)); [lia|]. now apply J1.
        -- intros j Hj. cbn [add_script jobs]. rewrite Dg. destruct (Nat.eqb_spec j (job_count p)) as [->|]; [|now apply J2].
           split; [now apply J2|]. intros x [= <-]. eauto.
      * intros rep add Ac. unfold account in *. cbn [scheduled]. rewrite Es in Ac. rewrite Ac. unfold file_lids.
        rewrite submitted_save by exact F. reflexivity.
Qed.

Lemma add_inv p f prog rep add s z q : jobs_ok p f prog -> account p f rep add ->
  let '(p', f', e) := schedule_sample p f s z q in jobs_ok p' f' prog /\ account p' f' rep (add ++ [s]).
Proof.
  intros J Ac. unfold schedule_sample. set (p1 := mkP (scheduled p ++ [s]) _ _ _ _ _ _ _).
  assert (jobs_ok p1 f prog) as J'. { unfold jobs_ok, p1 in *; cbn. rewrite app_length. cbn. destruct J as (-> & J). split; [lia|exact J]. }
  assert (account p1 f rep (add ++ [s])) as Ac'. { unfold account, p1 in *; cbn. rewrite !map_app, Ac, <- !app_assoc. reflexivity. }
  destruct (_ || _)%bool; [|auto]. pose proof (execute_inv p1 f prog q J') as E.
  destruct (execute p1 f q) as [[p' f'] e]. destruct E as (E1 & E2 & _). auto.
Qed.

Lemma work_inv y j k add : jobs_ok (y_pool y) (y_fs y) (y_prog y) -> account (y_pool y) (y_fs y) (y_reports y) add ->
  let y' := work out clock y j k in
  jobs_ok (y_pool y') (y_fs y') (y_prog y') /\ account (y_pool y') (y_fs y') (y_reports y') add.
Proof.
  intros J Ac. unfold work. destruct (dget (jobs (y_fs y)) j) as [x|] eqn:Dx; [|auto].
  destruct (Nat.ltb_spec j (job_count (y_pool y))) as [L|]; [|auto]. cbn [y_pool y_fs y_prog y_reports].
  destruct J as (N & U & F & Nf & J1 & J2). destruct (J1 j L) as (x' & E & (ss & Ns & Ex)). rewrite Dx in E. injection E as <-.
  pose proof (sched_of_state _ _ _ _ Ex) as Es. split.
  - unfold jobs_ok; cbn. ands; auto.
    + intros i Hi. destruct (Nat.eqb_spec i j) as [->|Ni].
      * rewrite dget_dset_eq. eexists. split; [reflexivity|]. exists ss. split; [auto|]. rewrite Es, Ex. unfold do_events.
        rewrite <- fold_left_app. f_equal. rewrite <- (firstn_skipn (y_prog y j) (calculate_samples out (clock j) ss)) at 3.
        set (l := calculate_samples out (clock j) ss). destruct (le_lt_dec (y_prog y j) (length l)) as [Le|Lt].
        -- rewrite firstn_app. rewrite firstn_length, Nat.min_l by exact Le.
           replace (y_prog y j + k - y_prog y j) with k by lia. f_equal.
           rewrite firstn_firstn. f_equal. lia.
        -- rewrite skipn_all2 by lia. rewrite firstn_nil, !app_nil_r. rewrite firstn_firstn. rewrite !firstn_all2; [reflexivity|lia|lia].
      * rewrite dget_dset_neq by auto. auto.
    + intros i Hi. destruct (Nat.eqb_spec i j) as [->|Ni]; [lia|]. rewrite dget_dset_neq by auto. auto.
  - unfold account in *. rewrite Ac. apply Permutation_app_head, Permutation_app_tail. unfold file_lids, submitted. cbn.
    apply Permutation_map. erewrite map_ext; [reflexivity|]. intros e. cbn. destruct (Nat.eq_dec (fst e) j) as [E|Ne].
    + rewrite E, dget_dset_eq, Dx. unfold do_events. 
      fold (do_events x (firstn k (skipn (y_prog y j) (calculate_samples out (clock j) (f_sched x))))). now rewrite do_events_files.
    + now rewrite dget_dset_neq by auto.
Qed.

Lemma readable_inv p f prog rep add : jobs_ok p f prog -> account p f rep add -> NoDup (map slid add) -> readable f.
Proof.
  intros (N & U & F & Nf & J1 & J2) Ac Nd j id H. rewrite Forall_forall in F. pose proof (F _ H) as L. cbn in L.
  destruct (J1 j L) as (x & Dx & (ss & Ns & Ex)). exists x. split; [exact Dx|]. rewrite (sched_of_state _ _ _ _ Ex).
  assert (NoDup (map slid ss)) as Nss.
  { apply (Permutation_NoDup Ac) in Nd. apply NoDup_app_iff in Nd as (_ & Nd & _). apply NoDup_app_iff in Nd as (Nd & _ & _).
    apply in_split in H as (a & b & E). unfold file_lids, submitted in Nd. rewrite E, map_app, concat_app, map_app in Nd.
    apply NoDup_app_iff in Nd as (_ & Nd & _). cbn in Nd. rewrite Dx, (sched_of_state _ _ _ _ Ex), map_app in Nd.
    now apply NoDup_app_iff in Nd as (Nd & _ & _). }
  set (l := calculate_samples out (clock j) ss).
  pose proof (killed_job out (clock j) ss (firstn (prog j) l) (skipn (prog j) l) (eq_sym (firstn_skipn _ _)) Nss) as K.
  rewrite Ex. unfold result_lids. destruct (read_results _) as [[s e] t]. tauto.
Qed.

Lemma count_ok f unf : readable f -> exists n, count_running f unf = Ok n.
Proof.
  intros R. induction unf as [|id unf [n IH]]; cbn; [now exists 0|]. destruct (find_job f id) as [j|] eqn:E; [|eauto].
  apply find_job_In in E. destruct (R _ _ E) as (x & Dx & _). unfold job_n_running. rewrite Dx, IH. cbn. eauto.
Qed.

Lemma qstat_same p ans : let '(p', r) := qstat_job p ans in
  scheduled p' = scheduled p /\ n_in_job p' = n_in_job p /\ job_count p' = job_count p /\ unfinished_ids p' = unfinished_ids p.
Proof.
  unfold qstat_job. destruct (pbs_ids p) eqn:E; [auto|]. destruct ans as [fin|].
  - destruct qloop. cbn. auto.
  - destruct Nat.ltb; [cbn; auto|]. destruct qloop. cbn. auto.
Qed.

Lemma poll_inv p f prog rep add q ans : jobs_ok p f prog -> account p f rep add -> NoDup (map slid add) ->
  let '(p', f', r) := get_finished p f q ans in
  jobs_ok p' f' prog /\ account p' f' (match r with Done a => rep ++ [a] | _ => rep end) add /\ r <> Hangs.
Proof.
  intros J Ac Nd. unfold get_finished. pose proof (execute_inv p f prog q J) as E.
  destruct (execute p f q) as [[p1 f1] e]. destruct E as (J1 & Ac1 & _). specialize (Ac1 _ _ Ac).
  destruct e as [e|]; [ands; auto; discriminate|].
  pose proof (qstat_same p1 ans) as Q. destruct (qstat_job p1 ans) as [p2 r]. destruct Q as (Q1 & Q2 & Q3 & Q4).
  assert (jobs_ok p2 f1 prog) as J2 by (unfold jobs_ok in *; now rewrite Q1, Q2, Q3, Q4).
  assert (account p2 f1 rep add) as Ac2 by (unfold account in *; now rewrite Q1).
  destruct r as [[fin unf]|e]; [|ands; auto; discriminate].
  pose proof (readable_inv _ _ _ _ _ J2 Ac2 Nd) as R. destruct (count_ok f1 unf R) as (n & Cn). rewrite Cn.
  pose proof J2 as (K1 & K2 & K3 & K4 & K5 & K6).
  destruct (collect_ok fin f1 ([], [], []) K4 R) as (f' & acc & Cc & Jb & _ & _ & (gone & G1 & G2) & _ & _ & P). rewrite Cc, K2.
  ands; [| |discriminate].
  - unfold jobs_ok. rewrite Jb. ands; auto.
    + rewrite Forall_forall in *. intros z Hz. apply K3. apply (Permutation_in _ (Permutation_sym G1)). apply in_app_iff. now right.
    + apply (Permutation_NoDup (Permutation_map fst G1)) in K4. rewrite map_app in K4. now apply NoDup_app_iff in K4.
  - unfold account in *. rewrite Ac2, flat_map_app. cbn [flat_map]. rewrite app_nil_r, <- app_assoc. apply Permutation_app_head.
    rewrite app_assoc. apply Permutation_app_tail. cbn [fst] in P. change (report_lids (acc, n)) with (report_lids (acc, 0)).
    rewrite P. reflexivity.
Qed.

Definition sys_ok (y : sys) (add : list samp) : Prop :=
  jobs_ok (y_pool y) (y_fs y) (y_prog y) /\ account (y_pool y) (y_fs y) (y_reports y) add.
Lemma step_ok y o add : sys_ok y add -> NoDup (map slid (add ++ y_added [o])) -> sys_ok (y_step out clock y o) (add ++ y_added [o]).
Proof.
  intros [J Ac] Nd. destruct o as [s z q|q ans|j k]; cbn [y_step y_added flat_map app] in *.
  - pose proof (add_inv _ _ _ _ _ s z q J Ac) as H. destruct schedule_sample as [[p f] e]. exact H.
  - rewrite app_nil_r in *. pose proof (poll_inv _ _ _ _ _ q ans J Ac Nd) as H. destruct get_finished as [[p f] r].
    destruct H as (H1 & H2 & _). split; assumption.
  - rewrite app_nil_r. now apply work_inv.
Qed.
Lemma run_ok ops : NoDup (map slid (y_added ops)) -> sys_ok (y_run out clock ops) (y_added ops).
Proof.
  induction ops as [|o ops IH] using rev_ind; intros Nd.
  - split.
    + unfold jobs_ok; cbn. ands; auto; try apply NoDup_nil; [intros j Hj; lia|]. intros j _. split; [reflexivity|intros x [=]].
    + unfold account; cbn. constructor.
  - unfold y_added in *. rewrite flat_map_app in *. fold (y_added ops) in *. fold (y_added [o]) in *.
    unfold y_run. rewrite fold_left_app. apply step_ok; [|exact Nd]. apply IH. rewrite map_app in Nd. now apply NoDup_app_iff in Nd.
Qed.

(** ** Running samples *)
Definition ids_ok (p : pbs) f (used : list nat) : Prop :=
  NoDup (map snd (pbs_files f)) /\ NoDup (pbs_ids p) /\ incl (map snd (pbs_files f)) (pbs_ids p) /\ incl (pbs_ids p) used.

Lemma execute_ids p f prog q used : jobs_ok p f prog -> ids_ok p f used -> (forall id, q = Some id -> ~ In id used) ->
  let '(p', f', e) := execute p f q in ids_ok p' f' (used ++ match q with Some id => [id] | None => [] end).
Proof.
  intros J (I1 & I2 & I3 & I4) Fr. pose proof (execute_inv p f prog q J) as E. destruct (execute p f q) as [[p' f'] e].
  destruct E as (_ & _ & _ & [[Ef Ei]|(id & Eq & Ef & Ei)]); unfold ids_ok; rewrite Ef, Ei.
  - ands; auto. intros z Hz. apply in_app_iff. left. auto.
  - subst q. specialize (Fr id eq_refl). rewrite map_app. cbn. ands.
    + apply NoDup_app_iff. ands; auto; [repeat constructor; auto|]. intros z Hz [<-|[]]. auto.
    + apply NoDup_app_iff. ands; auto; [repeat constructor; auto|]. intros z Hz [<-|[]]. auto.
    + intros z Hz. rewrite in_app_iff in *. destruct Hz as [Hz|Hz]; auto.
    + intros z Hz. rewrite in_app_iff in *. destruct Hz as [Hz|Hz]; auto.
Qed.

Definition in_ids (l : list nat) (e : nat * nat) : bool := existsb (Nat.eqb (snd e)) l.
Definition sched_of f (e : nat * nat) : list samp := match dget (jobs f) (fst e) with Some x => f_sched x | None => [] end.

Lemma count_sum f unf : readable f -> NoDup (map snd (pbs_files f)) -> NoDup (map fst (pbs_files f)) -> NoDup unf ->
  count_running f unf = Ok (length (flat_map (sched_of f) (filter (in_ids unf) (pbs_files f)))).
Proof.
  intros R Ns Nf. induction unf as [|id unf IH]; intros Nu; cbn [count_running].
  - assert (filter (in_ids []) (pbs_files f) = []) as ->; [|reflexivity]. generalize (pbs_files f). induction l; cbn; auto.
  - apply NoDup_cons_iff in Nu as [Ni Nu]. rewrite (IH Nu). destruct (find_job f id) as [j|] eqn:E.
    + apply find_job_In in E. destruct (R _ _ E) as (x & Dx & _). unfold job_n_running. rewrite Dx. cbn [bind]. f_equal.
      assert (Permutation (filter (in_ids (id :: unf)) (pbs_files f)) ((j, id) :: filter (in_ids unf) (pbs_files f))) as P.
      { clear - E Ns Ni. induction (pbs_files f) as [|[a b] l IHl]; [destruct E|]. cbn [map snd] in Ns.
        apply NoDup_cons_iff in Ns as [Nb Ns]. cbn [filter]. unfold in_ids at 1. cbn [snd existsb].
        destruct E as [E|E].
        - injection E as -> ->. rewrite Nat.eqb_refl. cbn [orb].
          assert (in_ids unf (j, id) = false) as ->.
          { unfold in_ids. cbn. destruct (existsb (Nat.eqb id) unf) eqn:X; [|reflexivity]. apply existsb_eqb in X. contradiction. }
          apply perm_skip. erewrite filter_ext_in; [reflexivity|]. intros [c d] Hc. unfold in_ids. cbn.
          destruct (Nat.eqb_spec d id) as [->|]; [|reflexivity]. exfalso. apply Nb. apply in_map_iff. now exists (c, id).
        - destruct (Nat.eqb_spec b id) as [->|]; [exfalso; apply Nb; apply in_map_iff; now exists (j, id)|]. cbn [orb].
          change (existsb (Nat.eqb b) unf) with (in_ids unf (a, b)). destruct (in_ids unf (a, b)).
          + rewrite (IHl Ns E). apply perm_swap.
          + apply IHl; auto. }
      rewrite (Permutation_length (Permutation_flat_map _ P)). cbn [flat_map]. rewrite app_length. unfold sched_of at 2. cbn [fst]. now rewrite Dx.
    + apply find_job_None in E. f_equal. f_equal. f_equal. apply filter_ext_in. intros [c d] Hc. unfold in_ids. cbn.
      destruct (Nat.eqb_spec d id) as [->|]; [|reflexivity]. exfalso. apply E. apply in_map_iff. now exists (c, id).
Qed.

(** The status of the jobs in one poll: [fin] reported finished (nothing when qstat failed). *)
Lemma qstat_ok p ans : NoDup (pbs_ids p) -> let '(p', r) := qstat_job p ans in
  forall fin unf, r = Ok (fin, unf) ->
  NoDup unf /\ NoDup (pbs_ids p') /\ incl (pbs_ids p') (pbs_ids p)
  /\ (forall i, In i unf -> In i (pbs_ids p) /\ ~ In i fin)
  /\ (forall i, In i (pbs_ids p) -> ~ In i fin -> In i (pbs_ids p'))
  /\ (forall i, In i (pbs_ids p) -> ~ In i fin -> In i unf \/ exists y c d, pbs_ids p = c ++ y :: i :: d /\ In y fin)
  /\ (fin = [] \/ ans = Some fin).
Proof.
  intros N. unfold qstat_job. destruct (pbs_ids p) as [|i0 ids0] eqn:Ep.
  - intros fin unf [= <- <-]. rewrite Ep. ands; auto; try (intros ? []); constructor.
  - rewrite <- Ep in *. clear i0 ids0 Ep.
    assert (forall fin unf ids, qloop (length (pbs_ids p)) 0 (pbs_ids p) fin [] = (ids, unf) ->
      NoDup unf /\ NoDup ids /\ incl ids (pbs_ids p) /\ (forall i, In i unf -> In i (pbs_ids p) /\ ~ In i fin)
      /\ (forall i, In i (pbs_ids p) -> ~ In i fin -> In i ids)
      /\ (forall i, In i (pbs_ids p) -> ~ In i fin -> In i unf \/ exists y c d, pbs_ids p = c ++ y :: i :: d /\ In y fin)) as H.
    { intros fin unf ids Q. pose proof (qloop_scan (length (pbs_ids p)) fin (pbs_ids p) (length (pbs_ids p)) [] [] (le_n _) (le_n _) N) as E.
      cbn [app length] in E. rewrite Q in E. injection E as -> ->.
      destruct (scan_ok (length (pbs_ids p)) fin (pbs_ids p) (le_n _)) as (H1 & H2 & H3 & H4 & H5). destruct (H5 N). ands; auto. }
    destruct ans as [fin|].
    + destruct (qloop _ 0 _ fin []) as [ids unf] eqn:Q. intros fin' unf' [= <- <-]. cbn [pbs_ids].
      destruct (H fin unf ids Q) as (H1 & H2 & H3 & H4 & H5 & H6). ands; auto.
    + destruct Nat.ltb; [discriminate|]. destruct (qloop _ 0 _ [] []) as [ids unf] eqn:Q. intros fin' unf' [= <- <-]. cbn [pbs_ids].
      destruct (H [] unf ids Q) as (H1 & H2 & H3 & H4 & H5 & H6). ands; auto.
Qed.

(** One poll: the counted jobs against the jobs whose results are still to be collected afterwards. *)
Lemma poll_count p f prog rep add used q ans :
  jobs_ok p f prog -> account p f rep add -> NoDup (map slid add) -> ids_ok p f used -> (forall id, q = Some id -> ~ In id used) ->
  let '(p', f', r) := get_finished p f q ans in
  ids_ok p' f' (used ++ match q with Some id => [id] | None => [] end)
  /\ forall acc n, r = Done (acc, n) ->
     n <= length (concat (submitted f'))
     /\ (let '(p1, f1, _) := execute p f q in
         (forall c y i d, pbs_ids p1 = c ++ y :: i :: d -> forall fin, ans = Some fin -> In y fin -> In i fin) ->
         n = length (concat (submitted f'))).
Proof.
  intros J Ac Nd I Fr. unfold get_finished. pose proof (execute_inv p f prog q J) as E. pose proof (execute_ids p f prog q used J I Fr) as Ie.
  destruct (execute p f q) as [[p1 f1] e]. destruct E as (J1 & Ac1 & _). specialize (Ac1 _ _ Ac).
  set (used' := used ++ _) in *.
  destruct e as [e|]; [split; [exact Ie|discriminate]|].
  pose proof (qstat_same p1 ans) as Q. pose proof Ie as (I1 & I2 & I3 & I4). pose proof (qstat_ok p1 ans I2) as Qo.
  assert (forall p2 r, qstat_job p1 ans = (p2, r) -> (forall fu, r <> Ok fu) -> pbs_ids p2 = pbs_ids p1) as Qe.
  { intros p2 r. unfold qstat_job. destruct (pbs_ids p1) eqn:Ep; [intros [= <- <-] X; exfalso; eapply X; reflexivity|].
    destruct ans as [fin|]; [destruct qloop; intros [= <- <-] X; exfalso; eapply X; reflexivity|].
    destruct Nat.ltb; [intros [= <- <-]; reflexivity|]. destruct qloop; intros [= <- <-] X; exfalso; eapply X; reflexivity. }
  destruct (qstat_job p1 ans) as [p2 r]. destruct Q as (Q1 & Q2 & Q3 & Q4).
  assert (jobs_ok p2 f1 prog) as J2 by (unfold jobs_ok in *; now rewrite Q1, Q2, Q3, Q4).
  assert (account p2 f1 rep add) as Ac2 by (unfold account in *; now rewrite Q1).
  destruct r as [[fin unf]|e].
  2: { split; [|discriminate]. unfold ids_ok. rewrite (Qe p2 (Err e) eq_refl) by discriminate. auto. }
  destruct (Qo fin unf eq_refl) as (U1 & U2 & U3 & U4 & U5 & U6 & U7). clear Qo Qe.
  pose proof (readable_inv _ _ _ _ _ J2 Ac2 Nd) as R.
  pose proof J2 as (K1 & K2 & K3 & K4 & K5 & K6).
  rewrite (count_sum f1 unf R I1 K4 U1).
  destruct (collect_ok fin f1 ([], [], []) K4 R) as (f' & acc & Cc & Jb & _ & _ & (gone & G1 & G2) & (keep & Kp) & Un & P). rewrite Cc, K2.
  specialize (Un I1).
  assert (incl (map snd (pbs_files f')) (map snd (pbs_files f1))) as Inc.
  { rewrite Kp. intros z Hz. apply in_map_iff in Hz as (w & <- & Hw). apply filter_In in Hw as [Hw _]. now apply in_map. }
  split.
  - unfold ids_ok. ands; auto.
    + apply (Permutation_NoDup (Permutation_map snd G1)) in I1. rewrite map_app in I1. now apply NoDup_app_iff in I1.
    + intros i Hi. apply U5; [apply I3, Inc, Hi|]. intros Hf. apply (Un i Hf Hi).
    + intros i Hi. apply I4, U3, Hi.
  - intros acc0 n [= <- <-].
    assert (forall e, In e (pbs_files f1) -> (In e (pbs_files f') <-> ~ In (snd e) fin)) as Rem.
    { intros z Hz. split.
      - intros H Hf. apply (Un _ Hf). now apply in_map.
      - intros Hf. apply (Permutation_in _ G1) in Hz. apply in_app_iff in Hz as [Hz|Hz]; [|exact Hz].
        exfalso. apply Hf, G2. now apply in_map. }
    assert (concat (submitted f') = flat_map (sched_of f1) (pbs_files f')) as Es.
    { unfold submitted. rewrite Jb. symmetry. apply flat_map_concat_map. }
    assert (NoDup (pbs_files f1)) as Npf. { eapply NoDup_map_inv. exact K4. }
    assert (NoDup (pbs_files f')) as Npf'. { rewrite Kp. now apply NoDup_filter. }
    rewrite Es. split.
    + assert (exists rest, Permutation (pbs_files f') (filter (in_ids unf) (pbs_files f1) ++ rest)) as (rest & Pr).
      { exists (filter (fun e => negb (in_ids unf e)) (pbs_files f')). apply NoDup_Permutation; auto.
        - apply NoDup_app_iff. ands; try now apply NoDup_filter. intros z Hz Hz'. apply filter_In in Hz, Hz'. destruct Hz as [_ Hz], Hz' as [_ Hz'].
          rewrite Hz in Hz'. discriminate.
        - intros z. rewrite in_app_iff, !filter_In. split.
          + intros Hz. destruct (in_ids unf z) eqn:Ez; [left|right; auto]. split; [|reflexivity]. rewrite Kp in Hz. now apply filter_In in Hz.
          + intros [[Hz Hu]|[Hz _]]; [|exact Hz]. apply Rem; [exact Hz|]. apply existsb_eqb in Hu. now apply U4. }
      rewrite (Permutation_length (Permutation_flat_map _ Pr)), flat_map_app, app_length. lia.
    + intros G. apply Permutation_length, Permutation_flat_map. apply NoDup_Permutation; auto; [now apply NoDup_filter|].
      intros z. rewrite filter_In. split.
      * intros [Hz Hu]. apply Rem; [exact Hz|]. apply existsb_eqb in Hu. now apply U4.
      * intros Hz. assert (In z (pbs_files f1)) as Hz1 by (rewrite Kp in Hz; now apply filter_In in Hz). split; [exact Hz1|].
        apply existsb_eqb. assert (~ In (snd z) fin) as Nz by (now apply Rem).
        destruct (U6 (snd z) (I3 _ (in_map snd _ _ Hz1)) Nz) as [H|(y' & c & d & Ec & Hy)]; [exact H|]. exfalso.
        destruct U7 as [-> | ->]; [destruct Hy|]. apply Nz. now apply (G c y' (snd z) d Ec fin eq_refl).
Qed.
End Inv.
