(** Each sample is reported exactly once over all polls. *)
From Verif Require Import Base BaseFacts PermTac PoolModel PoolProofs PbsModel PbsSpec PbsRead PbsPool.

Definition result_lids {A} (r : dict (list (pystr * A)) * dict (list (pystr * pystr)) * dict (list (Z * nat))) : list (nat * pystr) :=
  let '(s, e, _) := r in map lid (entries s) ++ map lid (entries e).

Section Job.
Context {A : Type}.
Variable out : samp -> A + pystr.
Variable clock : nat -> Z.

Lemma lids_group {B} (l : list (nat * pystr * B)) : Permutation (map lid (entries (group l))) (map fst l).
Proof.
  destruct (group_ok l) as [_ P]. rewrite (Permutation_map lid P), map_map. cbn.
  erewrite map_ext; [reflexivity|]. intros [[a b] c]; reflexivity.
Qed.

Lemma killed_done ss es rest : calculate_samples out clock ss = es ++ rest ->
  Permutation (map slid ss) (done es ++ done rest).
Proof.
  intros H. apply (f_equal done) in H. rewrite done_app in H. unfold calculate_samples in H. rewrite done_calc in H.
  rewrite <- H. apply Permutation_map. symmetry. apply sort_perm.
Qed.

Lemma killed_job ss es rest : calculate_samples out clock ss = es ++ rest -> NoDup (map slid ss) ->
  let '(s, e, t) := read_results (do_events (mkJ ss [] [] []) es) in
  NoDup (dkeys s) /\ NoDup (dkeys e)
  /\ Permutation (entries s) (map (fun r => (fst (fst r), (snd (fst r), snd r))) (succs es))
  /\ Permutation (entries e) (map (fun r => (fst (fst r), (snd (fst r), snd r))) (fails es)
                              ++ map (fun p => (fst p, (snd p, job_failed))) (missing (map slid ss) (done es)))
  /\ Permutation (map lid (entries s) ++ map lid (entries e)) (map slid ss).
Proof.
  intros C N. unfold read_results. rewrite do_events_files. cbn [f_sched f_succ f_fail f_times app].
  destruct (group_ok (succs es)) as [Ns Ps]. destruct (group_ok (fails es)) as [Nf Pf].
  destruct (add_missing_ok (group (succs es)) ss Ns (group (fails es)) Nf N) as [Ne Pe]. cbn zeta in Pe.
  assert (missing (map slid ss) (map lid (entries (group (fails es))) ++ map lid (entries (group (succs es))))
          = missing (map slid ss) (done es)) as Em.
  { apply missing_ext. intros x _. split; intros H.
    - apply (Permutation_in _ (Permutation_sym (done_files es))). rewrite in_app_iff in *.
      destruct H as [H|H]; apply (Permutation_in _ (lids_group _)) in H; auto.
    - apply (Permutation_in _ (done_files es)) in H. rewrite in_app_iff in *.
      destruct H as [H|H]; apply (Permutation_in _ (Permutation_sym (lids_group _))) in H; auto. }
  rewrite Em in Pe. ands; auto.
  - rewrite Pe, Pf. reflexivity.
  - rewrite lids_group. rewrite (Permutation_map lid Pe), map_app, lids_group. rewrite app_assoc, <- done_files.
    rewrite map_map. cbn. rewrite (map_ext _ (fun p => p)), map_id by (intros []; reflexivity).
    pose proof (killed_done ss es rest C) as K. apply missing_perm; auto.
    + apply (Permutation_NoDup K) in N. now apply NoDup_app_iff in N.
    + intros x Hx. apply (Permutation_in _ (Permutation_sym K)). apply in_app_iff. now left.
Qed.
End Job.

Section Sys.
Context {A : Type}.
Variable out : samp -> A + pystr.
Variable clock : nat -> nat -> Z.
Implicit Types f : fs A.

Lemma entries_extend {B} (e : dict (list B)) : forall d, Permutation (entries (extend d e)) (entries d ++ entries e).
Proof.
  unfold extend. induction e as [|[k l] e IH]; intros d; cbn [fold_left]; [cbn; now rewrite app_nil_r|].
  rewrite IH. cbn [fst snd]. change (entries ((k, l) :: e)) with (map (pair k) l ++ entries e). rewrite app_assoc.
  apply Permutation_app_tail. apply Permutation_app_inv_r with (l := map (pair k) (dlist d k)).
  rewrite entries_dset, map_app, <- app_assoc. apply Permutation_app_head, Permutation_app_comm.
Qed.

Definition file_lids f : list (nat * pystr) := map slid (concat (submitted f)).
Definition drop_file f j id : fs A :=
  mkF (jobs f) (filter (fun p => negb (Nat.eqb (fst p) j && Nat.eqb (snd p) id)) (pbs_files f)) (id_job f) (scripts f).

Lemma filter_all {B} (g : B -> bool) l : (forall x, In x l -> g x = true) -> filter g l = l.
Proof. induction l as [|x l IH]; cbn; intros H; [reflexivity|]. rewrite H by auto. f_equal. apply IH. auto. Qed.
Lemma drop_perm f j id : NoDup (map fst (pbs_files f)) -> In (j, id) (pbs_files f) ->
  Permutation (pbs_files f) ((j, id) :: pbs_files (drop_file f j id)).
Proof.
  unfold drop_file; cbn [pbs_files]. induction (pbs_files f) as [|[a b] l IH]; intros N H; [destruct H|].
  cbn [map fst] in N. apply NoDup_cons_iff in N as [Na N]. cbn [filter fst snd].
  destruct H as [E|H].
  - injection E as -> ->. rewrite !Nat.eqb_refl. cbn [negb andb]. apply perm_skip. rewrite filter_all; [reflexivity|].
    intros [x y] Hx. cbn. destruct (Nat.eqb_spec x j) as [->|]; [|reflexivity]. exfalso. apply Na. apply in_map_iff. now exists (j, y).
  - destruct (Nat.eqb_spec a j) as [->|]; [exfalso; apply Na; apply in_map_iff; now exists (j, id)|]. cbn [negb andb].
    eapply Permutation_trans; [apply perm_skip, IH; auto|apply perm_swap].
Qed.
Lemma find_job_In f id j : find_job f id = Some j -> In (j, id) (pbs_files f).
Proof.
  unfold find_job. destruct find as [[a b]|] eqn:E; [|discriminate]. intros [= <-]. apply find_some in E as [H E].
  cbn in *. apply Nat.eqb_eq in E. now subst.
Qed.
Lemma find_job_None f id : find_job f id = None -> ~ In id (map snd (pbs_files f)).
Proof.
  unfold find_job. destruct find as [|] eqn:E; [discriminate|]. intros _ H. apply in_map_iff in H as (e & <- & H).
  pose proof (find_none _ _ E e H) as X. cbn in X. now rewrite Nat.eqb_refl in X.
Qed.

(** Files of every submitted job can be read and report its samples. *)
Definition readable f : Prop := forall j id, In (j, id) (pbs_files f) ->
  exists x, dget (jobs f) j = Some x /\ Permutation (result_lids (read_results x)) (map slid (f_sched x)).

Lemma file_lids_perm f f' : jobs f = jobs f' -> forall l, Permutation (pbs_files f) (l ++ pbs_files f') ->
  Permutation (file_lids f) (file_lids (mkF (jobs f) l [] []) ++ file_lids f').
Proof.
  intros E l P. unfold file_lids, submitted. cbn. rewrite <- map_app, <- concat_app, E, <- map_app.
  apply Permutation_map.
  set (g := fun e : nat * nat => _). assert (forall q, concat (map g q) = flat_map g q) as F by (intros q; now rewrite flat_map_concat_map).
  rewrite !F. now apply Permutation_flat_map.
Qed.

Lemma collect_ok fin : forall f acc, NoDup (map fst (pbs_files f)) -> readable f ->
  exists f' acc', collect f fin acc = (f', Ok acc') /\ jobs f' = jobs f /\ id_job f' = id_job f /\ scripts f' = scripts f
  /\ (exists gone, Permutation (pbs_files f) (gone ++ pbs_files f') /\ incl (map snd gone) fin)
  /\ (exists keep, pbs_files f' = filter keep (pbs_files f))
  /\ (NoDup (map snd (pbs_files f)) -> forall i, In i fin -> ~ In i (map snd (pbs_files f')))
  /\ Permutation (report_lids (acc', 0) ++ file_lids f') (report_lids (acc, 0) ++ file_lids f).
Proof.
  induction fin as [|id fin IH]; intros f acc N R; cbn [collect].
  - exists f, acc. ands; auto.
    + exists []. split; [reflexivity|intros ? []].
    + exists (fun _ => true). symmetry. now apply filter_all.
  - destruct (find_job f id) as [j|] eqn:Fj.
    + apply find_job_In in Fj. destruct (R j id Fj) as (x & Dx & Px). rewrite Dx.
      destruct (read_results x) as [[s e] t] eqn:Rx. destruct acc as [[s0 e0] t0].
      fold (drop_file f j id). pose proof (drop_perm f j id N Fj) as Dp.
      assert (NoDup (map fst (pbs_files (drop_file f j id)))) as N'.
      { apply (Permutation_NoDup (Permutation_map fst Dp)) in N. now inversion N. }
      assert (readable (drop_file f j id)) as R'.
      { intros j' id' H. apply (R j' id'). apply (Permutation_in _ (Permutation_sym Dp)). now right. }
      destruct (IH (drop_file f j id) (extend s0 s, extend e0 e, fold_left add_time t t0) N' R')
        as (f' & acc' & C & J & I1 & I2 & (gone & G1 & G2) & (keep & K) & U & P).
      exists f', acc'. ands; auto.
      * exists ((j, id) :: gone). split; [rewrite Dp; cbn; now rewrite G1|]. cbn. intros z [->|Hz]; [now left|right; auto].
      * exists (fun p => (negb (Nat.eqb (fst p) j && Nat.eqb (snd p) id) && keep p)%bool). rewrite K. unfold drop_file; cbn [pbs_files].
        generalize (pbs_files f). intros l. induction l as [|z l IHl]; [reflexivity|]. cbn.
        destruct (negb _); cbn; [destruct (keep z)|]; rewrite ?IHl; reflexivity.
      * intros Ns i Hi. assert (NoDup (map snd (pbs_files (drop_file f j id))) /\ ~ In id (map snd (pbs_files (drop_file f j id)))) as [Ns' Ni].
        { apply (Permutation_NoDup (Permutation_map snd Dp)) in Ns. cbn in Ns. inversion Ns. auto. }
        destruct Hi as [->|Hi]; [|now apply U]. intros H. apply Ni. apply in_map_iff in H as (z & <- & Hz).
        rewrite K in Hz. apply filter_In in Hz as [Hz _]. now apply in_map.
      * rewrite P. unfold report_lids. cbn [fst]. rewrite (Permutation_map lid (entries_extend s s0)), (Permutation_map lid (entries_extend e e0)).
        rewrite !map_app.
        assert (Permutation (file_lids f) ((map lid (entries s) ++ map lid (entries e)) ++ file_lids (drop_file f j id))) as Fl.
        { rewrite (file_lids_perm f (drop_file f j id) eq_refl [(j, id)] Dp). apply Permutation_app_tail.
          unfold file_lids, submitted. cbn. rewrite Dx, app_nil_r. unfold result_lids in Px. now rewrite Px. }
        rewrite Fl. psolve.
    + destruct (IH f acc N R) as (f' & acc' & C & J & I1 & I2 & (gone & G1 & G2) & K & U & P).
      exists f', acc'. ands; auto.
      * exists gone. split; [exact G1|]. intros z Hz. right. auto.
      * intros Ns i [->|Hi]; [|now apply U]. apply find_job_None in Fj. intros H. apply Fj.
        destruct K as (keep & K). apply in_map_iff in H as (z & <- & Hz). rewrite K in Hz. apply filter_In in Hz as [Hz _]. now apply in_map.
Qed.
End Sys.
