(** Properties of the storages (C12, C13, C15, C16, C17, C19, C20, C21). *)
From Coq Require Import Lqa.
From Verif Require Import Base BaseFacts PoolModel PoolSpec PoolFacts HdfModel HdfProofs SamplerModel SamplerSpec SamplerDemo
  StoreModel StoreSpec StoreProofs StoreCrash StoreMemory StoreCost.

(** A history used in the examples: two levels, failures cleared and collected later, a reopening. *)
Definition nm (s : string) : pystr := str s.
Definition ex_ok1 : dict (list (pystr * (list Z * list Z))) :=
  [(0, [(nm "a", ([1; 2], [0; 0])%Z); (nm "c", ([3; 4], [0; 0])%Z)]); (1, [(nm "x", ([5; 6], [7; 8])%Z)])].
Definition ex_h : list (sop Z) :=
  [SSched 0 [nm "a"; nm "b"; nm "c"]; SSched 1 [nm "x"; nm "y"];
   SSave ex_ok1 [(0, [(nm "b", nm "err")]); (1, [])]; SOps [(0, (3%Q, 2)); (1, (1%Q, 1))];
   SClear; SReopen; SSave [(0, [(nm "b", ([9; 10], [0; 0])%Z)])] []].
Ltac goods := repeat match goal with
  | |- Forall _ _ => constructor
  | |- good_op _ _ => cbn
  | |- mem_op _ => cbn
  | |- good_dict _ _ => split
  | |- _ /\ _ => split
  | |- NoDup _ => constructor
  | |- ~ In _ _ => cbn; intuition (discriminate || lia)
  | |- True => exact I
  | |- _ < _ => cbn; lia
  | |- forall l, In l _ -> _ => let Hl := fresh in intros l Hl; cbn in Hl; intuition (subst; cbn; try lia; try discriminate)
  | |- forall l, _ \/ _ -> _ => intros; intuition (subst; cbn; try lia; try discriminate)
  | |- forall l, False -> _ => intros; contradiction
  end.
Lemma ex_h_good : Forall (good_op 2) ex_h.
Proof. goods. Qed.

(** C12, file storage: n_finished counts collected and failed samples of every level. *)
Theorem C12_file_n_finished : forall X L (h : list (sop X)), Forall (good_op L) h ->
  exists o f, hdf_run L h = ((o, f), Ok tt)
    /\ n_finished o f = Ok (map (fun l => length (collected_on l h) + length (failed_on l h)) (seq 0 L)).
Proof.
  intros X L h H. destruct (hdf_run_SInv L h H) as (o & f & E & HI). exists o, f. split; auto. now apply hdf_n_finished.
Qed.
Print Assumptions C12_file_n_finished.
Example C12_file_ex : exists s, hdf_run 2 ex_h = (s, Ok tt) /\ n_finished (fst s) (snd s) = Ok [3; 1].
Proof. eexists. split; vm_compute; reflexivity. Qed.

(** C12, in-memory storage: the count misses a batch of failures saved first on its level. *)
Theorem C12_memory_n_finished_partial : forall X L (h : list (sop X)), Forall (good_op L) h -> Forall mem_op h ->
  exists m, mem_run h = (m, Ok tt)
    /\ (forall l, touched l h = true -> exists v, mem_n_finished m = Ok v /\ l < length v)
    /\ forall v l, mem_n_finished m = Ok v -> l < length v -> exists e, nth_error v l = Some e
       /\ if touched l h
          then exists n, e = Some n /\ n + first_failures l h = length (collected_on l h) + length (failed_on l h)
          else e = None.
Proof.
  intros X L h H H'. destruct (mem_run_MInv L h H H') as (m & E & HI). exists m. ands; auto.
  - intros l Hl. eapply mem_n_finished_len; eauto.
  - intros v l. apply mem_n_finished_spec. exact HI.
Qed.
Print Assumptions C12_memory_n_finished_partial.
Definition ex_mem : list (sop Z) :=
  [SSched 0 [nm "a"]; SSave ex_ok1 [(0, [(nm "b", nm "err")])]; SSave [] [(1, [(nm "y", nm "err")])]].
Example C12_memory_ex : Forall (good_op 2) ex_mem /\ Forall mem_op ex_mem
  /\ mem_n_finished (fst (mem_run ex_mem)) = Ok [Some 3; Some 2].
Proof.
  split; [|split; [|vm_compute; reflexivity]]; goods.
Qed.

Theorem C12_memory_n_finished_refuted : exists (h : list (sop Z)) m l,
  Forall (good_op 1) h /\ Forall mem_op h /\ mem_run h = (m, Ok tt)
  /\ mem_n_finished m = Ok [Some 0] /\ length (collected_on l h) + length (failed_on l h) = 1 /\ l = 0.
Proof.
  exists [SSave [] [(0, [(nm "a", nm "err")])]]. eexists. exists 0. ands; try reflexivity; goods.
Qed.
Print Assumptions C12_memory_n_finished_refuted.

(** C13: unfinished identifiers of the file storage. *)
Theorem C13_unfinished : forall X L (h : list (sop X)), Forall (good_op L) h ->
  (forall l l' id, In id (scheduled_on l h) -> In id (scheduled_on l' h) -> l = l') ->
  exists o f u, hdf_run L h = ((o, f), Ok tt) /\ unfinished_ids o f = Ok u /\ NoDup u
    /\ (forall id, In id u <-> exists l, l < L /\ In id (scheduled_on l h)
          /\ ~ In id (map fst (collected_on l h)) /\ ~ In id (map fst (failed_on l h)))
    /\ (u = [] <-> forall l id, l < L -> In id (scheduled_on l h) ->
          In id (map fst (collected_on l h)) \/ In id (map fst (failed_on l h))).
Proof.
  intros X L h H Hd. destruct (hdf_run_SInv L h H) as (o & f & E & HI).
  destruct (hdf_unfinished_all L h o f HI Hd) as (u & Eu & A & B & C). exists o, f, u. ands; auto.
Qed.
Print Assumptions C13_unfinished.
Example C13_ex : (exists s, hdf_run 2 ex_h = (s, Ok tt) /\ unfinished_ids (fst s) (snd s) = Ok [nm "y"])
  /\ (exists s, hdf_run 2 (firstn 5 ex_h) = (s, Ok tt) /\ unfinished_ids (fst s) (snd s) = Ok [nm "b"; nm "y"])
  /\ (forall l l' id, In id (scheduled_on l ex_h) -> In id (scheduled_on l' ex_h) -> l = l').
Proof.
  split; [|split]; [eexists; split; vm_compute; reflexivity|eexists; split; vm_compute; reflexivity|].
  intros [|[|l]] [|[|l']] id H1 H2; cbn in H1, H2; auto; try tauto;
    repeat (destruct H1 as [H1|H1]; [subst; repeat (destruct H2 as [H2|H2]; [discriminate|]); contradiction|]); contradiction.
Qed.

(** C15: a new storage object on the file of any history reads the same data, and setting up a sampler
    with the same number of levels changes nothing. *)
Theorem C15_reopen : forall X L (h : list (sop X)), Forall (good_op L) h ->
  exists o f o', hdf_run L h = ((o, f), Ok tt) /\ hdf_open f = Ok (o', f)
    /\ save_global_data L (o', f) = ((o', f), Ok tt)
    /\ length (o_groups o') = L
    /\ load_scheduled o' f = load_scheduled o f /\ n_finished o' f = n_finished o f
    /\ unfinished_ids o' f = unfinished_ids o f /\ failed_samples o' f = failed_samples o f
    /\ get_n_collected o' f = get_n_collected o f /\ get_n_ops o' f = get_n_ops o f
    /\ forall d M s, sample_pairs_level d M o' f s = sample_pairs_level d M o f s.
Proof.
  intros X L h H. destruct (hdf_run_SInv L h H) as (o & f & E & HI). exists o, f.
  pose proof HI as (gs & HF & _). rewrite (hdf_open_Full _ _ _ _ HF). exists (mkObj true (seq 0 L)).
  assert (HF' : Full L (mkObj true (seq 0 L)) f gs) by (destruct HF as (_ & B & C); unfold Full; auto).
  destruct HF as (Ho & _ & _).
  unfold load_scheduled, n_finished, unfinished_ids, failed_samples, get_n_collected, get_n_ops, sample_pairs_level, groups_of, get_group.
  cbn [o_groups]. rewrite Ho. ands; auto.
  - eapply save_global_loaded; eauto.
  - apply seq_length.
Qed.
Print Assumptions C15_reopen.
Example C15_reopen_ex : exists s o', hdf_run 2 ex_h = (s, Ok tt) /\ hdf_open (snd s) = Ok (o', snd s)
  /\ load_scheduled o' (snd s) = Ok [(0, [nm "a"; nm "b"; nm "c"]); (1, [nm "x"; nm "y"])]
  /\ get_n_ops o' (snd s) = Ok [(3 # 2)%Q; 1%Q].
Proof. do 2 eexists. ands; vm_compute; reflexivity. Qed.

(** C16: false for an object that created the file: its second call drops all groups. *)
Theorem C16_save_global_partial : forall X L (h : list (sop X)), Forall (good_op L) h ->
  exists o f, hdf_run L (h ++ [SReopen]) = ((o, f), Ok tt) /\ save_global_data L (o, f) = ((o, f), Ok tt).
Proof.
  intros X L h H. destruct (hdf_run_SInv L (h ++ [SReopen])) as (o & f & E & HI); [apply Forall_app; split; repeat constructor; auto|].
  exists o, f. split; auto. pose proof HI as (gs & HF & _). eapply save_global_loaded; eauto.
  (* the last operation was a reopening *)
  destruct (hdf_run_SInv L h H) as (o1 & f1 & E1 & (gs1 & HF1 & _)). unfold hdf_run in E, E1.
  assert (Ea : forall (l1 l2 : list (sop X)) s, sfor (l1 ++ l2) (fun x s => hdf_step s x) s
     = sbind (sfor l1 (fun x s => hdf_step s x)) (fun _ => sfor l2 (fun x s => hdf_step s x)) s).
  { induction l1 as [|x l1 IH]; intros l2 s; [reflexivity|]. cbn [app sfor]. unfold sbind at 1.
    unfold sbind at 1. unfold sbind at 1. destruct (hdf_step s x) as [s1 [u|e]]; [|reflexivity]. rewrite IH. reflexivity. }
  rewrite Ea in E. unfold sbind in E. rewrite E1 in E. cbn [sfor hdf_step] in E. unfold sbind in E.
  cbn [hdf_step] in E. rewrite (hdf_open_Full _ _ _ _ HF1) in E. cbn in E. now injection E as <- _.
Qed.
Print Assumptions C16_save_global_partial.
Example C16_ex : Forall (good_op 2) ex_h.
Proof. exact ex_h_good. Qed.

Theorem C16_save_global_refuted : exists L (h : list (sop Z)) o f o' f',
  Forall (good_op L) h /\ hdf_run L h = ((o, f), Ok tt) /\ n_finished o f = Ok [1]
  /\ save_global_data L (o, f) = ((o', f'), Ok tt) /\ f_groups f' = [] /\ n_finished o' f' = Err KeyError.
Proof.
  exists 1, [SSave [(0, [(nm "a", ([1%Z], [2%Z]))])] []]. do 4 eexists. ands; try (vm_compute; reflexivity).
  goods.
Qed.
Print Assumptions C16_save_global_refuted.

(** With a different number of levels level ids address other groups. *)
Theorem C16_more_levels_refuted : exists (h : list (sop Z)) o f o' f',
  Forall (good_op 2) h /\ hdf_run 2 (h ++ [SReopen]) = ((o, f), Ok tt)
  /\ get_group o f 1 = Ok (1, empty_group)
  /\ save_global_data 1 (o, f) = ((o', f'), Ok tt) /\ o_groups o' = [0; 1; 0].
Proof.
  exists [SSched 0 [nm "a"]]. do 4 eexists. ands; try (vm_compute; reflexivity). goods.
Qed.
Print Assumptions C16_more_levels_refuted.

(** C17: whatever write of a batch the process is killed after, on reopening every level holds the old data,
    the old data and the batch, or (one level at most) the identifiers of the batch without its values. *)
Theorem C17_crash_partial : forall X L (h : list (sop X)) ok bad k,
  Forall (good_op L) h -> good_op L (SSave ok bad) ->
  exists o f o' f' torn, hdf_run L h = ((o, f), Ok tt) /\ crash_saving o ok bad k f = Ok (o', f')
    /\ forall l, l < L -> exists g, get_group o' f' l = Ok (l, g)
       /\ g_sched g = scheduled_on l h
       /\ In (g_failed g) [failed_on l h; failed_on l h ++ dlist bad l]
       /\ exists s, In s [collected_on l h; collected_on l h ++ dlist ok l]
          /\ match g_cvals g with None => [] | Some v => v end = map snd s
          /\ (g_cids g = map fst s
              \/ (l = torn /\ s = collected_on l h /\ g_cids g = map fst (collected_on l h ++ dlist ok l))).
Proof.
  intros X L h ok bad k H [H1 H2]. destruct (hdf_run_SInv L h H) as (o & f & E & HI).
  destruct (crash_saving_spec L h o f ok bad k HI H1 H2) as (o' & f' & gs & Ec & HF & torn & Ht).
  exists o, f, o', f', torn. ands; auto. intros l Hl. destruct (Full_nth _ _ _ _ _ HF Hl) as [g Eg].
  exists g. split; [eapply Full_get; eauto|]. specialize (Ht l g Eg).
  assert (Hv : forall s : list (pystr * (list X * list X)), match vals_of s with None => [] | Some v => v end = map snd s) by (intros [|x s]; reflexivity).
  destruct (Nat.eqb_spec l torn) as [El|El].
  - destruct Ht as [b Ht]. inversion Ht as [s A B C D F|A B C D F]; ands; auto.
    + exists s. rewrite D. auto.
    + rewrite F. cbn. auto.
    + exists (collected_on l h). ands; cbn; auto.
  - inversion Ht as [s A B C D F|]; ands; auto. exists s. rewrite D. auto.
Qed.
Print Assumptions C17_crash_partial.

(** The crash points are those of save_samples. *)
Theorem C17_writes_are_save : forall X L (h : list (sop X)) ok bad, Forall (good_op L) h -> good_op L (SSave ok bad) ->
  exists o f, hdf_run L h = ((o, f), Ok tt) /\ sfor (save_writes ok bad) (do_write o) f = save_samples o ok bad f.
Proof.
  intros X L h ok bad H [H1 H2]. destruct (hdf_run_SInv L h H) as (o & f & E & HI). exists o, f. split; auto.
  eapply writes_are_save; eauto.
Qed.
Print Assumptions C17_writes_are_save.
Example C17_ex : Forall (good_op 2) (firstn 2 ex_h) /\ good_op 2 (SSave ex_ok1 [])
  /\ length (save_writes ex_ok1 []) = 6.
Proof.
  split; [apply (Forall_app (good_op 2) (firstn 2 ex_h) (skipn 2 ex_h)), ex_h_good|].
  split; [|reflexivity]. goods.
Qed.

(** C17 is false: an identifier counted as collected without values, and a later batch then puts values
    of one sample under the identifier of another. *)
Theorem C17_crash_refuted : exists (ok : dict (list (pystr * (list Z * list Z)))) o f o' f',
  good_op 1 (SSave ok []) /\ hdf_run 1 [] = ((o, f), Ok tt) /\ crash_saving o ok [] 1 f = Ok (o', f')
  /\ (exists g, get_group o' f' 0 = Ok (0, g) /\ g_cids g = [nm "a"] /\ g_cvals g = None)
  /\ unfinished_ids o' f' = Ok []
  /\ exists f2 g2, save_samples o' [(0, [(nm "b", ([2%Z], [3%Z]))])] [] f' = (f2, Ok tt)
       /\ get_group o' f2 0 = Ok (0, g2) /\ g_cids g2 = [nm "a"; nm "b"] /\ g_cvals g2 = Some [([2%Z], [3%Z])].
Proof.
  exists [(0, [(nm "a", ([1%Z], [2%Z]))])]. do 4 eexists. split; [|split; [vm_compute; reflexivity|split; [vm_compute; reflexivity|]]].
  - goods.
  - split; [eexists; ands; vm_compute; reflexivity|]. split; [vm_compute; reflexivity|]. do 2 eexists. ands; vm_compute; reflexivity.
Qed.
Print Assumptions C17_crash_refuted.

(** C19: the chunks of a level concatenated are its collected samples in order. *)
Theorem C19_chunks : forall X L (h : list (sop X)) l c, Forall (good_op L) h -> l < L -> 0 < c -> collected_on l h <> [] ->
  exists o f g cs, hdf_run L h = ((o, f), Ok tt) /\ get_group o f l = Ok (l, g) /\ chunks c l g None = Ok cs
    /\ (forall i s, nth_error cs i = Some s -> c_id s = i /\ c_level s = l /\ c_start s < c_stop s)
    /\ forall d M m, m < M -> exists rows,
         Forall2 (fun s r => exists t, sample_pairs_level d M o f s = Ok t /\ length t = M /\ nth_error t m = Some r) cs rows
         /\ concat rows = map (fun x => if Nat.eqb l 0 then [nth m (fst (snd x)) d]
                                        else [nth m (fst (snd x)) d; nth m (snd (snd x)) d]) (collected_on l h).
Proof.
  intros X L h l c H Hl Hc Hn. destruct (hdf_run_SInv L h H) as (o & f & E & HI).
  destruct (hdf_chunks L h o f l c HI Hl Hc Hn) as (g & cs & A & B & C & _ & D). exists o, f, g, cs. ands; auto.
Qed.
Print Assumptions C19_chunks.

Theorem C19_first_n : forall X L (h : list (sop X)) l c n, Forall (good_op L) h -> l < L -> collected_on l h <> [] ->
  exists o f g s, hdf_run L h = ((o, f), Ok tt) /\ get_group o f l = Ok (l, g) /\ chunks c l g (Some n) = Ok [s]
    /\ forall d M m, m < M -> exists t, sample_pairs_level d M o f s = Ok t /\ length t = M
         /\ nth_error t m = Some (map (fun x => if Nat.eqb l 0 then [nth m (fst (snd x)) d]
                                        else [nth m (fst (snd x)) d; nth m (snd (snd x)) d]) (firstn n (collected_on l h))).
Proof.
  intros X L h l c n H Hl Hn. destruct (hdf_run_SInv L h H) as (o & f & E & HI).
  destruct (hdf_first_n L h o f l c n HI Hl Hn) as (g & s & A & B & _ & C). exists o, f, g, s. ands; auto.
Qed.
Print Assumptions C19_first_n.

(** The same for the in-memory storage, which delivers one chunk. *)
Theorem C19_memory : forall X L (h : list (sop X)) l n d M, Forall (good_op L) h -> Forall mem_op h -> collected_on l h <> [] ->
  exists m s t, mem_run h = (m, Ok tt) /\ mem_chunks m l n = Ok [s] /\ mem_sample_pairs_level d M m s = Ok t /\ length t = M
    /\ forall i, i < M -> nth_error t i = Some (map (fun x => if Nat.eqb l 0 then [nth i (fst (snd x)) d]
                                        else [nth i (fst (snd x)) d; nth i (snd (snd x)) d])
         (match n with None => collected_on l h | Some k => firstn k (collected_on l h) end)).
Proof.
  intros X L h l n d M H H' Hn. destruct (mem_run_MInv L h H H') as (m & E & HI).
  destruct (mem_chunk_all h m l n d M HI Hn) as (s & t & A). exists m, s, t. ands; try apply A. exact E.
Qed.
Print Assumptions C19_memory.
Example C19_ex : exists s g cs, hdf_run 2 ex_h = (s, Ok tt) /\ get_group (fst s) (snd s) 0 = Ok (0, g)
  /\ chunks 2 0 g None = Ok cs /\ cs = [mkChunk 0 0 2 0; mkChunk 1 2 3 0]
  /\ map (sample_pairs_level 0%Z 2 (fst s) (snd s)) cs
     = [Ok [[[1%Z]; [3%Z]]; [[2%Z]; [4%Z]]]; Ok [[[9%Z]]; [[10%Z]]]]
  /\ sample_pairs_level 0%Z 2 (fst s) (snd s) (mkChunk 0 0 1 1) = Ok [[[5; 7]%Z]; [[6; 8]%Z]].
Proof. do 3 eexists. ands; try (vm_compute; reflexivity). Qed.

(** C20: both storages return the same after the same history. *)
Theorem C20_same_storages : forall X L (h : list (sop X)), Forall (good_op L) h -> Forall mem_op h ->
  exists o f m, hdf_run L h = ((o, f), Ok tt) /\ mem_run h = (m, Ok tt)
    /\ (exists sch, load_scheduled o f = Ok sch /\ forall l, l < L -> dlist sch l = dlist (mem_load_scheduled m) l)
    /\ (forall l c, l < L -> 0 < c -> collected_on l h <> [] ->
          exists g cs s, get_group o f l = Ok (l, g) /\ chunks c l g None = Ok cs /\ mem_chunks m l None = Ok [s]
            /\ forall d M i, i < M -> exists rows t, 
                 Forall2 (fun s r => exists t, sample_pairs_level d M o f s = Ok t /\ nth_error t i = Some r) cs rows
                 /\ mem_sample_pairs_level d M m s = Ok t /\ nth_error t i = Some (concat rows))
    /\ forall K, K <= L -> (forall l, collected_on l h <> [] <-> l < K) ->
         exists v w, get_n_collected o f = Ok v /\ mem_get_n_collected m = Ok w
           /\ firstn K v = map Some w /\ skipn K v = repeat None (L - K).
Proof.
  intros X L h H H'. destruct (hdf_run_SInv L h H) as (o & f & E & HI). destruct (mem_run_MInv L h H H') as (m & E' & HM).
  exists o, f, m. ands; auto.
  - eexists. split; [apply (hdf_load_scheduled L h o f HI)|]. intros l Hl. rewrite (MInv_sched h m l HM). unfold dlist.
    rewrite (In_dget _ l (scheduled_on l h)); auto.
    + unfold dkeys. rewrite map_map. cbn. rewrite map_id. apply seq_NoDup.
    + apply in_map_iff. exists l. split; auto. apply in_seq. lia.
  - intros l c Hl Hc Hn. destruct (hdf_chunks L h o f l c HI Hl Hc Hn) as (g & cs & A & B & _ & _ & C).
    exists g, cs.
    unfold mem_chunks. pose proof (MInv_results h m l HM) as Er. unfold vals_of in Er.
    destruct (dget (m_results m) l) as [r|] eqn:Eg; [|destruct (collected_on l h); congruence].
    eexists. split; [exact A|]. split; [exact B|]. split; [reflexivity|]. intros d M i Hi.
    destruct (C d M i Hi) as (rows & R1 & R2). 
    destruct (mem_chunk_all h m l None d M HM Hn) as (s & t & M1 & M2 & M3 & M4).
    unfold mem_chunks in M1. rewrite Eg in M1. injection M1 as <-. exists rows, t. ands; auto.
    + clear - R1. induction R1 as [|x y xs ys (t & P & _ & Q) R IH]; constructor; eauto.
    + rewrite M4 by auto. f_equal. symmetry. exact R2.
  - intros K HK Hc. do 2 eexists. split; [apply (hdf_n_collected L h o f HI)|]. split; [apply (mem_n_collected_spec h m K HM Hc)|].
    rewrite firstn_map, skipn_map. replace L with (K + (L - K)) at 1 2 by lia. rewrite seq_app.
    rewrite firstn_app, skipn_app, seq_length, Nat.sub_diag, firstn_all2, skipn_all2 by (rewrite seq_length; lia). cbn [firstn skipn app plus].
    rewrite app_nil_r. split.
    + rewrite map_map. apply map_ext_in. intros l Hl. apply in_seq in Hl. destruct (collected_on l h) eqn:El; [|reflexivity].
      exfalso. apply (proj2 (Hc l)); [lia|auto].
    + assert (G : forall n i, K <= i -> map (fun l => match collected_on l h with [] => None | c => Some (length c) end) (seq i n) = repeat None n).
      { induction n as [|n IH]; intros i Hi; cbn; auto. rewrite IH by lia. f_equal. destruct (collected_on i h) eqn:Ei; auto.
        exfalso. assert (collected_on i h <> []) by congruence. apply Hc in H0. lia. }
      apply G. lia.
Qed.
Print Assumptions C20_same_storages.
Example C20_ex : (exists s, hdf_run 2 ex_mem = (s, Ok tt) /\ get_n_collected (fst s) (snd s) = Ok [Some 2; Some 1])
  /\ mem_get_n_collected (fst (mem_run ex_mem)) = Ok [2; 1].
Proof. split; [eexists; split|]; vm_compute; reflexivity. Qed.

(** C21: the stored cost is the sum of the records divided by the sum of their counts ... *)
Theorem C21_file_cost_partial : forall X L (h : list (sop X)), Forall (good_op L) h ->
  (forall l, l < L -> time_records l h <> []) ->
  exists o f v, hdf_run L h = ((o, f), Ok tt) /\ get_n_ops o f = Ok v /\ length v = L
    /\ forall l q, nth_error v l = Some q ->
       (q == if Nat.eqb (total_count (time_records l h)) 0 then 0
             else total_time (time_records l h) / Zn (total_count (time_records l h)))%Q.
Proof.
  intros X L h H Hr. destruct (hdf_run_SInv L h H) as (o & f & E & HI). destruct (hdf_n_ops L h o f HI Hr) as (v & A).
  exists o, f, v. ands; try apply A. exact E.
Qed.
Print Assumptions C21_file_cost_partial.

(** ... the records of the one-process pool are running totals, so a single poll gives the average ... *)
Theorem C21_pool_records : forall E ops a l, In a (snd (pool_run E ops)) -> exists k,
  let ts := filter (fun t => negb (Qeq_bool t 0)) (run_times E l 0 (firstn k (hands E ops))) in
  match dget (fin_times a) l with Some r => r | None => (0%Q, 0) end = (Qsum ts, length ts).
Proof. intros E ops a l H. destruct (answers_times E ops a l H) as [k Hk]. exists k. exact Hk. Qed.
Print Assumptions C21_pool_records.

(** ... and in general the stored cost lies between the shortest and the longest running time. *)
Theorem C21_cost_between_partial : forall X E ops p rs (h : list (sop X)) L a b,
  pool_run E ops = (p, rs) -> (forall k, a <= duration E k /\ duration E k <= b)%Q ->
  Forall (good_op L) h ->
  (forall l, l < L -> total_count (time_records l h) <> 0) ->
  (forall l r, In r (time_records l h) -> exists x, In x rs /\ dget (fin_times x) l = Some r) ->
  exists o f v, hdf_run L h = ((o, f), Ok tt) /\ get_n_ops o f = Ok v /\ length v = L
    /\ forall l q, nth_error v l = Some q -> (a <= q /\ q <= b)%Q.
Proof.
  intros X E ops p rs h L a b Hp Hd H Hc Hr.
  assert (Hne : forall l, l < L -> time_records l h <> []).
  { intros l Hl K. apply (Hc l Hl). now rewrite K. }
  destruct (C21_file_cost_partial X L h H Hne) as (o & f & v & A & B & C & D). exists o, f, v. ands; auto.
  intros l q Hq. rewrite (D l q Hq). assert (Hl : l < L) by (rewrite <- C; apply nth_error_Some; congruence).
  specialize (Hc l Hl). apply Nat.eqb_neq in Hc as Hc'. rewrite Hc'.
  assert (Hpos : (0 < Zn (total_count (time_records l h)))%Q).
  { unfold Zn. change 0%Q with (inject_Z 0). rewrite <- Zlt_Qlt. lia. }
  destruct (total_bounds a b (time_records l h)) as [L1 L2].
  { intros t n Hin _. destruct (Hr l (t, n) Hin) as (x & Hx & Ex). apply (answer_bounds E a b ops x l t n); auto. now rewrite Hp. }
  split.
  - apply Qle_shift_div_l; auto.
  - apply Qle_shift_div_r; auto.
Qed.
Print Assumptions C21_cost_between_partial.

Definition ex_times : list (sop Z) := [SOps [(0, (1%Q, 1))]; SOps [(0, (4%Q, 2))]].
Example C21_ex : exists s v, hdf_run 1 ex_times = (s, Ok tt) /\ get_n_ops (fst s) (snd s) = Ok [v] /\ (v == 5 # 3)%Q.
Proof. do 2 eexists. ands; vm_compute; reflexivity. Qed.

(** The same two records come from a pool whose calls take 1 and 3 time units. *)
Definition demo2 : env := {|
  param := nat; config := nat * nat; value := Z; zero_param := 0;
  level_instance := fun fine coarse => (fine, coarse);
  calculate := fun _ cfg _ => Returned (NdArray [Z.of_nat (fst cfg)]) (NdArray [0%Z]);
  seed_of := demo_seed; expected_len := 1;
  duration := fun k => if Nat.even k then 1%Q else 3%Q;
  range_item := fun n0 nL levels i => 0%Z |}.
Example C21_pool_ex : exists p rs,
  pool_run demo2 [Submit (nm "a") (@mkLS demo2 (1, 0) 0); Poll; Submit (nm "b") (@mkLS demo2 (1, 0) 0); Poll] = (p, rs)
  /\ (forall k, 1 <= duration demo2 k /\ duration demo2 k <= 3)%Q
  /\ map (fun a => dget (fin_times a) 0) rs = [Some (1%Q, 1); Some (4%Q, 2)].
Proof.
  do 2 eexists. split; [vm_compute; reflexivity|]. split; [|reflexivity].
  intros k. cbn. destruct (Nat.even k); split; unfold Qle; cbn; lia.
Qed.

(** C21 is false: in this campaign two samples are counted at two polls and four at one only. *)
Theorem C21_cost_refuted : exists E ps ops (s : sampler E) q t n,
  reached E ps 3 ops s /\ get_n_ops (s_obj s) (s_file s) = Ok q
  /\ dget (times (s_pool s)) 0 = Some (t, n) /\ n > 0
  /\ (exists q0, nth_error q 0 = Some q0 /\ ~ (q0 == t / inject_Z (Z.of_nat n))%Q).
Proof.
  destruct (@demo_observed _ [SetTarget [2%Q; 1%Q]; Schedule no_clock None; Ask no_clock None;
                              SetTarget [6%Q; 1%Q]; Schedule no_clock None; Ask no_clock None]
     (fun s => match get_n_ops (s_obj s) (s_file s), dget (times (s_pool s)) 0 with
               | Ok (q0 :: _), Some (t, n) => (Nat.ltb 0 n, Qeq_bool q0 (t / inject_Z (Z.of_nat n)))
               | _, _ => (false, false) end) (true, false)) as (s & Hr & Ho); [vm_compute; reflexivity|].
  cbv beta in Ho. destruct (get_n_ops (s_obj s) (s_file s)) as [[|q0 q]|e] eqn:Eq; try discriminate.
  destruct (dget (times (s_pool s)) 0) as [[t n]|] eqn:Et; try discriminate.
  exists demo, demo_ps. eexists. exists s, (q0 :: q), t, n. split; [exact Hr|]. split; [exact Eq|]. split; [exact Et|].
  injection Ho as H1 H2. split; [now apply Nat.ltb_lt|]. exists q0. split; auto. intros K. apply Qeq_bool_iff in K. congruence.
Qed.
Print Assumptions C21_cost_refuted.

(** The in-memory storage adds the averages up: two polls of one sample of cost 1 give 2. *)
Theorem C21_memory_refuted : exists (h : list (sop Z)), Forall (good_op 1) h
  /\ time_records 0 h = [(1%Q, 1); (1%Q, 1)]
  /\ exists q, mem_get_n_ops (fst (mem_run h)) = Ok [Some q] /\ (q == 2)%Q.
Proof.
  exists [SOps [(0, (1%Q, 1))]; SOps [(0, (1%Q, 1))]]. split; [|split; [reflexivity|]].
  - goods.
  - eexists. split; vm_compute; reflexivity.
Qed.
Print Assumptions C21_memory_refuted.
