(** Properties C180-C184: the Sampler with a process or thread pool, under every interleaving with the thread that
    delivers the results. *)
From Verif Require Import Base BaseFacts TagModel PoolModel HdfModel SamplerModel SamplerSpec SamplerFacts SamplerDemo ParModel ParSpec ParFacts ParProofs ParDead.

(** The demonstration campaign with workers that finish the newest sample first, one per point. *)
Definition late (k : nat) : list nat := match Nat.modulo k 3 with 0 => [2; 0] | 1 => [1] | _ => [] end.
Definition nobody (k : nat) : list nat := [].
Definition par_demo (picks wpicks : nat -> list nat) (escaped : nat -> bool) (ops : list op) : res (par demo) :=
  match par_start demo demo_ps with Ok s0 => Ok (par_run demo picks wpicks escaped 40 s0 ops) | Err e => Err e end.
Definition par_show (r : res (par demo)) :=
  match r with
  | Err e => Err e
  | Ok s => Ok (map (fun l => match nth_error (f_groups (s_file (base s))) l with
                              | Some (GFull g) => (g_sched g, g_cids g, map fst (g_failed g), outstanding s l, waiting (base s) l)
                              | _ => ([], [], [], [], []) end) [0; 1], alive s, ticks s)
  end.

(** C180: a wait without timeout that returns has 0 samples left, and every scheduled sample of every level is stored,
    as collected or failed, exactly once; whatever the order of the results, with whatever lost before. *)
Theorem C180_wait_collects_all : forall E ps picks wpicks escaped fuel ops (s : par E) fuel' clk s' n,
  par_reached E ps picks wpicks escaped fuel ops s ->
  par_step E picks wpicks escaped fuel' s (Ask clk None) = (s', OInt n) ->
  n = 0%Z /\ forall l, l < length ps -> exists g, par_level s' l g
    /\ (exists k, g_sched g = map (tag l) (seq 0 k))
    /\ Permutation (g_sched g) (g_cids g ++ map fst (g_failed g)) /\ NoDup (g_cids g ++ map fst (g_failed g))
    /\ n_records g = length (g_cids g) /\ outstanding s' l = [] /\ waiting (base s') l = [].
Proof. exact all_collected. Qed.
Print Assumptions C180_wait_collects_all.

(** The wait returns, and the results were stored in an order different from the order of scheduling. *)
Example C180_example :
  match par_demo late nobody (fun _ => false) [SetTarget [5%Q; 3%Q]; Schedule no_clock None] with
  | Ok s => match par_step demo late nobody (fun _ => false) 40 s (Ask no_clock None) with
            | (s', OInt n) => Some (n, map (fun l => match nth_error (f_groups (s_file (base s'))) l with
                                                    | Some (GFull g) => (g_cids g, map fst (g_failed g)) | _ => ([], []) end) [0; 1])
            | _ => None end
  | Err _ => None end
  = Some (0%Z, [([tag 0 0; tag 0 1; tag 0 4], [tag 0 3; tag 0 2]); ([tag 1 0], [tag 1 1; tag 1 2])]).
Proof. vm_compute. reflexivity. Qed.

(** C181: with a deterministic simulation the stored records are then, up to their order, the simulation of the level at
    the seeds of the identifiers, and the failed identifiers are those without a record. *)
Theorem C181_records_expected : forall E ps picks wpicks escaped fuel ops (s : par E) fuel' clk s' n l g,
  deterministic E -> par_reached E ps picks wpicks escaped fuel ops s ->
  par_step E picks wpicks escaped fuel' s (Ask clk None) = (s', OInt n) -> par_level s' l g ->
  Permutation (records g) (expected_records E ps (calculate E 0) l (length (g_sched g)))
  /\ Permutation (map fst (g_failed g))
       (filter (fun id => match sample_record E ps (calculate E 0) l id with [] => true | _ => false end) (g_sched g)).
Proof. exact par_expected. Qed.
Print Assumptions C181_records_expected.

(** C181: the same records, up to their order, as a campaign in one process with as many samples. *)
Theorem C181_same_as_one_process : forall E ps picks wpicks escaped fuel ops (s : par E) fuel' clk s' n l g
    fuel1 ops1 (s1 : sampler E) g1,
  deterministic E -> par_reached E ps picks wpicks escaped fuel ops s ->
  par_step E picks wpicks escaped fuel' s (Ask clk None) = (s', OInt n) -> par_level s' l g ->
  reached E ps fuel1 ops1 s1 -> (forall o, In o ops1 -> o <> Restart) -> level s1 l g1 ->
  nth_error (s_nsched s1) l = Some (length (g_sched g)) -> waiting s1 l = [] ->
  Permutation (records g) (records g1).
Proof.
  intros E ps picks wpicks escaped fuel ops s fuel' clk s' n l g fuel1 ops1 s1 g1 Hd Hr Hs Hg Hr1 Ho Hg1 Hn Hw.
  destruct (records_expected E ps fuel1 ops1 s1 l g1 _ Hd Hr1 Ho Hg1 Hn Hw) as [-> _].
  exact (proj1 (par_expected E ps picks wpicks escaped fuel ops s fuel' clk s' n l g Hd Hr Hs Hg)).
Qed.
Print Assumptions C181_same_as_one_process.

(** The two campaigns of the demonstration: the same records, in another order. *)
Definition par_records (r : res (par demo)) :=
  match r with
  | Ok s => map (fun l => match nth_error (f_groups (s_file (base s))) l with Some (GFull g) => records g | _ => [] end) [0; 1]
  | Err _ => [] end.
Definition reversed (k : nat) : list nat := match k with 11 => [7; 6; 5; 4; 3; 2; 1; 0] | _ => [] end.
Definition one_records (r : res (sampler demo)) :=
  match r with
  | Ok s => map (fun l => match nth_error (f_groups (s_file s)) l with Some (GFull g) => records (E := demo) g | _ => [] end) [0; 1]
  | Err _ => [] end.
Example C181_example :
  let ops := [SetTarget [5%Q; 3%Q]; Schedule no_clock None; Ask no_clock None] in
  par_records (par_demo reversed nobody (fun _ => false) ops) = map (@rev _) (one_records (demo_run ops))
  /\ map (@length _) (one_records (demo_run ops)) = [3; 1].
Proof. vm_compute. auto. Qed.

(** C182: at every moment the identifiers stored, outstanding or waiting are scheduled ones without repetition, and each
    stored record is an accepted answer of the simulation of its level. *)
Theorem C182_always_valid : forall E ps picks wpicks escaped fuel ops (s : par E) l g,
  par_reached E ps picks wpicks escaped fuel ops s -> par_level s l g ->
  NoDup (g_sched g) /\ NoDup (g_cids g ++ map fst (g_failed g) ++ outstanding s l ++ waiting (base s) l)
  /\ incl (g_cids g ++ map fst (g_failed g) ++ outstanding s l ++ waiting (base s) l) (g_sched g)
  /\ n_records g = length (g_cids g)
  /\ (forall id f c, In (id, (f, c)) (records g) -> exists cfg k, level_config E ps l = Some cfg
        /\ calculate E k cfg (seed_of E id) = Returned f c /\ acceptable E f c = true).
Proof. exact always_valid. Qed.
Print Assumptions C182_always_valid.

(** C182: what is scheduled or recorded stays, under any further operations. *)
Theorem C182_records_stay : forall E ps picks wpicks escaped fuel ops (s : par E) fuel' more l g,
  par_reached E ps picks wpicks escaped fuel ops s -> par_level s l g ->
  exists g' a b, par_level (par_run E picks wpicks escaped fuel' s more) l g' /\ g_sched g' = g_sched g ++ a /\ records g' = records g ++ b.
Proof. exact records_stay. Qed.
Print Assumptions C182_records_stay.

(** In the middle of a campaign: stored, outstanding and waiting samples at the same time. *)
Example C182_example :
  match par_show (par_demo late nobody (fun _ => false)
     [SetTarget [5%Q; 3%Q]; Schedule no_clock None; Ask (fun i => inject_Z (Z.of_nat i)) (Some (1 # 2)%Q); SetTarget [9%Q; 3%Q];
      Schedule no_clock (Some 0%Q)]) with
  | Ok (v, a, t) => Some (map (fun '(x, y, z, u, w) => (length x, length y, length z, length u, length w)) v)
  | Err _ => None end = Some [(9, 3, 2, 1, 3); (3, 1, 2, 0, 0)].
Proof. vm_compute. reflexivity. Qed.

(** C183: a scheduled sample that is neither stored nor outstanding nor waiting makes every later wait endless. *)
Theorem C183_lost_forever : forall E ps picks wpicks escaped fuel ops (s : par E) l g id,
  par_reached E ps picks wpicks escaped fuel ops s -> par_level s l g -> In id (g_sched g) ->
  ~ In id (g_cids g ++ map fst (g_failed g) ++ outstanding s l ++ waiting (base s) l) ->
  forall fuel' more fuel'' clk,
  snd (par_step E picks wpicks escaped fuel'' (par_run E picks wpicks escaped fuel' s more) (Ask clk None)) = ORunning.
Proof. exact lost_forever. Qed.
Print Assumptions C183_lost_forever.

(** C183 fails: a result that arrives between copy and clear of its queue is lost. Nothing failed, the workers finished
    everything, and no wait ever returns. *)
Definition lucky (k : nat) : list nat := match k with 8 => [1] | _ => [] end.
Definition unlucky (k : nat) : list nat := match k with 10 => [0; 0; 0; 0] | _ => [] end.
Definition lossy : list op := [SetTarget [5%Q; 0%Q]; Schedule no_clock None; Ask (fun i => inject_Z (Z.of_nat i)) (Some 1%Q)].
Theorem C183_wait_ends_refuted : exists (E : env) ps picks wpicks escaped fuel ops (s : par E),
  nothing_escapes escaped /\ par_reached E ps picks wpicks escaped fuel ops s /\ tasks s = [] /\ alive s = true
  /\ forall fuel' more fuel'' clk,
     snd (par_step E picks wpicks escaped fuel'' (par_run E picks wpicks escaped fuel' s more) (Ask clk None)) = ORunning.
Proof.
  set (r := par_demo lucky unlucky (fun _ => false) lossy).
  destruct (par_start demo demo_ps) as [s0|e] eqn:E0; [|exfalso; revert E0; vm_compute; discriminate].
  set (s := par_run demo lucky unlucky (fun _ => false) 40 s0 lossy).
  assert (Hr : par_reached demo demo_ps lucky unlucky (fun _ => false) 40 lossy s) by (exists s0; auto).
  assert (Hs : r = Ok s) by (unfold r, par_demo; rewrite E0; reflexivity). clearbody s.
  assert (H : match r with
              | Ok s => match nth_error (f_groups (s_file (base s))) 0 with
                        | Some (GFull g) => (g_sched g, g_cids g, map fst (g_failed g), outstanding s 0, waiting (base s) 0, tasks s, alive s)
                        | _ => ([], [], [], [], [], [], false) end
              | Err _ => ([], [], [], [], [], [], false) end
    = (map (tag 0) (seq 0 5), [tag 0 1], [tag 0 2; tag 0 3], [], [], [], true)) by (vm_compute; reflexivity).
  rewrite Hs in H. clear r Hs.
  destruct (nth_error (f_groups (s_file (base s))) 0) as [[|g]|] eqn:Eg; try discriminate.
  injection H as H1 H2 H3 H4 H5 H6 H7.
  exists demo, demo_ps, lucky, unlucky, (fun _ => false), 40, lossy, s. split; [intros k; reflexivity|].
  split; [exact Hr|]. split; [exact H6|]. split; [exact H7|].
  apply (lost_forever _ _ _ _ _ _ _ _ 0 g (tag 0 4) Hr Eg).
  - refine (eq_ind_r (fun x => In (tag 0 4) x) _ H1). cbn [In]. auto 10.
  - intros Hi. apply in_app_or in Hi as [Hi|Hi]; [|apply in_app_or in Hi as [Hi|Hi]; [|apply in_app_or in Hi as [Hi|Hi]]].
    + pose proof (eq_ind _ (fun x => In (tag 0 4) x) Hi _ H2) as Hi'. revert Hi'. vm_compute. intuition congruence.
    + pose proof (eq_ind _ (fun x => In (tag 0 4) x) Hi _ H3) as Hi'. revert Hi'. vm_compute. intuition congruence.
    + pose proof (eq_ind _ (fun x => In (tag 0 4) x) Hi _ H4) as Hi'. exact Hi'.
    + pose proof (eq_ind _ (fun x => In (tag 0 4) x) Hi _ H5) as Hi'. exact Hi'.
Qed.
Print Assumptions C183_wait_ends_refuted.

(** C183: after one escaped exception the thread that delivers the results is gone, and no wait returns as long as samples
    were outstanding. *)
Theorem C183_dead_thread : forall E ps picks wpicks escaped fuel ops (s : par E),
  par_reached E ps picks wpicks escaped fuel ops s -> alive s = false -> tasks s <> [] ->
  forall fuel' more fuel'' clk,
  snd (par_step E picks wpicks escaped fuel'' (par_run E picks wpicks escaped fuel' s more) (Ask clk None)) = ORunning.
Proof. exact dead_thread. Qed.
Print Assumptions C183_dead_thread.

Definition one_escapes (c : nat) : bool := Nat.eqb c 2.
Example C183_dead_example :
  match par_demo late nobody one_escapes [SetTarget [5%Q; 3%Q]; Schedule no_clock None] with
  | Ok s => Some (alive s, map t_id (tasks s), map (waiting (base s)) [0; 1]) | Err _ => None end
  = Some (false, [tag 1 0; tag 1 2], [[tag 0 0; tag 0 1; tag 0 4; tag 0 3]; [tag 1 1]]).
Proof. vm_compute. reflexivity. Qed.

(** C183 fails also with nothing arriving between copy and clear and workers that go on, if one exception escapes: samples
    without error stay outstanding for ever. *)
Theorem C183_escape_refuted : exists (E : env) ps picks wpicks escaped fuel ops (s : par E) t,
  workers_go_on picks /\ nothing_between wpicks /\ (forall c, escaped c = true <-> c = 2)
  /\ par_reached E ps picks wpicks escaped fuel ops s /\ In t (tasks s) /\ t_call t <> 2
  /\ forall fuel' more fuel'' clk,
     snd (par_step E picks wpicks escaped fuel'' (par_run E picks wpicks escaped fuel' s more) (Ask clk None)) = ORunning.
Proof.
  set (ops := [SetTarget [5%Q; 3%Q]; Schedule no_clock None]). set (r := par_demo late nobody one_escapes ops).
  destruct (par_start demo demo_ps) as [s0|e] eqn:E0; [|exfalso; revert E0; vm_compute; discriminate].
  set (s := par_run demo late nobody one_escapes 40 s0 ops).
  assert (Hr : par_reached demo demo_ps late nobody one_escapes 40 ops s) by (exists s0; auto).
  assert (Hs : r = Ok s) by (unfold r, par_demo; rewrite E0; reflexivity). clearbody s.
  assert (H : match r with Ok s => (map t_call (tasks s), alive s) | Err _ => ([], true) end = ([5; 7], false)) by (vm_compute; reflexivity).
  rewrite Hs in H. clear r Hs. destruct (tasks s) as [|t ts] eqn:Et; [discriminate|]. injection H as H1 _ H2.
  exists demo, demo_ps, late, nobody, one_escapes, 40, ops, s, t. split.
  { intros k. exists (k * 3). split; [lia|]. unfold late. rewrite Nat.mod_mul by lia. cbn. auto. }
  split; [intros k; reflexivity|]. split; [intros c; apply Nat.eqb_eq|]. split; [exact Hr|]. split; [rewrite Et; now left|].
  split; [rewrite H1; discriminate|]. apply (dead_thread _ _ _ _ _ _ _ _ Hr H2). rewrite Et. discriminate.
Qed.
Print Assumptions C183_escape_refuted.

(** C183, partial: if no exception escapes, no result arrives between copy and clear, and the workers go on, then a wait
    without timeout returns. Missing: results arriving in between, and calculations whose exception escapes. *)
Theorem C183_wait_ends_partial : forall E ps picks wpicks escaped fuel ops (s : par E) clk,
  nothing_escapes escaped -> nothing_between wpicks -> workers_go_on picks ->
  par_reached E ps picks wpicks escaped fuel ops s ->
  exists F, forall fuel', F <= fuel' -> exists s', par_step E picks wpicks escaped fuel' s (Ask clk None) = (s', OInt 0).
Proof. exact wait_ends. Qed.
Print Assumptions C183_wait_ends_partial.

Example C183_example : workers_go_on late /\ nothing_between nobody /\ nothing_escapes (fun _ => false)
  /\ exists s, par_reached demo demo_ps late nobody (fun _ => false) 40 [SetTarget [5%Q; 3%Q]; Schedule no_clock None] s /\ length (tasks s) = 1.
Proof.
  split; [|split; [intros k; reflexivity|split; [intros k; reflexivity|]]].
  - intros k. exists (k * 3). split; [lia|]. unfold late. rewrite Nat.mod_mul by lia. cbn. auto.
  - destruct (par_start demo demo_ps) as [s0|e] eqn:E0; [|exfalso; revert E0; vm_compute; discriminate].
    eexists. split; [exists s0; split; [exact E0|reflexivity]|].
    assert (Q : match par_start demo demo_ps with
                | Ok s0 => length (tasks (par_run demo late nobody (fun _ => false) 40 s0 [SetTarget [5%Q; 3%Q]; Schedule no_clock None]))
                | Err _ => 0 end = 1) by (vm_compute; reflexivity).
    rewrite E0 in Q. exact Q.
Qed.

(** C184: schedule_samples that returns has brought each level to max(previous, integer part of the target), keeping
    what was scheduled. *)
Theorem C184_schedule_to_target : forall E ps picks wpicks escaped fuel ops (s : par E) fuel' clk t s',
  par_reached E ps picks wpicks escaped fuel ops s -> length (s_targets (base s)) = length ps ->
  par_step E picks wpicks escaped fuel' s (Schedule clk t) = (s', ONone) ->
  s_targets (base s') = s_targets (base s)
  /\ forall l g q, par_level s l g -> nth_error (s_targets (base s)) l = Some q ->
     exists g' more, par_level s' l g' /\ g_sched g' = g_sched g ++ more
       /\ length (g_sched g') = Nat.max (length (g_sched g)) (Z.to_nat (Qfloor q)).
Proof. exact par_target. Qed.
Print Assumptions C184_schedule_to_target.

Example C184_example :
  match par_show (par_demo late nobody (fun _ => false)
     [SetTarget [5%Q; 3%Q]; Schedule no_clock None; SetTarget [(15 # 2)%Q; 1%Q]; Schedule no_clock (Some 0%Q)]) with
  | Ok (v, a, t) => Some (map (fun '(x, y, z, u, w) => length x) v)
  | Err _ => None end = Some [7; 3].
Proof. vm_compute. reflexivity. Qed.
