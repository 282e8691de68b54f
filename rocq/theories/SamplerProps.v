(** Properties of the sampler with the one-process pool and the file storage. *)
From Verif Require Import Base TagModel PoolModel PoolSpec PoolFacts HdfModel SamplerModel SamplerSpec SamplerFacts
  AskSpec AskFacts AddingProofs AddingFacts CrashModel CrashProofs CrashFacts SamplerDemo.
From Coq Require Import Qminmax.

(** C01: the scheduled identifiers of a level are the tags of 0, 1, ..., n-1 in that order. *)
Theorem C01_ids_counted : forall E ps fuel ops (s : sampler E) l,
  reached E ps fuel ops s -> l < length ps ->
  exists g n, level s l g /\ g_sched g = map (tag l) (seq 0 n).
Proof.
  intros E ps fuel ops s l H Hl. destruct (ids_counted E ps fuel ops s l H Hl) as (g & n & A & _ & B). eauto.
Qed.
Print Assumptions C01_ids_counted.

(** C01: an identifier stands at one place only, over all levels. *)
Theorem C01_ids_unique : forall E ps fuel ops (s : sampler E) l1 l2 g1 g2 i j id,
  reached E ps fuel ops s -> level s l1 g1 -> level s l2 g2 ->
  nth_error (g_sched g1) i = Some id -> nth_error (g_sched g2) j = Some id -> l1 = l2 /\ i = j.
Proof. exact ids_unique. Qed.
Print Assumptions C01_ids_unique.

(** C01: without renewals of failed samples no identifier is handed to a pool twice, across restarts. *)
Theorem C01_handed_once : forall E ps fuel ops (s : sampler E),
  reached E ps fuel ops s -> (forall o, In o ops -> o <> Renew) -> NoDup (s_handed s).
Proof. exact (fun E ps fuel ops s H => proj2 (reached_HInv E ps fuel ops s H)). Qed.
Print Assumptions C01_handed_once.

(** C01: what was handed to a pool is what the file records as scheduled. *)
Theorem C01_handed_scheduled : forall E ps fuel ops (s : sampler E) id,
  reached E ps fuel ops s -> (In id (s_handed s) <-> exists l g, level s l g /\ In id (g_sched g)).
Proof. exact handed_scheduled. Qed.
Print Assumptions C01_handed_scheduled.

Example C01_example : counts (demo_run
    [SetTarget [5%Q; 3%Q]; Schedule no_clock None; Restart; SetTarget [6%Q; 1%Q]; Schedule no_clock None])
  = Ok ([(6, 0, 0, 1); (3, 0, 0, 0)], 9).
Proof. vm_compute. reflexivity. Qed.

(** C03: schedule_samples brings each level to max(previous, integer part of the target), keeping
    what was scheduled. *)
Theorem C03_schedule_to_target : forall E ps fuel ops (s : sampler E) clk t,
  reached E ps (S fuel) ops s -> length (s_targets s) = length ps ->
  exists s', step E ps (S fuel) s (Schedule clk t) = (s', ONone)
    /\ s_targets s' = s_targets s
    /\ forall l g q, level s l g -> nth_error (s_targets s) l = Some q ->
       exists g' more, level s' l g' /\ g_sched g' = g_sched g ++ more
         /\ length (g_sched g') = Nat.max (length (g_sched g)) (Z.to_nat (Qfloor q)).
Proof. exact schedule_to_target. Qed.
Print Assumptions C03_schedule_to_target.

(** C03: a target vector of a wrong length is rejected before anything is scheduled. *)
Theorem C03_wrong_length_rejected : forall E ps fuel ops (s : sampler E) clk t,
  reached E ps (S fuel) ops s ->
  length (s_targets s) <> length ps -> length (s_targets s) <> 1 -> length ps <> 1 ->
  exists s', step E ps (S fuel) s (Schedule clk t) = (s', OErr ValueError)
    /\ s_handed s' = s_handed s
    /\ forall l g, level s l g -> exists g', level s' l g' /\ g_sched g' = g_sched g.
Proof. exact schedule_wrong_length. Qed.
Print Assumptions C03_wrong_length_rejected.

(** C03: set_level_target_n_samples only raises targets. *)
Theorem C03_targets_only_rise : forall E ps fuel ops (s : sampler E) v,
  reached E ps fuel ops s ->
  let s' := fst (step E ps fuel s (SetTarget v)) in
  snd (step E ps fuel s (SetTarget v)) = (if Nat.leb (length v) (length (s_targets s)) then ONone else OErr IndexError)
  /\ length (s_targets s') = length (s_targets s)
  /\ (forall l q, nth_error (s_targets s) l = Some q -> exists q', nth_error (s_targets s') l = Some q' /\ (q <= q')%Q
       /\ forall n, nth_error v l = Some n -> s_tint s = false -> (q' == Qmax q n)%Q)
  /\ s_file s' = s_file s /\ s_pool s' = s_pool s /\ s_handed s' = s_handed s.
Proof. exact targets_rise. Qed.
Print Assumptions C03_targets_only_rise.

Example C03_example : counts (demo_run [SetTarget [2%Q; 3%Q]; Schedule no_clock None; SetTarget [(9 # 2)%Q; 1%Q]; Schedule no_clock None])
  = Ok ([(4, 2, 0, 2); (3, 1, 2, 0)], 7).
Proof. vm_compute. reflexivity. Qed.

(** C04: scheduled = collected + failed + not yet polled, without repetition. *)
Theorem C04_conservation : forall E ps fuel ops (s : sampler E) l g,
  reached E ps fuel ops s -> (forall o, In o ops -> o <> Restart) -> level s l g ->
  Permutation (g_sched g) (g_cids g ++ map fst (g_failed g) ++ waiting s l) /\ NoDup (g_sched g).
Proof. exact conservation. Qed.
Print Assumptions C04_conservation.

(** C04: with restarts the only other samples are those lost with an earlier pool. *)
Theorem C04_conservation_restarts : forall E ps fuel ops (s : sampler E),
  reached E ps fuel ops s ->
  exists lost : nat -> list pystr, forall l g, level s l g ->
  Permutation (g_sched g) (g_cids g ++ map fst (g_failed g) ++ waiting s l ++ lost l) /\ NoDup (g_sched g).
Proof. exact conservation_lost. Qed.
Print Assumptions C04_conservation_restarts.

(** C04: after ask without timeout everything scheduled has an outcome in the file. *)
Theorem C04_ask_collects_all : forall E ps fuel ops (s : sampler E) clk,
  reached E ps (S fuel) ops s ->
  exists s', step E ps (S fuel) s (Ask clk None) = (s', OInt 0)
    /\ (forall l, waiting s' l = [])
    /\ (forall l g, level s l g -> exists g', level s' l g' /\ g_sched g' = g_sched g)
    /\ ((forall o, In o ops -> o <> Restart) ->
        (forall l g', level s' l g' -> Permutation (g_sched g') (g_cids g' ++ map fst (g_failed g')))
        /\ n_finished (s_obj s') (s_file s') = Ok (s_nsched s')).
Proof. exact ask_all. Qed.
Print Assumptions C04_ask_collects_all.

Example C04_example : counts (demo_run [SetTarget [5%Q; 3%Q]; Schedule no_clock None; Ask no_clock None;
    SetTarget [7%Q; 3%Q]; Schedule no_clock None]) = Ok ([(7, 3, 2, 2); (3, 1, 2, 0)], 10).
Proof. vm_compute. reflexivity. Qed.

(** C05: the stored records are the simulation of the level at the seeds of the identifiers. *)
Theorem C05_records_expected : forall E ps fuel ops (s : sampler E) l g n,
  deterministic E -> reached E ps fuel ops s -> (forall o, In o ops -> o <> Restart) ->
  level s l g -> nth_error (s_nsched s) l = Some n -> waiting s l = [] ->
  records g = expected_records E ps (calculate E 0) l n /\ n_records g = length (g_cids g).
Proof. exact records_expected. Qed.
Print Assumptions C05_records_expected.

(** C05: equal numbers of scheduled samples give equal stored data. *)
Theorem C05_history_independent : forall E ps fuel1 fuel2 ops1 ops2 (s1 s2 : sampler E) l g1 g2,
  deterministic E -> reached E ps fuel1 ops1 s1 -> reached E ps fuel2 ops2 s2 ->
  (forall o, In o ops1 \/ In o ops2 -> o <> Restart) ->
  level s1 l g1 -> level s2 l g2 -> length (g_sched g1) = length (g_sched g2) ->
  waiting s1 l = [] -> waiting s2 l = [] ->
  records g1 = records g2.
Proof.
  intros E ps f1 f2 o1 o2 s1 s2 l g1 g2 D R1 R2 Hno L1 L2 Hlen W1 W2.
  destruct (reached_BInv _ _ _ _ _ R1) as (gs1 & lost1 & I1 & _).
  destruct (reached_BInv _ _ _ _ _ R2) as (gs2 & lost2 & I2 & _).
  destruct (records_expected E ps f1 o1 s1 l g1 _ D R1 (fun o H => Hno o (or_introl H)) L1
              (level_nsched _ _ _ _ _ _ _ I1 L1) W1) as [-> _].
  destruct (records_expected E ps f2 o2 s2 l g2 _ D R2 (fun o H => Hno o (or_intror H)) L2
              (level_nsched _ _ _ _ _ _ _ I2 L2) W2) as [-> _].
  now rewrite Hlen.
Qed.
Print Assumptions C05_history_independent.

(** C05: also for an irreproducible simulation and with restarts, a stored record is an accepted
    answer of its level's simulation at the seed of its identifier. *)
Theorem C05_record_is_answer : forall E ps fuel ops (s : sampler E) l g id f c,
  reached E ps fuel ops s -> level s l g -> In (id, (f, c)) (records g) ->
  exists cfg k, level_config E ps l = Some cfg /\ calculate E k cfg (seed_of E id) = Returned f c
             /\ acceptable E f c = true.
Proof. exact record_is_answer. Qed.
Print Assumptions C05_record_is_answer.

Definition demo_records (ops : list op) : list (list (pystr * (arr Z * arr Z))) :=
  match demo_run ops with
  | Ok s => map (fun x => match x with GFull g => records (E := demo) g | _ => [] end) (f_groups (s_file s))
  | Err _ => []
  end.
Example C05_example :
  demo_records [SetTarget [5%Q; 3%Q]; Schedule no_clock None; Ask no_clock None]
  = demo_records [SetTarget [2%Q; 0%Q]; Schedule no_clock None; Ask no_clock None; Ask no_clock None;
                  SetTarget [4%Q; 3%Q]; Schedule no_clock (Some 0%Q); SetTarget [5%Q; 3%Q]; Schedule no_clock (Some 1%Q);
                  Ask no_clock None]
  /\ map (@length _) (demo_records [SetTarget [5%Q; 3%Q]; Schedule no_clock None; Ask no_clock None]) = [3; 1].
Proof. vm_compute. auto. Qed.

(** C06: over all answers of get_finished together with what still waits, the successes and the
    failures of a level are those of the handed samples, each once and in order. *)
Theorem C06_reported_in_order : forall E ops p rs l, pool_run E ops = (p, rs) ->
  reported_ok E l rs ++ dlist (queues p) l = successes E l 0 (hands E ops)
  /\ reported_failed E l rs ++ map fst (dlist (failed_queues p) l) = failures E l 0 (hands E ops).
Proof. exact pool_reports. Qed.
Print Assumptions C06_reported_in_order.

(** C06: after a final poll everything has been reported. *)
Theorem C06_all_reported : forall E ops p rs l, pool_run E (ops ++ [Poll]) = (p, rs) ->
  reported_ok E l rs = successes E l 0 (hands E ops) /\ reported_failed E l rs = failures E l 0 (hands E ops).
Proof. exact pool_reports_all. Qed.
Print Assumptions C06_all_reported.

(** C06: success and failure exclude each other and together cover the samples of the level. *)
Theorem C06_success_or_failure : forall E l xs k,
  Permutation (map fst (successes E l k xs) ++ failures E l k xs)
    (map fst (filter (fun x => Nat.eqb (ls_level (snd x)) l) xs)).
Proof. exact outcomes_partition. Qed.
Print Assumptions C06_success_or_failure.

(** C06: the number of running samples is scheduled minus reported, and zero for this pool. *)
Theorem C06_running : forall E ops p rs a, pool_run E (ops ++ [Poll]) = (p, rs ++ [a]) ->
  fin_running a = (Z.of_nat (length (hands E ops)) - Z.of_nat (n_reported E (rs ++ [a])))%Z
  /\ fin_running a = 0%Z.
Proof. exact pool_running. Qed.
Print Assumptions C06_running.

Definition demo_sim (f c l : nat) : level_sim demo := @mkLS demo (f, c) l.
Definition demo_hands : list (pool_op demo) :=
  [Submit (str "a") (demo_sim 10 0 0); Submit (str "b") (demo_sim 20 10 1); Poll; Submit (str "c") (demo_sim 10 0 0);
   Submit (str "d") (demo_sim 20 10 1); Submit (str "f") (demo_sim 10 0 0)].
Example C06_example :
  map fst (reported_ok demo 0 (snd (pool_run demo (demo_hands ++ [Poll])))) = [str "c"; str "f"]
  /\ reported_failed demo 0 (snd (pool_run demo (demo_hands ++ [Poll]))) = [str "a"]
  /\ map fst (reported_ok demo 1 (snd (pool_run demo (demo_hands ++ [Poll])))) = [str "b"]
  /\ reported_failed demo 1 (snd (pool_run demo (demo_hands ++ [Poll]))) = [str "d"].
Proof. vm_compute. auto. Qed.

(** C09: non-positive timeout. *)
Theorem C09_nonpositive_timeout : forall P St A (getf : P -> P * (A * Z)) (store : A -> St -> St * res unit)
    elapsed t fuel w, (t <= 0)%Q ->
  ask (poll_with getf store) elapsed (Some t) fuel w = (w, Some (Ok 1%Z)).
Proof. exact @ask_nonpositive. Qed.
Print Assumptions C09_nonpositive_timeout.

(** C09: no timeout. The call made k polls; exactly their batches were stored, each once and in
    order; it returned because the last of them reported no running sample. *)
Theorem C09_no_timeout : forall P St A (getf : P -> P * (A * Z)) (store : A -> St -> St * res unit)
    elapsed fuel p st w r,
  ask (poll_with getf store) elapsed None fuel (p, st) = (w, r) ->
  exists k, fst w = polled_pool getf k p /\ snd w = store_all store (map fst (batches getf k p)) st
  /\ match r with
     | Some (Ok n) => (n <= 0)%Z /\ (exists a, nth_error (batches getf k p) (k - 1) = Some (a, n))
         /\ k = length (batches getf k p)
         /\ (forall j a m, S j < k -> nth_error (batches getf k p) j = Some (a, m) -> (0 < m)%Z)
         /\ accepted store (map fst (batches getf k p)) st
     | Some (Err e) => 0 < k /\ ~ accepted store (map fst (batches getf k p)) st
     | None => k = fuel /\ (forall j a m, nth_error (batches getf k p) j = Some (a, m) -> (0 < m)%Z)
     end.
Proof. exact @ask_no_timeout. Qed.
Print Assumptions C09_no_timeout.

(** C09: positive timeout. At least one poll; the last reported number is returned. *)
Theorem C09_timeout : forall P St A (getf : P -> P * (A * Z)) (store : A -> St -> St * res unit)
    elapsed t fuel p st w r, (0 < t)%Q ->
  ask (poll_with getf store) elapsed (Some t) fuel (p, st) = (w, r) ->
  exists k, fst w = polled_pool getf k p /\ snd w = store_all store (map fst (batches getf k p)) st
  /\ match r with
     | Some (Ok n) => 0 < k /\ (exists a, nth_error (batches getf k p) (k - 1) = Some (a, n))
         /\ ((n <= 0)%Z \/ (t < elapsed (k - 1)%nat)%Q)
         /\ (forall j a m, S j < k -> nth_error (batches getf k p) j = Some (a, m) -> (0 < m)%Z /\ (elapsed j <= t)%Q)
         /\ accepted store (map fst (batches getf k p)) st
     | Some (Err e) => 0 < k /\ ~ accepted store (map fst (batches getf k p)) st
     | None => k = fuel
     end.
Proof. exact @ask_timeout. Qed.
Print Assumptions C09_timeout.

(** C09: once the pool reports no running sample the call has ended. *)
Theorem C09_ends : forall P St A (getf : P -> P * (A * Z)) (store : A -> St -> St * res unit)
    elapsed timeout p st k fuel a n,
  nth_error (batches getf (S k) p) k = Some (a, n) -> (n <= 0)%Z -> k < fuel ->
  snd (ask (poll_with getf store) elapsed timeout fuel (p, st)) <> None.
Proof. exact @ask_ends. Qed.
Print Assumptions C09_ends.

(** C09: the sampler's call is this loop on its own pool and file. *)
Theorem C09_sampler_instance : forall E (s : sampler E) clk t fuel,
  let (w', r) := ask (poll_with sampler_getf (sampler_store s)) clk t fuel (s_pool s, s_file s) in
  ask_pool E clk t fuel s = (set_pool E (set_file E s (snd w')) (fst w'), r).
Proof. exact @ask_pool_is. Qed.
Print Assumptions C09_sampler_instance.

(** A pool with three samples finishing one per poll. *)
Definition demo_getf (n : nat) : nat * (list nat * Z) :=
  match n with 0 => (0, ([], 0%Z)) | S k => (k, ([n], Z.of_nat k)) end.
Definition demo_store (b l : list nat) : list nat * res unit := (l ++ b, Ok tt).
Example C09_example :
  ask (poll_with demo_getf demo_store) (fun i => inject_Z (Z.of_nat i)) None 9 (3, []) = ((0, [3; 2; 1]), Some (Ok 0%Z))
  /\ ask (poll_with demo_getf demo_store) (fun i => inject_Z (Z.of_nat i)) (Some (1 # 2)%Q) 9 (3, []) = ((1, [3; 2]), Some (Ok 1%Z))
  /\ ask (poll_with demo_getf demo_store) (fun i => inject_Z (Z.of_nat i)) (Some 0%Q) 9 (3, []) = ((3, []), Some (Ok 1%Z)).
Proof. vm_compute. auto. Qed.

(** C10: what one planning step asks for. *)
Theorem C10_plan_bounds : forall c est n, (0 < c <= 1)%Q ->
  exists m : Z, planned c est n = inject_Z m
    /\ (Z.of_nat n <= m)%Z /\ (m <= Z.max (Z.of_nat n) (Qceiling est))%Z
    /\ ((nat_Q n < est)%Q -> (Z.of_nat n + 1 <= m)%Z).
Proof.
  intros c est n Hc. exists (plan_Z c est n). split; [reflexivity|].
  split; [apply plan_ge, Qlt_le_weak, Hc|]. split; [apply plan_le, Hc|].
  intros H. pose proof (plan_gt c est n (proj1 Hc) H). lia.
Qed.
Print Assumptions C10_plan_bounds.

(** C10: one call never lowers a target, never schedules beyond the estimate and the target, and
    schedules at least one sample on every level below its estimate. *)
Theorem C10_adding_grows : forall E ps f0 ops (s : sampler E) clk t fuel c est,
  reached E ps f0 ops s -> positive t ->
  length (s_targets s) = length ps -> length est = length ps -> (0 < c <= 1)%Q ->
  let s' := fst (step E ps (S fuel) s (Adding clk t c est)) in
  length (s_targets s') = length ps
  /\ (forall l q, nth_error (s_targets s) l = Some q -> exists q', nth_error (s_targets s') l = Some q' /\ (q <= q')%Q)
  /\ forall l g e x, level s l g -> nth_error est l = Some e -> nth_error (s_targets s) l = Some x ->
     exists g', level s' l g'
       /\ length (g_sched g) <= length (g_sched g')
       /\ length (g_sched g') <= Nat.max (length (g_sched g)) (Nat.max (Z.to_nat (Qfloor x)) (Z.to_nat (Qceiling e)))
       /\ ((nat_Q (length (g_sched g)) < e)%Q -> length (g_sched g) < length (g_sched g')).
Proof. exact adding_grows. Qed.
Print Assumptions C10_adding_grows.

(** C10: with a fixed estimate, after as many calls as the largest estimate every level has reached
    its estimate and the next call returns True. *)
Theorem C10_adding_converges : forall E ps clk t c est fuel k ops (s : sampler E),
  positive t -> length est = length ps -> (0 < c <= 1)%Q ->
  reached E ps (S fuel) ops s -> length (s_targets s) = length ps ->
  (forall e, In e est -> (Qceiling e <= Z.of_nat k)%Z) ->
  let s' := run E ps (S fuel) s (repeat (Adding clk t c est) k) in
  snd (step E ps (S fuel) s' (Adding clk t c est)) = OBool true
  /\ forall l g e, level s' l g -> nth_error est l = Some e -> (e <= nat_Q (length (g_sched g)))%Q.
Proof. exact adding_done. Qed.
Print Assumptions C10_adding_converges.

(** C10: the call returns True exactly when no level stays below its estimate after planning
    (here for histories without a restart, where it always returns). *)
Theorem C10_adding_returns : forall E ps f0 ops (s : sampler E) clk t fuel c est,
  reached E ps f0 ops s -> positive t ->
  length (s_targets s) = length ps -> length est = length ps -> (0 < c)%Q ->
  (forall o, In o ops -> o <> Restart) ->
  exists s' b, step E ps (S fuel) s (Adding clk t c est) = (s', OBool b)
    /\ (b = true <-> forall l e g, nth_error est l = Some e -> level s l g ->
                       (e <= planned c e (length (g_sched g)))%Q).
Proof. exact adding_returns. Qed.
Print Assumptions C10_adding_returns.

Example C10_example :
  map (fun k => match demo_run (repeat (Adding no_clock2 None (1 # 4) [(9 # 2)%Q; 3%Q]) k) with
                | Ok s => (s_nsched s, snd (step demo demo_ps 3 s (Adding no_clock2 None (1 # 4) [(9 # 2)%Q; 3%Q])))
                | Err e => ([], OErr e) end) [0; 1; 2; 3; 4]
  = [([0; 0], OBool false); ([2; 1], OBool false); ([3; 2], OBool false); ([4; 3], OBool true); ([5; 3], OBool true)].
Proof. vm_compute. reflexivity. Qed.

(** C11: exactly when the call does not return. [missing s l g] samples of the level were lost with
    an earlier pool. *)
Theorem C11_returns_iff_partial : forall E ps f0 ops (s : sampler E) clk t fuel c est,
  reached E ps f0 ops s -> positive t ->
  length (s_targets s) = length ps -> length est = length ps ->
  let s' := fst (step E ps (S fuel) s (Adding clk t c est)) in
  snd (step E ps (S fuel) s (Adding clk t c est)) = ORunning
  <-> exists l e g g', nth_error est l = Some e /\ level s l g /\ level s' l g'
       /\ (planned c e (length (g_sched g)) < e)%Q
       /\ (nat_Q (length (g_sched g') - missing s l g) < (1 # 2) * planned c e (length (g_sched g)))%Q.
Proof.
  intros E ps f0 ops s clk t fuel c est Hr Ht H1 H2.
  destruct (adding_step E ps f0 ops s clk t fuel c est Hr Ht H1 H2) as (s' & r & E1 & _ & _ & Hc).
  cbv zeta. rewrite E1. cbn [fst snd]. destruct Hc as [[-> K]|(b & -> & _ & K)]; [tauto|].
  split; [discriminate|]. intros (l & e & g & g' & A & B & C & D & F).
  specialize (K l e g g' A B C D). exfalso. apply (Qlt_not_le _ _ F K).
Qed.
Print Assumptions C11_returns_iff_partial.

(** C11 is false: after a restart that lost ten samples the call polls for ever. *)
Theorem C11_wait_refuted : exists E ps ops (s : sampler E) c est,
  reached E ps 3 ops s /\ length (s_targets s) = length ps /\ length est = length ps /\ (0 < c <= 1)%Q
  /\ forall clk t fuel, positive t -> snd (step E ps (S fuel) s (Adding clk t c est)) = ORunning.
Proof.
  exists demo, demo_ps, [SetTarget [10%Q; 3%Q]; Schedule no_clock None; Restart].
  destruct (@demo_observed _ [SetTarget [10%Q; 3%Q]; Schedule no_clock None; Restart]
     (fun s => (s_targets s, match nth_error (f_groups (s_file s)) 0 with
                             | Some (GFull g) => Some (length (g_sched g), missing s 0 g) | _ => None end))
     ([0%Q; 0%Q], Some (10, 10))) as (s & Hr & Ho); [vm_compute; reflexivity|].
  exists s, (1 # 10)%Q, [20%Q; 3%Q].
  assert (Ht : s_targets s = [0%Q; 0%Q] /\ exists g, level s 0 g /\ length (g_sched g) = 10 /\ missing s 0 g = 10).
  { assert (Ho1 := f_equal fst Ho). assert (Ho2 := f_equal snd Ho). cbv beta iota delta [fst snd] in Ho1, Ho2.
    split; [exact Ho1|]. unfold level. clear - Ho2.
    destruct (nth_error (f_groups (s_file s)) 0) as [x|]; [destruct x as [|g]|]; try discriminate.
    assert (Ha := f_equal (option_map fst) Ho2). assert (Hb := f_equal (option_map snd) Ho2). cbv beta iota delta [option_map fst snd] in Ha, Hb.
    exists g. split; [reflexivity|]. split; congruence. }
  destruct Ht as [Ht (g & Hg & Hlen & Hmis)].
  assert (H1 : length (s_targets s) = length demo_ps) by now rewrite Ht.
  split; [exact Hr|]. split; [exact H1|]. split; [reflexivity|]. split; [split; [reflexivity|discriminate]|].
  intros clk t fuel Hpos.
  destruct (adding_step demo demo_ps 3 _ s clk t fuel (1 # 10)%Q [20%Q; 3%Q] Hr Hpos H1 eq_refl)
    as (s' & r & E1 & _ & Hn & Hc). rewrite E1. cbn [snd].
  destruct Hc as [[-> _]|(b & -> & _ & K)]; [reflexivity|]. exfalso.
  destruct (Hn 0 g 20%Q 0%Q Hg eq_refl) as (g' & Hg' & Hlen'); [now rewrite Ht|].
  specialize (K 0 20%Q g g' eq_refl Hg Hg'). rewrite Hmis, Hlen' in K. rewrite !Hlen in K.
  assert (A : (planned (1 # 10) 20 10 < 20)%Q) by reflexivity.
  specialize (K A). vm_compute in K. apply K. reflexivity.
Qed.
Print Assumptions C11_wait_refuted.

Example C11_example : match demo_run [SetTarget [4%Q; 3%Q]; Schedule no_clock None; Restart] with
  | Ok s => snd (step demo demo_ps 5 s (Adding no_clock2 None (1 # 2) [12%Q; 3%Q]))
  | Err e => OErr e end = OBool false.
Proof. vm_compute. reflexivity. Qed.

(** C14: renewing hands out exactly the failed identifiers, keeps everything collected and forgets
    the failures. *)
Theorem C14_renew : forall E ps fuel ops (s : sampler E), reached E ps fuel ops s ->
  exists s', step E ps fuel s Renew = (s', ONone)
    /\ s_handed s' = s_handed s
         ++ flat_map (fun l => match nth_error (f_groups (s_file s)) l with
                               | Some (GFull g) => map fst (g_failed g) | _ => [] end) (seq 0 (length ps))
    /\ s_nsched s' = s_nsched s
    /\ (forall l g, level s l g -> level s' l (mkLG (g_sched g) (g_cids g) (g_cvals g) [] (g_nops g)))
    /\ (forall l g, level s l g -> Permutation (waiting s' l) (waiting s l ++ map fst (g_failed g))).
Proof. exact renew_step. Qed.
Print Assumptions C14_renew.

(** C14: no identifier has two outcomes, after any number of renewals and restarts. *)
Theorem C14_one_outcome : forall E ps fuel ops (s : sampler E) l g,
  reached E ps fuel ops s -> level s l g ->
  NoDup (g_cids g ++ map fst (g_failed g) ++ waiting s l)
  /\ incl (g_cids g ++ map fst (g_failed g) ++ waiting s l) (g_sched g).
Proof.
  intros E ps fuel ops s l g Hr Hg. destruct (conservation_lost E ps fuel ops s Hr) as (lost & H).
  destruct (H l g Hg) as [HP HN].
  assert (HP' : Permutation (g_sched g) ((g_cids g ++ map fst (g_failed g) ++ waiting s l) ++ lost l))
    by (rewrite <- !app_assoc; exact HP).
  split.
  - apply (Permutation_NoDup HP') in HN. now apply BaseFacts.NoDup_app_iff in HN as (A & _ & _).
  - intros x Hx. apply (Permutation_in _ (Permutation_sym HP')). apply in_or_app. now left.
Qed.
Print Assumptions C14_one_outcome.

(** C14: with a deterministic simulation the same samples fail again. *)
Theorem C14_same_failures : forall E ps fuel ops (s : sampler E) clk,
  deterministic E -> reached E ps (S fuel) ops s ->
  (forall o, In o ops -> o <> Restart) -> (forall l, waiting s l = []) ->
  exists s1 s2, step E ps (S fuel) s Renew = (s1, ONone)
    /\ step E ps (S fuel) s1 (Ask clk None) = (s2, OInt 0)
    /\ forall l g, level s l g -> exists g2, level s2 l g2 /\ g_sched g2 = g_sched g
         /\ records g2 = records g
         /\ Permutation (map fst (g_failed g2)) (map fst (g_failed g)).
Proof. exact renew_same_failures. Qed.
Print Assumptions C14_same_failures.

Example C14_example :
  counts (demo_run [SetTarget [5%Q; 3%Q]; Schedule no_clock None; Ask no_clock None; Renew]) = Ok ([(5, 3, 0, 2); (3, 1, 0, 2)], 12)
  /\ counts (demo_run [SetTarget [5%Q; 3%Q]; Schedule no_clock None; Ask no_clock None; Renew; Ask no_clock None])
     = Ok ([(5, 3, 2, 0); (3, 1, 2, 0)], 12).
Proof. vm_compute. auto. Qed.

(** C15: a new storage object and a new Sampler on the file of any campaign. *)
Theorem C15_restart_keeps : forall E ps fuel ops (s : sampler E), reached E ps fuel ops s ->
  exists s', step E ps fuel s Restart = (s', ONone)
    /\ s_file s' = s_file s /\ s_nsched s' = s_nsched s
    /\ load_scheduled (s_obj s') (s_file s') = load_scheduled (s_obj s) (s_file s)
    /\ n_finished (s_obj s') (s_file s') = n_finished (s_obj s) (s_file s)
    /\ unfinished_ids (s_obj s') (s_file s') = unfinished_ids (s_obj s) (s_file s)
    /\ failed_samples (s_obj s') (s_file s') = failed_samples (s_obj s) (s_file s)
    /\ get_n_ops (s_obj s') (s_file s') = get_n_ops (s_obj s) (s_file s).
Proof. exact restart_step. Qed.
Print Assumptions C15_restart_keeps.

Example C15_example : match demo_run [SetTarget [5%Q; 3%Q]; Schedule no_clock None; Ask no_clock None; Restart] with
  | Ok s => (n_finished (s_obj s) (s_file s), s_nsched s)
  | Err e => (Err e, []) end = (Ok [5; 3], [5; 3]).
Proof. vm_compute. reflexivity. Qed.

(** C18: a crash inside schedule_samples after any number of its effects, then a restart and any
    operations but renewals. An identifier the file knows is not handed out again, and those handed
    out twice belong to the one level that was being scheduled. *)
Theorem C18_crash_partial : forall E ps f0 ops0 (s : sampler E) clk t fuel k plan,
  reached E ps f0 ops0 s -> plan_samples E s = Ok plan ->
  exists s3, crash_schedule E ps clk t fuel k s = (s3, ONone)
  /\ (forall j g, level s j g -> exists g' more, level s3 j g' /\ g_sched g' = g_sched g ++ more)
  /\ exists l, forall f ops, (forall o, In o ops -> o <> Renew) ->
     exists new, s_handed (run E ps f s3 ops) = s_handed s3 ++ new /\ NoDup new
       /\ forall id, In id new ->
            (forall j g, level s3 j g -> ~ In id (g_sched g))
            /\ (In id (s_handed s3) -> exists n, id = tag l n).
Proof. exact crash_then_run. Qed.
Print Assumptions C18_crash_partial.

(** The unrolled effects used for the crash points are the scheduling loops. *)
Theorem C18_effects_are_the_loops : forall E plan level (s : sampler E),
  let r := do_acts E (acts level plan) (s, []) in
  schedule_levels E level plan s = (fst (fst r), snd r).
Proof. exact acts_are_loops. Qed.
Print Assumptions C18_effects_are_the_loops.

(** C18 is false: identifiers handed out but not recorded yet are handed out again. *)
Theorem C18_crash_refuted : exists E ps ops (s s3 : sampler E) k id,
  reached E ps 3 ops s /\ crash_schedule E ps no_clock None 3 k s = (s3, ONone)
  /\ In id (s_handed s3)
  /\ count_occ pystr_eq_dec (s_handed (run E ps 3 s3 [SetTarget [2%Q; 3%Q]; Schedule no_clock None])) id = 2.
Proof.
  exists demo, demo_ps, [SetTarget [2%Q; 3%Q]].
  destruct (@demo_observed _ [SetTarget [2%Q; 3%Q]]
     (fun s => let r := crash_schedule demo demo_ps no_clock None 3 4 s in
        (match snd r with ONone => true | _ => false end,
         count_occ pystr_eq_dec (s_handed (fst r)) (tag 1 0),
         count_occ pystr_eq_dec (s_handed (run demo demo_ps 3 (fst r) [SetTarget [2%Q; 3%Q]; Schedule no_clock None])) (tag 1 0)))
     (true, 1, 2)) as (s & Hr & Ho); [vm_compute; reflexivity|].
  cbv zeta in Ho. destruct (crash_schedule demo demo_ps no_clock None 3 4 s) as [s3 r] eqn:Ec. cbn [fst snd] in Ho.
  exists s, s3, 4, (tag 1 0). injection Ho as H1 H2 H3. split; [exact Hr|]. split; [|split].
  - rewrite Ec. f_equal. destruct r; congruence.
  - apply (count_occ_In pystr_eq_dec). rewrite H2. auto.
  - exact H3.
Qed.
Print Assumptions C18_crash_refuted.
