(** The Sampler with the one-process pool and the file storage.
    Models mlmc/sampler.py; pool and storage as in PoolModel.v and HdfModel.v. *)
From Verif Require Import Base TagModel PoolModel HdfModel.

(** sampler.py:160-182 [ask_sampling_pool_for_samples], for any world [W] and any poll
    (get_finished followed by _store_samples). [elapsed i] is perf_counter() - t0 read in the
    i-th pass. None: the loop was still running when the fuel ran out. sleep is not modelled. *)
Fixpoint ask_loop {W} (poll : W -> W * res Z) (elapsed : nat -> Q) (timeout : Q)
    (fuel i : nat) (w : W) : W * option (res Z) :=
  match fuel with
  | 0 => (w, None)
  | S fuel' =>
      match poll w with
      | (w', Err e) => (w', Some (Err e))
      | (w', Ok n) =>
          if (negb (Qle_bool timeout 0) && negb (Qle_bool (elapsed i) timeout))%bool
          then (w', Some (Ok n))
          else if (0 <? n)%Z then ask_loop poll elapsed timeout fuel' (S i) w'
          else (w', Some (Ok n))
      end
  end.

Definition ask {W} (poll : W -> W * res Z) (elapsed : nat -> Q) (timeout : option Q)
    (fuel : nat) (w : W) : W * option (res Z) :=
  match timeout with
  | None => ask_loop poll elapsed 0 fuel 0 w
  | Some t => if Qle_bool t 0 then (w, Some (Ok 1%Z)) else ask_loop poll elapsed t fuel 0 w
  end.

(** Result of a public call: a value, an exception, or still running (fuel exhausted). *)
Inductive out :=
| ONone
| OInt (n : Z)
| OBool (b : bool)
| OErr (e : exn)
| ORunning.

(** An integer or a floating point array argument. *)
Inductive nums := Ints (l : list Z) | Floats (l : list Q).

Section Sampler.
Context (E : env).
Notation pairv := (arr (value E) * arr (value E))%type.

Record sampler := mkS {
  s_obj : hobj;                        (* sample_storage object *)
  s_file : hfile pairv;                (* and its file *)
  s_pool : pool E;
  s_sims : list (level_sim E);         (* _level_sim_objects *)
  s_targets : list Q;                  (* _n_target_samples *)
  s_tint : bool;                       (* is _n_target_samples an integer array *)
  s_nsched : list nat;                 (* _n_scheduled_samples *)
  s_handed : list pystr }.             (* history: ids handed to any pool so far, oldest first *)

Definition set_file (s : sampler) (f : hfile pairv) : sampler :=
  mkS (s_obj s) f (s_pool s) (s_sims s) (s_targets s) (s_tint s) (s_nsched s) (s_handed s).
Definition set_pool (s : sampler) (p : pool E) : sampler :=
  mkS (s_obj s) (s_file s) p (s_sims s) (s_targets s) (s_tint s) (s_nsched s) (s_handed s).
Definition set_targets (s : sampler) (t : list Q) (b : bool) : sampler :=
  mkS (s_obj s) (s_file s) (s_pool s) (s_sims s) t b (s_nsched s) (s_handed s).

(** sampler.py:62-80 [_create_level_sim_objects]. *)
Fixpoint level_sims (prev : param E) (i : nat) (ps : list (param E)) : list (level_sim E) :=
  match ps with
  | [] => []
  | p :: ps' => mkLS (level_instance E p prev) i :: level_sims p (S i) ps'
  end.
Definition create_level_sims (ps : list (param E)) : list (level_sim E) := level_sims (zero_param E) 0 ps.

(** sampler.py:16-45 [__init__] on a given storage object, file and a new one-process pool, whose
    have_permanent_samples (sampling_pool.py:269-270) ignores the unfinished ids. [handed] is the
    history carried over from earlier samplers and [calls] their number of calculations. *)
Definition sampler_init (o : hobj) (f : hfile pairv) (ps : list (param E)) (calls : nat) (handed : list pystr)
  : res sampler :=
  match save_global_data (length ps) (o, f) with
  | (_, Err e) => Err e
  | ((o1, f1), Ok _) =>
      bind (load_scheduled o1 f1) (fun d =>
      let n0 := map (fun x => length (snd x)) d in
      let n := match n0 with [] => repeat 0 (length ps) | _ => n0 end in
      bind (unfinished_ids o1 f1) (fun _ =>
      Ok (mkS o1 f1 (new_pool calls) (create_level_sims ps) (repeat 0%Q (length ps)) false n handed)))
  end.

(** sampler.py:82-90 [sample_range]. *)
Definition sample_range (n0 nL : Q) (levels : nat) : list Z :=
  map (range_item E n0 nL levels) (seq 0 levels).

(** sampler.py:92-112 [set_initial_n_samples]; [None] is no argument. *)
Definition nums_Q (v : nums) : bool * list Q :=
  match v with Ints l => (true, map inject_Z l) | Floats l => (false, l) end.
Definition set_initial (s : sampler) (v : option nums) : sampler :=
  let (isint, v0) := match v with None => (true, [100%Q; 10%Q]) | Some x => nums_Q x end in
  let v1 := match v0 with [n] => [n; 10%Q] | l => l end in
  match v1 with
  | [n0; nL] => set_targets s (map inject_Z (sample_range n0 nL (length (s_sims s)))) true
  | l => set_targets s l isint
  end.

(** sampler.py:254-261 [set_level_target_n_samples]; storing into an integer array truncates. *)
Fixpoint raise_targets (isint : bool) (t v : list Q) : list Q * res unit :=
  match v, t with
  | [], _ => (t, Ok tt)
  | _ :: _, [] => ([], Err IndexError)
  | n :: v', x :: t' =>
      let m := if Qle_bool n x then x else n in      (* max(x, n) *)
      let m' := if isint then inject_Z (Qtrunc m) else m in
      let (t2, r) := raise_targets isint t' v' in (m' :: t2, r)
  end.
Definition set_level_target (v : list Q) : st sampler unit := fun s =>
  let (t, r) := raise_targets (s_tint s) (s_targets s) v in (set_targets s t (s_tint s), r).

(** sampler.py:184-193 [_store_samples] of one get_finished answer; result: number of running samples. *)
Definition poll_store : st sampler Z := fun s =>
  let (p, fin) := get_finished (s_pool s) in
  let s1 := set_pool s p in
  match save_samples (s_obj s) (fin_ok fin) (fin_failed fin) (s_file s) with
  | (f, Err e) => (set_file s1 f, Err e)
  | (f, Ok _) => match save_n_ops (s_obj s) (fin_times fin) f with
                 | (f', Err e) => (set_file s1 f', Err e)
                 | (f', Ok _) => (set_file s1 f', Ok (fin_running fin))
                 end
  end.

Definition ask_pool (elapsed : nat -> Q) (timeout : option Q) (fuel : nat) (s : sampler) :=
  ask poll_store elapsed timeout fuel s.

(** sampler.py:137-147, the body of the inner loop for one new sample of a level. *)
Definition schedule_one (level : nat) : st sampler pystr := fun s =>
  match nth_error (s_nsched s) level with
  | None => (s, Err IndexError)
  | Some n =>
      let id := sample_tag (N.of_nat level) (N.of_nat n) in
      match nth_error (s_sims s) level with
      | None => (s, Err IndexError)
      | Some ls =>
          (mkS (s_obj s) (s_file s) (pool_schedule (s_pool s) id ls) (s_sims s) (s_targets s) (s_tint s)
               (upd (s_nsched s) level S) (s_handed s ++ [id]), Ok id)
      end
  end.

Fixpoint schedule_many (level count : nat) (acc : list pystr) : st sampler (list pystr) :=
  match count with
  | 0 => sret acc
  | S c => sbind (schedule_one level) (fun id => schedule_many level c (acc ++ [id]))
  end.

Definition save_sched (level : nat) (ids : list pystr) : st sampler unit := fun s =>
  let (f, r) := save_scheduled (s_obj s) level ids (s_file s) in (set_file s f, r).

(** sampler.py:135-150, the outer loop, from level [level] on. *)
Fixpoint schedule_levels (level : nat) (plan : list Q) : st sampler unit :=
  match plan with
  | [] => sret tt
  | q :: plan' =>
      sbind (schedule_many level (Z.to_nat (Qtrunc q)) []) (fun ids =>
      sbind (save_sched level ids) (fun _ => schedule_levels (S level) plan'))
  end.

Definition nat_Q (n : nat) : Q := inject_Z (Z.of_nat n).

Fixpoint minus_vec (t : list Q) (n : list nat) : list Q :=
  match t, n with
  | x :: t', y :: n' => (x - nat_Q y)%Q :: minus_vec t' n'
  | _, _ => []
  end.

(** sampler.py:133: the difference of two arrays; numpy broadcasts an array of length one. *)
Definition plan_samples (s : sampler) : res (list Q) :=
  if Nat.eqb (length (s_targets s)) (length (s_nsched s))
  then Ok (minus_vec (s_targets s) (s_nsched s))
  else match s_nsched s, s_targets s with
       | [n], t => Ok (map (fun x => x - nat_Q n)%Q t)
       | ns, [x] => Ok (map (fun n => x - nat_Q n)%Q ns)
       | _, _ => Err ValueError
       end.

(** sampler.py:122-150 [schedule_samples]. *)
Definition schedule_samples (elapsed : nat -> Q) (timeout : option Q) (fuel : nat) (s : sampler)
  : sampler * out :=
  match ask_pool elapsed timeout fuel s with
  | (s1, None) => (s1, ORunning)
  | (s1, Some (Err e)) => (s1, OErr e)
  | (s1, Some (Ok _)) =>
      match plan_samples s1 with
      | Err e => (s1, OErr e)
      | Ok plan => match schedule_levels 0 plan s1 with
                   | (s2, Ok _) => (s2, ONone)
                   | (s2, Err e) => (s2, OErr e)
                   end
      end
  end.

(** sampler.py:270-286 [renew_failed_samples]. *)
Definition renew_one (level : nat) (id : pystr) : st sampler unit := fun s =>
  match nth_error (s_sims s) level with
  | None => (s, Err IndexError)
  | Some ls => (mkS (s_obj s) (s_file s) (pool_schedule (s_pool s) id ls) (s_sims s) (s_targets s)
                    (s_tint s) (s_nsched s) (s_handed s ++ [id]), Ok tt)
  end.
Definition clear_all_failed : st sampler unit := fun s =>
  let (f, r) := clear_failed (s_obj s) (s_file s) in (set_file s f, r).
Definition renew_failed : st sampler unit := fun s =>
  match failed_samples (s_obj s) (s_file s) with
  | Err e => (s, Err e)
  | Ok d => sbind (sfor d (fun '(level, ids) => sfor ids (renew_one level)))
                  (fun _ => clear_all_failed) s
  end.

(** sampler.py:215-221: planned number of samples of one level. *)
Definition planned (c est : Q) (sched : nat) : Q :=
  let n := nat_Q sched in
  let new := if Qle_bool (est * c) (est - n) then (n + (est - n) * c)%Q else est in
  inject_Z (Qceiling (if Qle_bool n est then new else n)).

Fixpoint planned_vec (c : Q) (est : list Q) (sched : list nat) : list Q :=
  match est, sched with
  | e :: est', n :: sched' => planned c e n :: planned_vec c est' sched'
  | _, _ => []
  end.

(** sampler.py:224 greater_items: positions where the estimate exceeds the planned number. *)
Fixpoint greater_items (i : nat) (est plan : list Q) : list nat :=
  match est, plan with
  | e :: est', n :: plan' =>
      if Qle_bool e n then greater_items (S i) est' plan' else i :: greater_items (S i) est' plan'
  | _, _ => []
  end.

(** sampler.py:248: np.any(n_finished[greater] < 0.5 * n_scheduled[greater]). *)
Fixpoint any_below (items : list nat) (fin : list nat) (plan : list Q) : res bool :=
  match items with
  | [] => Ok false
  | i :: r => match nth_error fin i, nth_error plan i with
              | Some a, Some b =>
                  bind (any_below r fin plan) (fun x => Ok (negb (Qle_bool ((1 # 2) * b) (nat_Q a)) || x)%bool)
              | _, _ => Err IndexError
              end
  end.

(** sampler.py:248-252, the waiting loop; [clk k] is the clock of the k-th poll loop. *)
Fixpoint wait_half (clk : nat -> nat -> Q) (timeout : option Q) (ask_fuel fuel k : nat)
    (items : list nat) (plan : list Q) (s : sampler) : sampler * out :=
  match n_finished (s_obj s) (s_file s) with
  | Err e => (s, OErr e)
  | Ok fin =>
      match any_below items fin plan with
      | Err e => (s, OErr e)
      | Ok false => (s, ONone)
      | Ok true =>
          match fuel with
          | 0 => (s, ORunning)
          | S fuel' =>
              match ask_pool (clk k) timeout ask_fuel s with
              | (s1, None) => (s1, ORunning)
              | (s1, Some (Err e)) => (s1, OErr e)
              | (s1, Some (Ok _)) => wait_half clk timeout ask_fuel fuel' (S k) items plan s1
              end
          end
      end
  end.

(** sampler.py:231-252 [set_scheduled_and_wait] with fin_sample_coef = 0.5. *)
Definition set_scheduled_and_wait (clk : nat -> nat -> Q) (timeout : option Q) (ask_fuel fuel : nat)
    (plan : list Q) (items : list nat) (s : sampler) : sampler * out :=
  match set_level_target plan s with
  | (s1, Err e) => (s1, OErr e)
  | (s1, Ok _) => match schedule_samples (clk 1) timeout ask_fuel s1 with
                  | (s2, ONone) => wait_half clk timeout ask_fuel fuel 2 items plan s2
                  | r => r
                  end
  end.

(** sampler.py:195-229 [process_adding_samples]. Vectors of different lengths raise ValueError
    (simplified: broadcasting of length one is not modelled). *)
Definition process_adding (clk : nat -> nat -> Q) (timeout : option Q) (ask_fuel fuel : nat)
    (c : Q) (est : list Q) (s : sampler) : sampler * out :=
  match ask_pool (clk 0) timeout ask_fuel s with
  | (s1, None) => (s1, ORunning)
  | (s1, Some (Err e)) => (s1, OErr e)
  | (s1, Some (Ok _)) =>
      if Nat.eqb (length est) (length (s_nsched s1)) then
        let plan := planned_vec c est (s_nsched s1) in
        let items := greater_items 0 est plan in
        match set_scheduled_and_wait clk timeout ask_fuel fuel plan items s1 with
        | (s2, ONone) =>
            (s2, OBool (forallb (fun i => match nth_error est i, nth_error plan i with
                                          | Some a, Some b => Qeq_bool a b | _, _ => false end) items))
        | r => r
        end
      else (s1, OErr ValueError)
  end.

(** Public operations of a campaign. Clocks and timeouts are arbitrary arguments. *)
Inductive op :=
| SetInitial (v : option nums)
| SetTarget (v : list Q)
| Schedule (clk : nat -> Q) (timeout : option Q)
| Ask (clk : nat -> Q) (timeout : option Q)
| Renew
| Adding (clk : nat -> nat -> Q) (timeout : option Q) (c : Q) (est : list Q)
| Restart.    (* new storage object on the file, new pool, new Sampler, same level parameters *)

Definition of_unit (x : sampler * res unit) : sampler * out :=
  match x with (s, Ok _) => (s, ONone) | (s, Err e) => (s, OErr e) end.

Definition restart (ps : list (param E)) (s : sampler) : sampler * out :=
  match bind (hdf_open (s_file s)) (fun '(o, f) => sampler_init o f ps (n_calls (s_pool s)) (s_handed s)) with
  | Ok s' => (s', ONone)
  | Err e => (s, OErr e)
  end.

(** One operation; after an exception the user may go on with the same object. [fuel] bounds the
    polling and waiting loops. *)
Definition step (ps : list (param E)) (fuel : nat) (s : sampler) (o : op) : sampler * out :=
  match o with
  | SetInitial v => (set_initial s v, ONone)
  | SetTarget v => of_unit (set_level_target v s)
  | Schedule clk t => schedule_samples clk t fuel s
  | Ask clk t => match ask_pool clk t fuel s with
                 | (s', None) => (s', ORunning)
                 | (s', Some (Ok n)) => (s', OInt n)
                 | (s', Some (Err e)) => (s', OErr e)
                 end
  | Renew => of_unit (renew_failed s)
  | Adding clk t c est => process_adding clk t fuel fuel c est s
  | Restart => restart ps s
  end.

Definition run (ps : list (param E)) (fuel : nat) (s : sampler) (ops : list op) : sampler :=
  fold_left (fun s o => fst (step ps fuel s o)) ops s.

(** A campaign: new file, new Sampler, any operations. *)
Definition start (ps : list (param E)) : res sampler := sampler_init hdf_new no_file ps 0 [].

End Sampler.

Arguments s_obj {E} _.
Arguments s_file {E} _.
Arguments s_pool {E} _.
Arguments s_sims {E} _.
Arguments s_targets {E} _.
Arguments s_tint {E} _.
Arguments s_nsched {E} _.
Arguments s_handed {E} _.
