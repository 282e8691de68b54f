(** The Sampler with a process or thread pool and the file storage. Models mlmc/sampler.py:122-286 on top of
    mlmc/sampling_pool.py:297-337, where a second thread puts the results into the queues at any time. *)
From Verif Require Import Base TagModel PoolModel HdfModel SamplerModel.

Section Par.
Context (E : env).
Notation pairv := (arr (value E) * arr (value E))%type.

(** A sample handed to the workers by apply_async (sampling_pool.py:321), with the number of the calculation. *)
Record task := mkTask { t_call : nat; t_id : pystr; t_sim : level_sim E }.

(** The sampler; ProcessPool inherits its attributes from OneProcessPool (sampling_pool.py:297-304, 334-337), here
    [s_pool (base s)]. [tasks]: handed to the workers, result not delivered yet; [alive]: the thread that calls the
    callbacks; [ticks]: number of points passed where the thread could run. *)
Record par := mkPar { base : sampler E; tasks : list task; alive : bool; ticks : nat }.
Definition set_base (s : par) (b : sampler E) : par := mkPar b (tasks s) (alive s) (ticks s).

(** The environment: [picks k] are the positions of the outstanding samples whose results arrive at point k, in that order;
    [wpicks k] those that arrive after point k between copy and clear of a queue (sampling_pool.py:284-290);
    [escaped c]: an exception leaves calculate_sample in calculation c, from handle_sim_files (104-105) or on the way
    back from the process. *)
Context (picks wpicks : nat -> list nat) (escaped : nat -> bool).

(** Takes out one outstanding sample: the worker that ran it (sampling_pool.py:321) is done. *)
Fixpoint take_nth {A} (i : nat) (l : list A) : option (A * list A) :=
  match l, i with
  | [], _ => None
  | x :: l', 0 => Some (x, l')
  | x :: l', S i' => match take_nth i' l' with Some (y, r) => Some (y, x :: r) | None => None end
  end.

(** sampling_pool.py:306-313 [res_callback] and 230-252 for one result, without interruption. An exception object given to
    the callback cannot be unpacked (313), which ends the thread. *)
Definition deliver (s : par) (i : nat) : par :=
  if alive s then
    match take_nth i (tasks s) with
    | None => s
    | Some (t, ts) =>
        if escaped (t_call t) then mkPar (base s) ts false (ticks s)
        else let (o, time) := calculate_sample (t_call t) (t_id t) (t_sim t) (duration E (t_call t)) in
             mkPar (set_pool E (base s) (process_result (s_pool (base s)) (t_id t) o time (ls_level (t_sim t))))
                   ts true (ticks s)
    end
  else s.
(** A point where the other thread may run: the callbacks of sampling_pool.py:306-313 that happen there. *)
Definition tick (s : par) : par :=
  let s' := fold_left deliver (picks (ticks s)) s in
  mkPar (base s') (tasks s') (alive s') (S (ticks s')).
(** The same between copy and clear (sampling_pool.py:285-288), after the point passed last. *)
Definition window (s : par) : par := fold_left deliver (wpicks (ticks s)) s.

(** sampling_pool.py:315-323 [schedule_sample]; apply_async returns at once. *)
Definition par_schedule (s : par) (id : pystr) (ls : level_sim E) : par :=
  let p := s_pool (base s) in
  mkPar (set_pool E (base s) (mkPool (queues p) (failed_queues p) (n_running p + 1) (times p) (S (n_calls p))))
        (tasks s ++ [mkTask (n_calls p) id ls]) (alive s) (ticks s).

(** sampling_pool.py:281-294 [_queues_to_list] on the queues [get], for the levels listed before (276, 277). *)
Fixpoint drain {A} (get : pool E -> dict (list A)) (put_back : pool E -> dict (list A) -> Z -> pool E)
    (levels : list nat) (acc : dict (list A)) (s : par) : par * dict (list A) :=
  match levels with
  | [] => (s, acc)
  | l :: r =>
      let s1 := tick s in
      match dlist (get (s_pool (base s1))) l with
      | [] => drain get put_back r acc s1
      | q => let s2 := window s1 in
             let p := s_pool (base s2) in
             drain get put_back r (acc ++ [(l, q)])
                   (set_base s2 (set_pool E (base s2) (put_back p (dset (get p) l []) (n_running p - Z.of_nat (length q))%Z)))
      end
  end.
Definition put_good (p : pool E) (d : dict (list (pystr * pairv))) (n : Z) : pool E :=
  mkPool d (failed_queues p) n (times p) (n_calls p).
Definition put_bad (p : pool E) (d : dict (list (pystr * pystr))) (n : Z) : pool E :=
  mkPool (queues p) d n (times p) (n_calls p).

(** sampling_pool.py:272-279 [get_finished]; of the running times the levels only, see [save_times]. *)
Definition par_finished (s : par)
  : par * (dict (list (pystr * pairv)) * dict (list (pystr * pystr)) * Z * list nat) :=
  let s0 := tick s in
  let (s1, ok) := drain (@queues E) put_good (dkeys (queues (s_pool (base s0)))) [] s0 in
  let s1' := tick s1 in
  let (s2, bad) := drain (@failed_queues E) put_bad (dkeys (failed_queues (s_pool (base s1')))) [] s1' in
  (s2, (ok, bad, n_running (s_pool (base s2)), dkeys (times (s_pool (base s2))))).

(** sample_storage_hdf.py:223-237 [save_n_ops]. get_finished returns the lists of times themselves (279), so each is read
    when it is stored. *)
Fixpoint save_times (levels : list nat) (s : par) : par * res unit :=
  match levels with
  | [] => (s, Ok tt)
  | l :: r =>
      let s1 := tick s in
      match dget (times (s_pool (base s1))) l with
      | None => save_times r s1
      | Some (t, n) =>
          match with_group (s_obj (base s1)) l (add_n_ops t n) (s_file (base s1)) with
          | (f, Ok _) => save_times r (set_base s1 (set_file E (base s1) f))
          | (f, Err e) => (set_base s1 (set_file E (base s1) f), Err e)
          end
      end
  end.

(** sampler.py:174-177 and 184-193: one get_finished and [_store_samples] of its answer. *)
Definition par_poll (s : par) : par * res Z :=
  let '(s1, (ok, bad, n, levels)) := par_finished s in
  let s2 := tick s1 in
  match save_samples (s_obj (base s2)) ok bad (s_file (base s2)) with
  | (f, Err e) => (set_base s2 (set_file E (base s2) f), Err e)
  | (f, Ok _) => match save_times levels (set_base s2 (set_file E (base s2) f)) with
                 | (s3, Ok _) => (s3, Ok n)
                 | (s3, Err e) => (s3, Err e)
                 end
  end.

(** sampler.py:160-182 [ask_sampling_pool_for_samples]. *)
Definition par_ask (elapsed : nat -> Q) (timeout : option Q) (fuel : nat) (s : par) := ask par_poll elapsed timeout fuel s.

(** sampler.py:137-147, one new sample of a level; the other thread may run after it. *)
Definition par_one (level : nat) : st par pystr := fun s =>
  match nth_error (s_nsched (base s)) level with
  | None => (s, Err IndexError)
  | Some n =>
      let id := sample_tag (N.of_nat level) (N.of_nat n) in
      match nth_error (s_sims (base s)) level with
      | None => (s, Err IndexError)
      | Some ls =>
          let s1 := par_schedule s id ls in
          let b := base s1 in
          (tick (set_base s1 (mkS E (s_obj b) (s_file b) (s_pool b) (s_sims b) (s_targets b) (s_tint b)
                                     (upd (s_nsched b) level S) (s_handed b ++ [id]))), Ok id)
      end
  end.
(** sampler.py:136-147, the inner loop. *)
Fixpoint par_many (level count : nat) (acc : list pystr) : st par (list pystr) :=
  match count with
  | 0 => sret acc
  | S c => sbind (par_one level) (fun id => par_many level c (acc ++ [id]))
  end.
(** sampler.py:150. *)
Definition par_save_sched (level : nat) (ids : list pystr) : st par unit := fun s =>
  let (f, r) := save_scheduled (s_obj (base s)) level ids (s_file (base s)) in (set_base s (set_file E (base s) f), r).
(** sampler.py:135-150, the outer loop. *)
Fixpoint par_levels (level : nat) (plan : list Q) : st par unit :=
  match plan with
  | [] => sret tt
  | q :: plan' =>
      sbind (par_many level (Z.to_nat (Qtrunc q)) []) (fun ids =>
      sbind (par_save_sched level ids) (fun _ => par_levels (S level) plan'))
  end.

(** sampler.py:122-150 [schedule_samples]. *)
Definition par_samples (elapsed : nat -> Q) (timeout : option Q) (fuel : nat) (s : par) : par * out :=
  match par_ask elapsed timeout fuel s with
  | (s1, None) => (s1, ORunning)
  | (s1, Some (Err e)) => (s1, OErr e)
  | (s1, Some (Ok _)) =>
      match plan_samples E (base s1) with
      | Err e => (s1, OErr e)
      | Ok plan => match par_levels 0 plan s1 with
                   | (s2, Ok _) => (s2, ONone)
                   | (s2, Err e) => (s2, OErr e)
                   end
      end
  end.

(** sampler.py:270-286 [renew_failed_samples]. *)
Definition par_renew_one (level : nat) (id : pystr) : st par unit := fun s =>
  match nth_error (s_sims (base s)) level with
  | None => (s, Err IndexError)
  | Some ls => let s1 := par_schedule s id ls in
               let b := base s1 in
               (tick (set_base s1 (mkS E (s_obj b) (s_file b) (s_pool b) (s_sims b) (s_targets b) (s_tint b)
                                          (s_nsched b) (s_handed b ++ [id]))), Ok tt)
  end.
Definition par_clear : st par unit := fun s =>
  let (f, r) := clear_failed (s_obj (base s)) (s_file (base s)) in (set_base s (set_file E (base s) f), r).
Definition par_renew : st par unit := fun s =>
  match failed_samples (s_obj (base s)) (s_file (base s)) with
  | Err e => (s, Err e)
  | Ok d => sbind (sfor d (fun '(level, ids) => sfor ids (par_renew_one level))) (fun _ => par_clear) s
  end.

(** sampler.py:248-252, the waiting loop. *)
Fixpoint par_wait (clk : nat -> nat -> Q) (timeout : option Q) (ask_fuel fuel k : nat)
    (items : list nat) (plan : list Q) (s : par) : par * out :=
  match n_finished (s_obj (base s)) (s_file (base s)) with
  | Err e => (s, OErr e)
  | Ok fin =>
      match any_below items fin plan with
      | Err e => (s, OErr e)
      | Ok false => (s, ONone)
      | Ok true =>
          match fuel with
          | 0 => (s, ORunning)
          | S fuel' =>
              match par_ask (clk k) timeout ask_fuel s with
              | (s1, None) => (s1, ORunning)
              | (s1, Some (Err e)) => (s1, OErr e)
              | (s1, Some (Ok _)) => par_wait clk timeout ask_fuel fuel' (S k) items plan s1
              end
          end
      end
  end.

(** sampler.py:231-252 [set_scheduled_and_wait]. *)
Definition par_scheduled_and_wait (clk : nat -> nat -> Q) (timeout : option Q) (ask_fuel fuel : nat)
    (plan : list Q) (items : list nat) (s : par) : par * out :=
  match set_level_target E plan (base s) with
  | (b, Err e) => (set_base s b, OErr e)
  | (b, Ok _) => match par_samples (clk 1) timeout ask_fuel (set_base s b) with
                 | (s2, ONone) => par_wait clk timeout ask_fuel fuel 2 items plan s2
                 | r => r
                 end
  end.

(** sampler.py:195-229 [process_adding_samples], simplified as in SamplerModel. *)
Definition par_adding (clk : nat -> nat -> Q) (timeout : option Q) (ask_fuel fuel : nat)
    (c : Q) (est : list Q) (s : par) : par * out :=
  match par_ask (clk 0) timeout ask_fuel s with
  | (s1, None) => (s1, ORunning)
  | (s1, Some (Err e)) => (s1, OErr e)
  | (s1, Some (Ok _)) =>
      if Nat.eqb (length est) (length (s_nsched (base s1))) then
        let plan := planned_vec c est (s_nsched (base s1)) in
        let items := greater_items 0 est plan in
        match par_scheduled_and_wait clk timeout ask_fuel fuel plan items s1 with
        | (s2, ONone) =>
            (s2, OBool (forallb (fun i => match nth_error est i, nth_error plan i with
                                          | Some a, Some b => Qeq_bool a b | _, _ => false end) items))
        | r => r
        end
      else (s1, OErr ValueError)
  end.

(** One operation of a campaign with one Sampler (sampler.py:92-286). Restart is left out: it returns the state unchanged. *)
Definition par_step (fuel : nat) (s : par) (o : op) : par * out :=
  match o with
  | SetInitial v => (set_base s (set_initial E (base s) v), ONone)
  | SetTarget v => match set_level_target E v (base s) with
                   | (b, Ok _) => (set_base s b, ONone) | (b, Err e) => (set_base s b, OErr e) end
  | Schedule clk t => par_samples clk t fuel s
  | Ask clk t => match par_ask clk t fuel s with
                 | (s', None) => (s', ORunning)
                 | (s', Some (Ok n)) => (s', OInt n)
                 | (s', Some (Err e)) => (s', OErr e)
                 end
  | Renew => match par_renew s with (s', Ok _) => (s', ONone) | (s', Err e) => (s', OErr e) end
  | Adding clk t c est => par_adding clk t fuel fuel c est s
  | Restart => (s, ONone)
  end.
Definition par_run (fuel : nat) (s : par) (ops : list op) : par := fold_left (fun s o => fst (par_step fuel s o)) ops s.

(** A new file, a new pool, a new Sampler (sampler.py:16-45). *)
Definition par_start (ps : list (param E)) : res par :=
  match start E ps with Ok b => Ok (mkPar b [] true 0) | Err e => Err e end.

End Par.
Arguments mkTask {E}.
Arguments t_call {E}.
Arguments t_id {E}.
Arguments t_sim {E}.
Arguments mkPar {E}.
Arguments base {E}.
Arguments tasks {E}.
Arguments alive {E}.
Arguments ticks {E}.
