(** One-process sampling pool. Models mlmc/sampling_pool.py:75-126 and 207-294. *)
From Verif Require Import Base.

(** One half of a simulation result: an ndarray (flattened) or another sequence. *)
Inductive arr (V : Type) := NdArray (l : list V) | NotArray (l : list V).
Arguments NdArray {V} l.
Arguments NotArray {V} l.

(** What calling level_sim._calculate(config, seed) does. *)
Inductive outcome (V : Type) :=
| Returned (fine coarse : arr V)
| Raised (traceback : pystr).
Arguments Returned {V} fine coarse.
Arguments Raised {V} traceback.

(** Everything outside the modelled code, fixed but arbitrary. *)
Record env := mkEnv {
  param : Type;                                  (* parameters of one level *)
  config : Type;                                 (* LevelSimulation.config_dict *)
  value : Type;                                  (* one component of a result *)
  zero_param : param;                            (* the [0] of sampler.py:72 *)
  level_instance : param -> param -> config;     (* sim_factory.level_instance(fine, coarse) *)
  calculate : nat -> config -> N -> outcome value; (* sim_factory.calculate(config, seed); the first
     argument numbers the calls of a campaign, so that the answer need not be reproducible *)
  seed_of : pystr -> N;                          (* md5 based hash of the id, sampling_pool.py:75-84 *)
  expected_len : nat;                            (* length declared by the result format *)
  duration : nat -> Q;                           (* measured run time of the n-th calculation *)
  range_item : Q -> Q -> nat -> nat -> Z         (* sampler.py:82-90 sample_range(n0, nL): entry i of
     the rounded geometric sequence with the given number of entries *)
}.

Section Pool.
Context (E : env).
Notation V := (value E).
Notation pairv := (arr V * arr V)%type.

(** LevelSimulation as used by the pool: configuration and level id. *)
Record level_sim := mkLS { ls_config : config E; ls_level : nat }.

(** Result of calculate_sample: a pair of results or a non-empty error text. *)
Inductive sample_out :=
| SOk (fine coarse : arr V)
| SErr (msg : pystr).

(** sampling_pool.py:86-126 [calculate_sample]. [t] is the measured running time and
    [call] the number of this call (only to let the simulation be irreproducible).
    Simplified: no sample workspace (need_sample_workspace = False, otherwise
    handle_sim_files runs first, see ConcModel.v); the seed argument is None;
    the unused result accompanying an error text is dropped. The time is taken before
    the length check, so a result of a wrong length counts with its time, while a
    simulation that raises has time 0. *)
Definition calculate_sample (call : nat) (id : pystr) (ls : level_sim) (t : Q) : sample_out * Q :=
  match calculate E call (ls_config ls) (seed_of E id) with
  | Raised m => (SErr m, 0%Q)
  | Returned (NdArray f) (NdArray c) =>
      if (Nat.eqb (length f) (length c) && Nat.eqb (length c) (expected_len E))%bool
      then (SOk (NdArray f) (NdArray c), t)
      else (SErr (str "AssertionError: Unexpected result format"), t)
  | Returned f c => (SOk f c, t)
  end.

(** Attributes of OneProcessPool, sampling_pool.py:209-217; [n_calls] counts calculations
    only to index the measured durations and the simulation answers. *)
Record pool := mkPool {
  queues : dict (list (pystr * pairv));
  failed_queues : dict (list (pystr * pystr));
  n_running : Z;
  times : dict (Q * nat);
  n_calls : nat }.

(** [calls]: calculations done by earlier pools of the campaign. *)
Definition new_pool (calls : nat) : pool := mkPool [] [] 0 [] calls.

(** self._queues.setdefault(level, Queue()).put(x) *)
Definition put {A} (qs : dict (list A)) (level : nat) (x : A) : dict (list A) :=
  dset qs level (dlist qs level ++ [x]).

(** sampling_pool.py:254-267 [_save_running_time]. *)
Definition save_running_time (ts : dict (Q * nat)) (level : nat) (t : Q) : dict (Q * nat) :=
  let ts1 := match dget ts level with None => dset ts level (0%Q, 0) | Some _ => ts end in
  if Qeq_bool t 0 then ts1
  else match dget ts1 level with
       | Some (tot, n) => dset ts1 level ((tot + t)%Q, S n)
       | None => ts1
       end.

(** sampling_pool.py:230-252 [_process_result]; moving sample directories is not modelled here. *)
Definition process_result (p : pool) (id : pystr) (o : sample_out) (t : Q) (level : nat) : pool :=
  let ts := save_running_time (times p) level t in
  match o with
  | SOk f c => mkPool (put (queues p) level (id, (f, c))) (failed_queues p) (n_running p) ts (n_calls p)
  | SErr m => mkPool (queues p) (put (failed_queues p) level (id, m)) (n_running p) ts (n_calls p)
  end.

(** sampling_pool.py:219-228 [schedule_sample]. *)
Definition pool_schedule (p : pool) (id : pystr) (ls : level_sim) : pool :=
  let p1 := mkPool (queues p) (failed_queues p) (n_running p + 1) (times p) (S (n_calls p)) in
  let (o, t) := calculate_sample (n_calls p) id ls (duration E (n_calls p)) in
  process_result p1 id o t (ls_level ls).

(** sampling_pool.py:281-294 [_queues_to_list]: returns the copied lists (empty queues skipped),
    the cleared queues and how many items were copied. *)
Fixpoint queues_to_list {A} (qs : dict (list A)) : dict (list A) * dict (list A) * Z :=
  match qs with
  | [] => ([], [], 0%Z)
  | (level, q) :: qs' =>
      let '(r, c, n) := queues_to_list qs' in
      match q with
      | [] => (r, (level, q) :: c, n)
      | _ :: _ => ((level, q) :: r, (level, []) :: c, (Z.of_nat (length q) + n)%Z)
      end
  end.

Record finished := mkFin {
  fin_ok : dict (list (pystr * pairv));
  fin_failed : dict (list (pystr * pystr));
  fin_running : Z;
  fin_times : dict (Q * nat) }.

(** sampling_pool.py:272-279 [get_finished]. *)
Definition get_finished (p : pool) : pool * finished :=
  let '(ok, qs, n1) := queues_to_list (queues p) in
  let '(bad, fqs, n2) := queues_to_list (failed_queues p) in
  let run := (n_running p - n1 - n2)%Z in
  (mkPool qs fqs run (times p) (n_calls p), mkFin ok bad run (times p)).

End Pool.
Arguments mkLS {E}.
Arguments ls_config {E}.
Arguments ls_level {E}.
Arguments SOk {E}.
Arguments SErr {E}.
Arguments queues {E}.
Arguments failed_queues {E}.
Arguments n_running {E}.
Arguments times {E}.
Arguments n_calls {E}.
Arguments mkPool {E}.
Arguments new_pool {E}.
Arguments pool_schedule {E}.
Arguments process_result {E}.
Arguments calculate_sample {E}.
Arguments get_finished {E}.
Arguments mkFin {E}.
Arguments fin_ok {E}.
Arguments fin_failed {E}.
Arguments fin_running {E}.
Arguments fin_times {E}.
