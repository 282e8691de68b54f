(** The two shooting simulations: examples/shooting/simulation_shooting_1D.py and simulation_shooting_2D.py. Floats are
    rational numbers; None stands for NaN. *)
From Verif Require Import Base.

Definition vec := (Q * Q)%type.
Definition vadd (a b : vec) : vec := ((fst a + fst b)%Q, (snd a + snd b)%Q).
Definition vscale (t : Q) (a : vec) : vec := ((t * fst a)%Q, (t * snd a)%Q).

(** The configuration dictionary: area_borders, start_position, start_velocity, max_time, complexity, and the entries
    "fine" and "coarse" set by level_instance. The parameters of the random field and the result format are left out. *)
Record borders := mkB { x_lo : Q; x_hi : Q; y_lo : Q; y_hi : Q }.
Record cfg := mkCfg {
  area : borders; start_position : vec; start_velocity : vec; max_time : Q; complexity : Q;
  fine_step : Q; coarse_step : Q; fine_n : Z; coarse_n : Z }.

Definition Qltb (a b : Q) : bool := negb (Qle_bool b a).
(** The test of the area, simulation_shooting_1D.py:110-111, 2D.py:111-112. *)
Definition outside (b : borders) (X : vec) : bool :=
  Qltb (x_hi b) (fst X) || Qltb (fst X) (x_lo b) || Qltb (y_hi b) (snd X) || Qltb (snd X) (y_lo b).

(** The loop of [_run_sample], 1D.py:101-119, 2D.py:101-120, from step [i] on; None: the area was left. *)
Fixpoint steps (b : borders) (tmax dt : Q) (F : list vec) (i : nat) (X V : vec) : option vec :=
  match F with
  | [] => Some X
  | f :: F' =>
      let X1 := vadd X (vscale dt V) in
      let V1 := vadd V (vscale dt f) in
      if outside b X1 then None
      else if Qle_bool tmax (dt * inject_Z (Z.of_nat (S i))) then Some X1
      else steps b tmax dt F' (S i) X1 V1
  end.
Definition time_step (c : cfg) (n : nat) : Q := (max_time c / inject_Z (Z.of_nat n))%Q.

(** [_run_sample], 2D.py:85-121: without elements the start position is returned; None: [nan, nan]. *)
Definition run2 (c : cfg) (F : list vec) : option vec :=
  steps (area c) (max_time c) (time_step c (length F)) F 0 (start_position c) (start_velocity c).
(** [_run_sample], 1D.py:85-121: the same value is added to both coordinates of the velocity (numpy broadcasting); the
    second coordinate is returned, 0 without elements. *)
Definition run1 (c : cfg) (F : list Q) : option Q :=
  match F with
  | [] => Some 0%Q
  | _ => option_map snd (steps (area c) (max_time c) (time_step c (length F)) (map (fun f => (f, f)) F) 0
                               (start_position c) (start_velocity c))
  end.

(** int(complexity / step): truncation. *)
Definition py_int (q : Q) : Z := Z.quot (Qnum q) (Zpos (Qden q)).
(** The entries written by [level_instance], 1D.py:49-58, 2D.py:46-55; [fp], [cp]: parameters of the level and of the
    coarser one. *)
Definition set_level (c : cfg) (fp cp : list Q) : res cfg :=
  match fp, cp with
  | f :: _, g :: _ =>
      if Qeq_bool f 0 then Err ZeroDivisionError
      else Ok (mkCfg (area c) (start_position c) (start_velocity c) (max_time c) (complexity c) f g
                     (py_int (complexity c / f))
                     (if Qltb 0 g then py_int (complexity c / g) else 0%Z))
  | _, _ => Err IndexError
  end.

(** Configuration dictionaries are objects: a heap of them, a simulation and a LevelSimulation hold positions in it.
    [level_instance] of the 1D simulation, 1D.py:41-61, writes to a deep copy; that of the 2D simulation, 2D.py:39-58,
    writes to the configuration of the simulation itself. The task size is left out. *)
Definition level_instance1 (h : list cfg) (self : nat) (fp cp : list Q) : res (list cfg * nat) :=
  match nth_error h self with
  | None => Err AttributeError
  | Some c => bind (set_level c fp cp) (fun c' => Ok (h ++ [c'], length h))
  end.
Definition level_instance2 (h : list cfg) (self : nat) (fp cp : list Q) : res (list cfg * nat) :=
  match nth_error h self with
  | None => Err AttributeError
  | Some c => bind (set_level c fp cp) (fun c' => Ok (upd h self (fun _ => c'), self))
  end.

(** [Sampler._create_level_sim_objects], sampler.py:62-80: configurations of the level simulations in order of levels;
    [prev]: parameters of the preceding level, [0] for the first. *)
Fixpoint create_levels (inst : list cfg -> nat -> list Q -> list Q -> res (list cfg * nat))
         (h : list cfg) (self : nat) (prev : list Q) (params : list (list Q)) : res (list cfg * list nat) :=
  match params with
  | [] => Ok (h, [])
  | p :: ps =>
      bind (inst h self p prev) (fun r =>
      bind (create_levels inst (fst r) self p ps) (fun q => Ok (fst q, snd r :: snd q)))
  end.

(** np.linspace(0, stop, n); for n = 1 the quotient by zero is zero in [Q], as is the only point. *)
Definition linspace (stop : Q) (n : nat) : list Q :=
  map (fun i => (inject_Z (Z.of_nat i) * (stop / inject_Z (Z.of_nat (n - 1))))%Q) (seq 0 n).
(** [create_points], 1D.py:123-135, 2D.py:123-134. *)
Definition create_points (c : cfg) : res (list Q * nat) :=
  if negb (coarse_n c <? fine_n c)%Z then Err AssertionError
  else if (coarse_n c <? 0)%Z then Err ValueError
  else let stop := (fst (start_velocity c) * max_time c)%Q in
       Ok (linspace stop (Z.to_nat (fine_n c)) ++ linspace stop (Z.to_nat (coarse_n c)), Z.to_nat (fine_n c)).

(** [calculate] of the 1D simulation, 1D.py:63-83 and 137-148; [f]: the realisation of the random field (GSTools) that
    sample() evaluates in the points. *)
Definition calculate1 (c : cfg) (f : Q -> Q) : res (option Q * option Q) :=
  bind (create_points c) (fun p =>
    let sample := map f (fst p) in
    let fine := firstn (snd p) sample in
    let coarse := if Qeq_bool (coarse_step c) 0 then [] else skipn (snd p) sample in
    Ok (run1 c fine, run1 c coarse)).

(** [calculate] of the 2D simulation, 2D.py:60-83 and 136-153; the array of the coarse sample is uninitialised for a zero
    step, but then has no element in configurations made by level_instance; line 81 passes the fine sample again. *)
Definition calculate2 (c : cfg) (fx fy : Q -> Q) : res (option vec * option vec) :=
  bind (create_points c) (fun p =>
    let sx := map fx (fst p) in
    let sy := map fy (fst p) in
    let fine := combine (firstn (snd p) sx) (firstn (snd p) sy) in
    Ok (run2 c fine, run2 c fine)).
