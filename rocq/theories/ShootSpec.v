(** Specification of the shooting simulations: the explicit Euler trajectory in closed form. *)
From Verif Require Import Base ShootModel.

(** f 0 + ... + f (k-1). *)
Fixpoint qsumn (f : nat -> Q) (k : nat) : Q :=
  match k with 0 => 0%Q | S k' => (qsumn f k' + f k')%Q end.
Definition qn (n : nat) : Q := inject_Z (Z.of_nat n).
(** One coordinate after [k] steps of length [dt] from position [x] with velocity [v] under the forces [F]. *)
Definition position (dt x v : Q) (F : nat -> Q) (k : nat) : Q :=
  (x + qn k * dt * v + dt * dt * qsumn (fun j => qn (k - 1 - j) * F j) k)%Q.
Definition point_at (dt : Q) (x v : vec) (Fx Fy : nat -> Q) (k : nat) : vec :=
  (position dt (fst x) (fst v) Fx k, position dt (snd x) (snd v) Fy k).
Definition inside (b : borders) (p : vec) : Prop :=
  (x_lo b <= fst p /\ fst p <= x_hi b /\ y_lo b <= snd p /\ snd p <= y_hi b)%Q.
(** Result of a shot of [n] steps over the time [T]: the last point when the area is never left, otherwise NaN. *)
Definition shot (b : borders) (T : Q) (x v : vec) (Fx Fy : nat -> Q) (n : nat) (r : option vec) : Prop :=
  let P := point_at (T / qn n) x v Fx Fy in
  match r with
  | Some p => (fst p == fst (P n))%Q /\ (snd p == snd (P n))%Q /\ forall k, 1 <= k <= n -> inside b (P k)
  | None => exists k, 1 <= k <= n /\ ~ inside b (P k)
  end.
(** The values of [f] in [n] equidistant points from 0 to [stop]. *)
Definition force (f : Q -> Q) (stop : Q) (n i : nat) : Q := f (qn i * (stop / qn (n - 1)))%Q.

(** Number of elements of a step. *)
Definition elements (complexity step : Q) (n : nat) : Prop :=
  (qn n <= complexity / step /\ complexity / step < qn (S n))%Q.

(** The step of level [l] and of the coarser level (0 below the first one). *)
Definition level_step (params : list (list Q)) (l : nat) : Q := hd 0%Q (nth l params []).
Definition coarser_step (params : list (list Q)) (l : nat) : Q :=
  match l with 0 => 0%Q | S l' => level_step params l' end.
(** [c] is the configuration of level [l]: its own steps and numbers of elements, the rest as the user gave it. *)
Definition own_level (c0 : cfg) (params : list (list Q)) (l : nat) (c : cfg) : Prop :=
  fine_step c = level_step params l /\ coarse_step c = coarser_step params l /\
  area c = area c0 /\ start_position c = start_position c0 /\ start_velocity c = start_velocity c0 /\
  max_time c = max_time c0 /\ complexity c = complexity c0.
Definition own_elements (c : cfg) : Prop :=
  (exists n, fine_n c = Z.of_nat n /\ elements (complexity c) (fine_step c) n) /\
  ((0 < coarse_step c)%Q -> exists n, coarse_n c = Z.of_nat n /\ elements (complexity c) (coarse_step c) n) /\
  ((coarse_step c == 0)%Q -> coarse_n c = 0%Z).
Definition levels_kept (inst : list cfg -> nat -> list Q -> list Q -> res (list cfg * nat)) : Prop :=
  forall h self c0 params h' a,
    nth_error h self = Some c0 -> create_levels inst h self [0%Q] params = Ok (h', a) ->
    length a = length params /\
    forall l p, nth_error a l = Some p -> exists c, nth_error h' p = Some c /\ own_level c0 params l c.
