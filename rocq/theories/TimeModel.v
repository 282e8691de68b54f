(** Interpolation of a time series: TimeSeriesType, mlmc/quantity/quantity_types.py:143-174. A chunk is the list of its rows
    (components), a row the list of all its numbers (samples, fine and coarse). Numbers are rationals, None is NaN; infinite values
    and rounding are left out. *)
From Verif Require Import Base.

Definition num := option Q.
Definition lift2 (f : Q -> Q -> Q) (a b : num) : num := match a, b with Some x, Some y => Some (f x y) | _, _ => None end.
Definition lift1 (f : Q -> Q) (a : num) : num := match a with Some x => Some (f x) | None => None end.
Definition row := list num.

(** np.split with the indices n, 2n, ..., lines 170-171: [k] pieces, the last one takes the rest. *)
Fixpoint split {A} (k n : nat) (l : list A) : list (list A) :=
  match k with
  | 0 => []
  | S 0 => [l]
  | S k' => firstn n l :: split k' n (skipn n l)
  end.
(** interp1d sorts the points (argsort, stable) together with the values; scipy/interpolate/_interpolate.py. *)
Fixpoint insert {A} (x : Q * A) (l : list (Q * A)) : list (Q * A) :=
  match l with [] => [x] | y :: l' => if Qle_bool (fst x) (fst y) then x :: l else y :: insert x l' end.
Fixpoint sort {A} (l : list (Q * A)) : list (Q * A) := match l with [] => [] | x :: l' => insert x (sort l') end.
(** np.searchsorted on the left of equal values. *)
Definition qltb (a b : Q) : bool := negb (Qle_bool b a).
Fixpoint searchsorted (x : list Q) (v : Q) : nat :=
  match x with [] => 0 | t :: x' => if qltb t v then S (searchsorted x' v) else 0 end.
(** _call_linear: slope * (v - x_lo) + y_lo on all numbers of two pieces. *)
Definition linear (lo hi v : Q) (a b : num) : num :=
  lift2 Qplus (lift1 (fun s => s / (hi - lo) * (v - lo))%Q (lift2 Qminus b a)) a.
Fixpoint map2 {A B C} (f : A -> B -> C) (l : list A) (l' : list B) : list C :=
  match l, l' with a :: m, b :: m' => f a b :: map2 f m m' | _, _ => [] end.
(** interp1d(times, pieces, axis=0)(v): ragged pieces and points outside of the range raise ValueError. A single time is
    taken as an error (old scipy; newer ones accept it), equal times divide by zero and are left out. *)
Definition interp1d (times : list Q) (pieces : list (list row)) (v : Q) : res (list row) :=
  match pieces with
  | [] => Err ValueError
  | p :: _ =>
      if forallb (fun q => Nat.eqb (length q) (length p)) pieces then
        let xy := sort (combine times pieces) in
        let i := Nat.min (Nat.max (searchsorted (map fst xy) v) 1) (length xy - 1) in
        match nth_error xy 0, nth_error xy (length xy - 1), nth_error xy (i - 1), nth_error xy i with
        | Some (t0, _), Some (t1, _), Some (lo, a), Some (hi, b) =>
            if (Nat.ltb (length xy) 2 || qltb v t0 || qltb t1 v)%bool then Err ValueError
            else Ok (map2 (map2 (linear lo hi v)) a b)
        | _, _, _, _ => Err ValueError
        end
      else Err ValueError
  end.
(** The operation [interp] of [time_interpolation], 169-173; [n]: size of the type of one time. *)
Definition interp (times : list Q) (n : nat) (y : list row) (v : Q) : res (list row) :=
  interp1d times (split (length times) n y) v.

(** [get_key] 153-159 with the item access of quantity.py:366-380 for a scalar or array type of size [n]: the rows of the first
    time equal to the key; list.index raises ValueError, which the except clause does not catch. *)
Fixpoint index (times : list Q) (v : Q) : option nat :=
  match times with [] => None | t :: ts => if Qeq_bool t v then Some 0 else option_map S (index ts v) end.
Definition item (times : list Q) (n : nat) (y : list row) (v : Q) : res (list row) :=
  match index times v with
  | None => Err ValueError
  | Some k => Ok (firstn n (skipn (k * n) y))
  end.
