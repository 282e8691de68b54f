(** Specification for estimates of a domain. *)
From Verif Require Import Base.
Local Open Scope Q_scope.

(** Number of values inside of [lo, hi]. *)
Definition inside (lo hi : Q) (l : list Q) : nat := length (filter (fun x => Qle_bool lo x && Qle_bool x hi) l).
Definition qlen {A} (l : list A) : Q := inject_Z (Z.of_nat (length l)).
(** [lo, hi] contains the share 1 - 2q of the values, up to two values at the ends. *)
Definition covers (q lo hi : Q) (l : list Q) : Prop := (1 - 2 * q) * (qlen l - 1) - 1 <= inject_Z (Z.of_nat (inside lo hi l)).
(** Numbers of a list, without NaN. *)
Definition numbers (l : list (option Q)) : list Q := flat_map (fun o => match o with Some x => [x] | None => [] end) l.
