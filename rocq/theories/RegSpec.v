(** Specification of the regression of level variances. *)
From Verif Require Import Base.
From Coq Require Import Reals.
Local Open Scope R_scope.

(** The model of line 99: log var = A + B log h + C (log h)^2. *)
Definition curve (A B C h : R) : R := A + B * ln h + C * (ln h) ^ 2.
(** What is asked of the solver: its answer minimises the sum of squares. *)
Definition sq_error (X : list (R * R * R)) (y : list R) (p : R * R * R) : R :=
  fold_right Rplus 0 (map (fun q => let '((a, b, c), v) := q in (a * fst (fst p) + b * snd (fst p) + c * snd p - v) ^ 2) (combine X y)).
Definition least_squares (lstsq : list (R * R * R) -> list R -> R * R * R) : Prop :=
  forall X y p, length X = length y -> sq_error X y (lstsq X y) <= sq_error X y p.
(** An array with L rows and M columns. *)
Definition is_array (L M : nat) (v : list (list R)) : Prop := length v = L /\ Forall (fun r => length r = M) v.
Definition at_ (v : list (list R)) (l m : nat) : R := nth m (nth l v []) 0.
(** All variances of a moment are nearly zero. *)
Definition tiny_column (v : list (list R)) (m : nat) : Prop := forall l, (l < length v)%nat -> Rabs (at_ v l m) <= / 100000000.
(** Pairwise different positive numbers. *)
Definition distinct_steps (steps : list R) : Prop := Forall (fun h => 0 < h) steps /\ NoDup steps.
