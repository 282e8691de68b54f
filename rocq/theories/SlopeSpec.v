(** What a fit of a window of values by a line is, without the formulas of the code. *)
From Verif Require Import Base.
From Coq Require Import Reals.
Local Open Scope R_scope.

(** Sum of the squared distances of the values a, ..., b-1 from the line with slope [fst g] and value [snd g] at 0. *)
Definition distance (v : list R) (a b : nat) (g : R * R) : R :=
  fold_right Rplus 0 (map (fun i => (nth i v 0 - (fst g * INR i + snd g)) ^ 2) (seq a (b - a))).
Definition best_line (v : list R) (a b : nat) (f : R * R) : Prop := forall g, distance v a b f <= distance v a b g.
(** What is minimised: the distance over the squared number of values. *)
Definition score (v : list R) (a b : nat) (g : R * R) : R := distance v a b g / INR (b - a) ^ 2.
(** At least three values, without the last one. *)
Definition inner (v : list R) (a b : nat) : Prop := (a + 2 < b < length v)%nat.
(** The documented range: any part of the list with at least three values. *)
Definition any_part (v : list R) (a b : nat) : Prop := (a + 2 < b <= length v)%nat.
Definition optimal (among : nat -> nat -> Prop) (v : list R) (a b : nat) (f : R * R) : Prop :=
  among a b /\ best_line v a b f /\ forall a' b' g, among a' b' -> score v a b f <= score v a' b' g.
