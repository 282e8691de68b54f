(** Integrals, polynomials and quadrature rules. *)
From Coq Require Import Reals.
From Coquelicot Require Import Coquelicot.
From Verif Require Import Base.
Local Open Scope R_scope.

(** Polynomials with fewer than n coefficients. *)
Fixpoint peval (c : list R) (x : R) : R := match c with [] => 0 | a :: c => a + x * peval c x end.
Definition poly (n : nat) (f : R -> R) : Prop := exists c, (length c <= n)%nat /\ forall x, f x = peval c x.

Definition total (l : list R) : R := fold_right Rplus 0 l.
(** The sum of a rule for a function. *)
Definition applied (f : R -> R) (xs ws : list R) : R := total (map (fun p => f (fst p) * snd p) (combine xs ws)).
(** A rule on [-1, 1] that is exact for polynomials of degree below D. The Gauss rule with G points: D = 2 G. *)
Definition exact_rule (D : nat) (pt w : list R) : Prop :=
  length pt = length w /\ forall k, (k < D)%nat -> applied (fun x => x ^ k) pt w = RInt (fun x => x ^ k) (-1) 1.
Definition sound_rule (pt w : list R) : Prop := (forall t, In t pt -> -1 <= t <= 1) /\ (forall v, In v w -> 0 < v).

(** Intervals that lie side by side from a to b; intervals that do so in some order. *)
Fixpoint chain (a b : R) (ps : list (R * R)) : Prop :=
  match ps with [] => a = b | (x, y) :: r => x = a /\ x < y /\ chain y b r end.
Definition tiles (a b : R) (ps : list (R * R)) : Prop := exists qs, Permutation ps qs /\ chain a b qs.
