(** What a distribution function, a Hessian and a derivative are. *)
From Coq Require Import Reals.
From Verif Require Import Base DistModel.
Open Scope R_scope.

(** [ys] are values at [vs] of a distribution function living on [dom0, dom1]. *)
Definition is_cdf (dom0 dom1 : R) (vs ys : list R) : Prop :=
  length ys = length vs
  /\ (forall v y, In (v, y) (combine vs ys) -> 0 <= y <= 1 /\ (v <= dom0 -> y = 0) /\ (dom1 <= v -> y = 1))
  /\ (forall v y v' y', In (v, y) (combine vs ys) -> In (v', y') (combine vs ys) -> v <= v' -> y <= y').
(** Symmetric positive semidefinite matrix of size [n]. *)
Definition psd (n : nat) (H : nat -> nat -> R) : Prop :=
  (forall i j, H i j = H j i) /\ forall x : vec, 0 <= sum n (fun i => sum n (fun j => x i * H i j * x j)).
(** [g] is the derivative of [f] at [l] in every direction. *)
Definition along (l v : vec) (t : R) : vec := fun i => l i + t * v i.
Definition is_gradient (n : nat) (f : vec -> R) (l g : vec) : Prop :=
  forall v, derivable_pt_lim (fun t => f (along l v t)) 0 (sum n (fun i => g i * v i)).
