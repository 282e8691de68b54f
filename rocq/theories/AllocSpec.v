(** What the numbers of samples are meant to be. *)
From Verif Require Import Base AllocModel.
Local Open Scope R_scope.

Definition sumn (n : nat) (f : nat -> R) : R := fold_right Rplus 0 (map f (seq 0 n)).
(** Variance of the estimate with n l samples on level l, and its cost. *)
Definition variance (L : nat) (V n : nat -> R) : R := sumn L (fun l => V l / n l).
Definition cost (L : nat) (c n : nat -> R) : R := sumn L (fun l => c l * n l).
(** The allocation of the MLMC theory. *)
Definition optimal (L : nat) (V c : nat -> R) (target : R) (l : nat) : R :=
  sqrt (V l / c l) * sumn L (fun k => sqrt (V k * c k)) / target.

(** Data of one call: L levels, M moments, variances and positive costs. *)
Record data_ok (L M : nat) (target : R) (vars : list (list R)) (n_ops : list R) : Prop := {
  ok_rows : length vars = L; ok_cols : forall l, (l < L)%nat -> length (nth l vars []) = M;
  ok_ops : length n_ops = L; ok_pos : forall l, (l < L)%nat -> 0 < nth l n_ops 0;
  ok_vars : forall l m, (l < L)%nat -> (m < M)%nat -> 0 <= nth m (nth l vars []) 0;
  ok_target : 0 < target; ok_M : (M <> 0)%nat }.
