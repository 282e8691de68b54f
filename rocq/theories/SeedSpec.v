(** Specification: results and seeds. *)
From Verif Require Import Base.

(** The result is determined by configuration and seed, whatever the process did before. *)
Definition reproducible {W C S R : Type} (sim : W -> C -> S -> R * W) : Prop :=
  forall w w' c s, fst (sim w c s) = fst (sim w' c s).
(** The seed has no influence. *)
Definition ignores_seed {W C S R : Type} (sim : W -> C -> S -> R * W) : Prop :=
  forall w c s s', fst (sim w c s) = fst (sim w c s').
(** Two different numbers up to a bound with one image. *)
Definition collision {A} (f : N -> A) (bound : N) : Prop := exists i j, (i < j <= bound)%N /\ f i = f j.
