(** A tactic for permutations of concatenations. *)
From Coq Require Import List Permutation.
Import ListNotations.

Lemma psolve_start {T} (L R : list T) : Permutation (L ++ []) (R ++ []) -> Permutation L R.
Proof. now rewrite !app_nil_r. Qed.
Lemma psolve_step {T} (x L R R1 R2 : list T) : R1 ++ x ++ R2 = R -> Permutation L (R1 ++ R2) -> Permutation (x ++ L) R.
Proof. intros <- H. rewrite (Permutation_app_comm R1), <- app_assoc. apply Permutation_app_head. rewrite H. apply Permutation_app_comm. Qed.
Ltac psplit x R k :=
  lazymatch R with
  | x ++ ?R2 => lazymatch type of x with list ?T => k (@nil T) R2 end
  | ?y ++ ?R' => psplit x R' ltac:(fun R1 R2 => k (y ++ R1) R2)
  end.
(** Equality of concatenations up to the order of the parts. *)
Ltac psolve :=
  apply psolve_start; rewrite <- ?app_assoc; cbn [app];
  repeat match goal with
  | |- Permutation (?x ++ ?L) ?R =>
      psplit x R ltac:(fun R1 R2 => apply (psolve_step x L R R1 R2); [rewrite <- ?app_assoc; cbn [app]; reflexivity|]);
      rewrite <- ?app_assoc; cbn [app]
  end; reflexivity.
