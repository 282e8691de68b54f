(** What the properties of the Sampler with a process or thread pool talk about. *)
From Verif Require Import Base TagModel PoolModel HdfModel SamplerModel SamplerSpec ParModel.

Section Spec.
Context (E : env) (ps : list (param E)) (picks wpicks : nat -> list nat) (escaped : nat -> bool).

(** [s] is reached by a campaign: a new Sampler and pool on a new file, then the operations [ops]. *)
Definition par_reached (fuel : nat) (ops : list op) (s : par E) : Prop :=
  exists s0, par_start E ps = Ok s0 /\ s = par_run E picks wpicks escaped fuel s0 ops.

(** Identifiers of a level handed to the workers whose result has not arrived. *)
Definition outstanding (s : par E) (l : nat) : list pystr :=
  map t_id (filter (fun t => Nat.eqb (ls_level (t_sim t)) l) (tasks s)).
(** The file holds group [g] for level [l]. *)
Definition par_level (s : par E) (l : nat) (g : lgroup (arr (value E) * arr (value E))) : Prop := level (base s) l g.

(** No exception gets out of a calculation. *)
Definition nothing_escapes : Prop := forall k, escaped k = false.
(** No result arrives between copying and clearing a queue. *)
Definition nothing_between : Prop := forall k, wpicks k = [].
(** Again and again the oldest outstanding sample is finished. *)
Definition workers_go_on : Prop := forall k, exists k', k <= k' /\ In 0 (picks k').
End Spec.
Arguments outstanding {E}.
Arguments par_level {E}.
