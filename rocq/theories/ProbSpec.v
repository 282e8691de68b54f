(** Random campaigns: finite probability distributions, independent samples, expected values. *)
From Coq Require Import Reals.
From Verif Require Import Base NumModel NumFacts EstimateSpec.
Local Open Scope R_scope.

(** A finite distribution: outcomes with their probabilities. *)
Definition dist (A : Type) := list (R * A).
Definition proper {A} (d : dist A) : Prop := (forall p x, In (p, x) d -> 0 <= p) /\ rsum (map fst d) = 1.
(** Expected value and variance of a number that depends on the outcome. *)
Definition expect {A} (d : dist A) (f : A -> R) : R := rsum (map (fun o => fst o * f (snd o)) d).
Definition variance {A} (d : dist A) (f : A -> R) : R := expect d (fun x => (f x - expect d f) ^ 2).

(** Two independent experiments. *)
Definition joint {A B C} (f : A -> B -> C) (d : dist A) (e : dist B) : dist C :=
  flat_map (fun a => map (fun b => (fst a * fst b, f (snd a) (snd b))) e) d.
(** n independent samples. *)
Fixpoint draws {A} (d : dist A) (n : nat) : dist (list A) :=
  match n with O => [(1, [])] | S n => joint cons d (draws d n) end.
(** Independent samples on every level: distribution of a sample and number of samples. *)
Fixpoint campaign {A} (ls : list (dist A * nat)) : dist (list (list A)) :=
  match ls with [] => [(1, [])] | (d, n) :: r => joint cons (draws d n) (campaign r) end.

(** A sample: for each component the fine value and, above level 0, the coarse value. *)
Definition rsample := list (list R).
Definition rfine (m : nat) (s : rsample) : R := nth 0 (nth m s []) 0.
Definition rcoarse (m : nat) (s : rsample) : R := nth 1 (nth m s []) 0.
Definition rdiff (l m : nat) (s : rsample) : R := if Nat.eqb l 0 then rfine m s else rfine m s - rcoarse m s.
(** Samples of M components on level l. *)
Definition fit (M l : nat) (s : rsample) : Prop := length s = M /\ forall v, In v s -> length v = parts l.
(** The chunks hold these samples, level by level. *)
Definition holds (L : nat) (oc : list (list rsample)) (cs : list (nat * QuantityModel.arr num)) : Prop :=
  forall l, (l < L)%nat -> level_samples cs l = map (map (map Fin)) (nth l oc []).
(** The sample distribution and the number of samples of a level. *)
Definition law (ls : list (dist rsample * nat)) (l : nat) : dist rsample := fst (nth l ls ([], O)).
Definition count (ls : list (dist rsample * nat)) (l : nat) : nat := snd (nth l ls ([], O)).
(** A campaign for quantities of M components with at least k samples on every level. *)
Definition planned (k M : nat) (ls : list (dist rsample * nat)) : Prop :=
  ls <> [] /\ forall l, (l < length ls)%nat -> proper (law ls l) /\ (k <= count ls l)%nat /\ forall p s, In (p, s) (law ls l) -> fit M l s.
(** Whatever the campaign gives, it is stored (in chunks of any sizes). *)
Definition stores (M : nat) (ls : list (dist rsample * nat)) (store : list (list rsample) -> list (nat * QuantityModel.arr num)) : Prop :=
  forall p oc, In (p, oc) (campaign ls) -> chunks_ok M (length ls) (store oc) /\ holds (length ls) oc (store oc).
(** The coarse simulation of each level is as the fine simulation of the level below. *)
Definition matching (ls : list (dist rsample * nat)) (m : nat) : Prop :=
  forall l, (S l < length ls)%nat -> expect (law ls (S l)) (rcoarse m) = expect (law ls l) (rfine m).
