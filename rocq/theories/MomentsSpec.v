(** What moment functions and the estimates of moments are meant to be. *)
From Verif Require Import Base QTypeModel QuantityModel NumModel EstimateModel EstimateSpec MomentsModel.
Local Open Scope R_scope.

(** Objects the constructors return. *)
Inductive made : mfn -> Prop :=
| made_basis k s d r log safe b : init k s d r log safe = Ok b -> made (Basis b)
| made_trans o mat m : made o -> mat <> [] -> mk_trans o mat = Ok m -> made m.
(** The object at the bottom of linear transformations. *)
Fixpoint bottom_of (m : mfn) : basis := match m with Basis b => b | Trans o _ => bottom_of o end.

(** A number inside the domain. *)
Definition inside (b : basis) (v : num) : Prop := exists x, v = Fin x /\ fst (b_domain b) <= x <= snd (b_domain b).
(** The domain as it is mapped: its logarithm if asked for. *)
Definition mapped (b : basis) : R * R :=
  if b_log b then (ln (fst (b_domain b)), ln (snd (b_domain b))) else b_domain b.
(** Domains not narrower than the smallest width the constructor accepts. *)
Definition wide (b : basis) : Prop := / 10 ^ 15 <= snd (mapped b) - fst (mapped b).
Definition increasing (b : basis) : Prop := fst (b_ref b) < snd (b_ref b).

(** Linear transformations that keep the first function (the documented assumption of TransformedMoments). *)
Fixpoint unit_first (m : mfn) : Prop :=
  match m with
  | Basis _ => True
  | Trans o mat => unit_first o /\ nth 0 mat [] = 1 :: repeat 0 (msize o - 1)
  end.

(** Row of the moments (or covariance) quantity with the j-th of r numbers of component c out of M. *)
Definition place (bottom : bool) (M r c j : nat) : nat := if bottom then (c * r + j)%nat else (j * M + c)%nat.

(** All values of a sample, in every component and in the fine and coarse part, satisfy p. *)
Definition everywhere (p : num -> Prop) (s : list (list num)) : Prop := forall v w, In v s -> In w v -> p w.
