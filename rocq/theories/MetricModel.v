(** Distances of densities: L2_distance and KL_divergence of mlmc/tool/simple_distribution.py:443-464 and mlmc/tool/distribution.py:441-455,
    over the real numbers. *)
From Coq Require Import Reals.
From Verif Require Import Base.
Open Scope R_scope.

Section Distances.
(** integrate.quad: the value and the estimate of its error. *)
Variable quad : (R -> R) -> R -> R -> R * R.
(** np.log and max are those of the real numbers. *)
(** [L2_distance], simple_distribution.py:462-464 and distribution.py:453-455: np.sqrt of the pair, then its first element. *)
Definition L2_distance (prior posterior : R -> R) (a b : R) : R :=
  let integrand x := (posterior x - prior x) ^ 2 in
  let '(v, err) := quad integrand a b in fst (sqrt v, sqrt err).
(** [KL_divergence], simple_distribution.py:443-459. *)
Definition KL_divergence (prior posterior : R -> R) (a b : R) : R :=
  let integrand x := let p := prior x in let q := Rmax (posterior x) (/ IZR (10 ^ 300)) in p * ln (p / q) - p + q in
  Rmax (fst (quad integrand a b)) (/ IZR (10 ^ 10)).
(** [KL_divergence], distribution.py:441-450. *)
Definition d_KL_divergence (prior posterior : R -> R) (a b : R) : R :=
  let integrand x := prior x * Rmax (ln (prior x / posterior x)) (- IZR (10 ^ 300)) in
  Rmax (fst (quad integrand a b)) (/ IZR (10 ^ 10)).
End Distances.
