(** Approximated distributions: mlmc/tool/simple_distribution.py and mlmc/tool/distribution.py, over the real numbers.
    Arrays are functions of the index with their size given beside. *)
From Coq Require Import Reals.
From Verif Require Import Base.
Open Scope R_scope.

Definition vec := nat -> R.
Definition sum (n : nat) (f : nat -> R) : R := fold_right Rplus 0 (map f (seq 0 n)).
(** np.minimum(np.maximum(power, -200), 200). *)
Definition clip (x : R) : R := Rmin (Rmax x (-200)) 200.

(** [cdf], simple_distribution.py:108-125 and distribution.py:196-213. [density]: self.density; nodes and weights of
    fixed_quad on [-1, 1]. The sorted array of the second line of the body is dropped. *)
Section Cdf.
Variable density : R -> R.
Variable rule : list (R * R).
Variables dom0 dom1 : R.
Definition fixed_quad (a b : R) : R :=
  (b - a) / 2 * fold_right Rplus 0 (map (fun nw => snd nw * density ((b - a) * (fst nw + 1) / 2 + a)) rule).
Fixpoint cdf_loop (quad : R -> R -> R) (last_x last_y : R) (values : list R) : list R :=
  match values with
  | [] => []
  | v :: vs =>
      if Rle_dec v dom0 then 0 :: cdf_loop quad last_x 0 vs
      else if Rle_dec dom1 v then 1 :: cdf_loop quad last_x 1 vs
      else let y := last_y + quad last_x v in y :: cdf_loop quad v y vs
  end.
Definition cdf (values : list R) : list R := cdf_loop fixed_quad dom0 0 values.
End Cdf.

(** The optimised functional. [n]: approx_size, [K]: number of quadrature points, [w]: _quad_weights, [mom k i]:
    _quad_moments, [E s i]: _end_point_diff, [mean], [err]: moment_means and _moment_errs, [coef]: _penalty_coef. The
    quadrature is the one after _update_quadrature. *)
Section Fit.
Variables (n K : nat) (w : vec) (mom : nat -> nat -> R) (E : nat -> nat -> R) (mean err : vec) (coef : R).

Definition power (l : vec) (k : nat) : R := - sum n (fun i => mom k i * (l i / err i)).
(** [_density_in_quads], simple_distribution.py:253-256. *)
Definition q_density (l : vec) (k : nat) : R := exp (clip (power l k)).
Definition end_diff (l : vec) (s : nat) : R := sum n (fun i => E s i * l i).
Definition penalty (l : vec) : R := sum 2 (fun s => Rmax (end_diff l s) 0 ^ 2).
Definition means_sum (l : vec) : R := sum n (fun i => mean i * l i / err i).
(** [SimpleDistribution._calculate_functional], simple_distribution.py:258-274. *)
Definition functional (l : vec) : R :=
  let f := means_sum l + sum K (fun k => q_density l k * w k) in
  f + Rabs f * coef * penalty l.
(** [SimpleDistribution._calculate_gradient], simple_distribution.py:276-290, for densities [d] in the quadrature points. *)
Definition integral (d : vec) (i : nat) : R := sum K (fun k => mom k i * d k * w k) / err i.
Definition penalty_grad (l : vec) (i : nat) : R := 2 * sum 2 (fun s => Rmax (end_diff l s) 0 * E s i).
Definition gradient_with (d : vec) (l : vec) (i : nat) : R :=
  let f := means_sum l + integral d 0%nat * err 0%nat in
  mean i / err i - integral d i + Rabs f * coef * penalty_grad l i.
Definition gradient (l : vec) : vec := gradient_with (q_density l) l.
(** [SimpleDistribution._calculate_jacobian_matrix], simple_distribution.py:292-327. *)
Definition jac0 (l : vec) (i j : nat) : R := sum K (fun k => mom k i / err i * (q_density l k * w k) * (mom k j / err j)).
Definition jac_penalty (l : vec) (i j : nat) : R :=
  let f := means_sum l + jac0 l 0%nat 0%nat * err 0%nat ^ 2 in
  sum 2 (fun s => if Rlt_dec 0 (end_diff l s) then Rabs f * coef * (2 * (E s i * E s j)) else 0).
Definition jacobian (l : vec) (i j : nat) : R := jac0 l i j + jac_penalty l i j.

(** Class Distribution: [stab]: _stab_penalty, [last], [m]: _last_solved_multipliers and its length. *)
Variables (stab : R) (last : vec) (m : nat).
(** [Distribution._calculate_functional], distribution.py:340-360. *)
Definition d_functional (l : vec) : R := functional l + 1 / 2 * stab * sum m (fun i => (last i - l i) ^ 2).
(** [Distribution._calculate_gradient], distribution.py:363-381: the power is not clipped. *)
Definition d_gradient (l : vec) (i : nat) : R :=
  gradient_with (fun k => exp (power l k)) l i + (if Nat.ltb i m then stab * (l i - last i) else 0).
(** [Distribution._calculate_jacobian_matrix], distribution.py:383-419: the upper triangle is computed and copied. *)
Definition d_jac0 (l : vec) (i j : nat) : R :=
  let up a b := sum K (fun k => mom k a * mom k b * q_density l k * w k) / err a / err b in
  if Nat.leb i j then up i j else up j i.
Definition d_jac_penalty (l : vec) (i j : nat) : R :=
  let f := means_sum l + d_jac0 l 0%nat 0%nat * err 0%nat ^ 2 in
  sum 2 (fun s => if Rlt_dec 0 (end_diff l s) then Rabs f * coef * (2 * (E s i * E s j)) else 0).
Definition d_jacobian (l : vec) (i j : nat) : R :=
  d_jac0 l i j + d_jac_penalty l i j + (if Nat.eqb i j then stab else 0).
End Fit.

(** Density of both classes at a point with moments [moms], simple_distribution.py:96-105 and distribution.py:184-194. *)
Definition density (n : nat) (err l : vec) (moms : vec) : R := exp (clip (- sum n (fun i => moms i * l i / err i))).
Definition d_density (n : nat) (err l : vec) (moms : vec) : R := exp (- sum n (fun i => moms i * l i / err i)).
(** "Fix normalization": SimpleDistribution.estimate_density_minimize, simple_distribution.py:84-88, and
    Distribution.estimate_density_minimize, distribution.py:148-150. *)
Definition fix_normalization (moment_0 : R) (l : vec) : vec := fun i => if Nat.eqb i 0 then l i - ln moment_0 else l i.
Definition d_fix_normalization (moment_0 : R) (l : vec) : vec := fun i => l i / moment_0.

(** Integrand of [KL_divergence], simple_distribution.py:450-456; densities are positive numbers here, [tiny] is 1e-300. *)
Definition kl_integrand (tiny p q : R) : R := let q := Rmax q tiny in p * ln (p / q) - p + q.
(** The value returned, line 459. *)
Definition kl_value (integral : R) : R := Rmax integral (/ IZR (10 ^ 10)).
