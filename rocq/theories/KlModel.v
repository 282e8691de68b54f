(** Covariance matrix and factor of SpatialCorrelatedField, mlmc/random/correlated_field.py:390-412 and 482-498, over a real field. *)
From mathcomp Require Import all_ssreflect all_algebra.
Import GRing.Theory Num.Theory.
Open Scope ring_scope.
Set Implicit Arguments.
Unset Strict Implicit.
Unset Printing Implicit Defensive.

Section Model.
Variable F : realFieldType.
(** np.sqrt, np.exp and the power with exponent correlation_exponent / 2. *)
Variables sqrt exp pow : F -> F.
(** [n] points in dimension [d], the tensor of the correlation. *)
Variables n d : nat.
Variable points : 'M[F]_(n, d).
Variable tensor : 'M[F]_d.

(** np.sum(diff_row.dot(correlation_tensor) * diff_row, axis=-1), lines 408-410, for row [i] and point [j]. *)
Definition len_sqr (i j : 'I_n) : F :=
  let diff := row j points - row i points in \sum_b (diff *m tensor) 0 b * diff 0 b.
(** [cov_matrix], lines 404-411. *)
Definition cov_matrix : 'M[F]_n := \matrix_(i, j) exp (- pow (len_sqr i j)).
(** _cov_l_factor, lines 484-486: the first [m] columns of [U] times the square roots of the first [m] singular values. *)
Definition l_factor m (le : (m <= n)%N) (U : 'M[F]_n) (ev : 'rV[F]_n) : 'M[F]_(n, m) :=
  (\matrix_(i, j) U i (widen_ord le j)) *m diag_mx (\row_j sqrt (ev 0 (widen_ord le j))).
(** [_sample], line 498, and [sample], line 360, with log False; [xi]: the normal numbers drawn; mu and sigma given for each point. *)
Definition sample m (L : 'M[F]_(n, m)) (mu sigma : 'cV[F]_n) (xi : 'cV[F]_m) : 'cV[F]_n :=
  \col_i (sigma i 0 * (L *m xi) i 0 + mu i 0).
End Model.
