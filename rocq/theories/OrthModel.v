(** construct_ortogonal_moments, mlmc/tool/simple_distribution.py:756-841, over a real field. *)
From mathcomp Require Import all_ssreflect all_algebra.
Import GRing.Theory Num.Theory.
Open Scope ring_scope.
Set Implicit Arguments.
Unset Strict Implicit.
Unset Printing Implicit Defensive.

Section Model.
Variable F : realFieldType.
(** np.sqrt, np.linalg.eigh (eigenvalues and matrix with eigenvectors in columns), sc.linalg.rq (factors R and Q), and the
    first of the fixed eigenvalues returned by detect_treshold_slope_change, lines 545-577 (which raises for fewer than four
    eigenvalues; the exception is not modelled). *)
Variable sqrt : F -> F.
Variable n' : nat.
Notation n := n'.+1.
Variable eigh : 'M[F]_n -> 'rV[F]_n * 'M[F]_n.
Variable rq : forall m, 'M[F]_(n, m) -> 'M[F]_(n, m) * 'M[F]_m.
Variable slope_fixed : 'rV[F]_n -> F.

(** Lines 764-766: identity with the first column replaced. *)
Definition centering (cov : 'M[F]_n) : 'M[F]_n := \matrix_(i, j) (if j == 0 then - cov i 0 else (i == j)%:R).
Definition cov_center (cov : 'M[F]_n) : 'M[F]_n := centering cov *m cov *m (centering cov)^T.
(** np.argmax(eval > tol): the first true, 0 if there is none. *)
Definition argmax_above (tol : F) (ev : 'rV[F]_n) : nat :=
  let k := find (fun i : 'I_n => ev 0 i > tol) (enum 'I_n) in if (k < n)%N then k else 0%N.
(** Lines 779-785; [eval - fixed_eval[0] > 0] is written [eval > fixed_eval[0]]. *)
Definition threshold (tol : option F) (ev : 'rV[F]_n) : nat :=
  match tol with None => argmax_above (slope_fixed ev) ev | Some t => argmax_above t ev end.
(** Lines 805-826: eigenvalues from the threshold on, the largest first, and the factor L_mn. With the number [th] of
    dropped eigenvalues there are n - th left. *)
Section Cut.
Variable th : nat.
Notation m := (n' - th).+1.
Definition flipped (j : 'I_m) : 'I_n := inord (n' - j).
Definition icov_sqrt_t (cov : 'M[F]_n) (ev : 'rV[F]_n) (V : 'M[F]_n) : 'M[F]_(n, m) :=
  \matrix_(i, j) (((centering cov)^T *m (\matrix_(a, b) V a (flipped b))) i j * (1 / sqrt (ev 0 (flipped j)))).
Definition transform (cov : 'M[F]_n) (ev : 'rV[F]_n) (V : 'M[F]_n) : 'M[F]_(m, n) :=
  let L := (fst (rq (icov_sqrt_t cov ev V)))^T in
  if L 0 0 < 0 then - L else L.
End Cut.
(** The matrix of the transformed moments, line 829, and its number of rows. *)
Definition orthogonal_moments (tol : option F) (cov : 'M[F]_n) : {m : nat & 'M[F]_(m, n)} :=
  let '(ev, V) := eigh (cov_center cov) in
  existT _ _ (transform (threshold tol ev) cov ev V).
(** [TransformedMoments._eval_all], mlmc/moments.py:256-259. *)
Definition transformed_eval m (L : 'M[F]_(m, n)) (moms : 'rV[F]_n) : 'rV[F]_m := moms *m L^T.
End Model.
