(** Quadratures for moments of a density: mlmc/tool/simple_distribution.py:198-238 and 329-440, with the same code in
    mlmc/tool/distribution.py:281-323. *)
From Verif Require Import Base QuantityModel NumModel MomentsModel.
Local Open Scope R_scope.

(** What is used of the dictionary given by scipy.integrate.quad with full_output: the number of subintervals and the arrays of
    their left and right ends, which have further entries behind. *)
Record info := mkInfo { i_last : nat; i_alist : list R; i_blist : list R }.
(** info['alist'][:K], info['blist'][:K], simple_distribution.py:223-226, 365-368, 420-423. *)
Definition panels (i : info) : list (R * R) := combine (firstn (i_last i) (i_alist i)) (firstn (i_last i) (i_blist i)).

(** [pt], [w]: np.polynomial.legendre.leggauss, simple_distribution.py:222, 364, 419. *)
Section Rule.
Variables pt w : list R.
(** The arrays [K, number of nodes], flattened: 227-230, 369-372, 424-427. *)
Definition points (ps : list (R * R)) : list R := flat_map (fun ab => map (fun t => (t + 1) / 2 * (snd ab - fst ab) + fst ab) pt) ps.
Definition weights (ps : list (R * R)) : list R := flat_map (fun ab => map (fun v => v * (snd ab - fst ab) / 2) w) ps.

(** ** Moments and covariances of a density *)
(** Attribute [domain] (moments.py:13, 246). *)
Fixpoint domain_of (m : mfn) : R * R := match m with Basis b => b_domain b | Trans o _ => domain_of o end.
(** moments_fn.eval_all(x)[0, :][i]. *)
Definition entry (m : mfn) (i : nat) (x : R) : res num :=
  bind (eval_all m (Fin x) None) (fun l => match nth_error l i with Some v => Ok v | None => Err IndexError end).
Definition times (d : R) (v : res num) : res num := bind v (fun v => Ok (nmul (Fin d) v)).
Definition times2 (d : R) (u v : res num) : res num := bind u (fun u => bind v (fun v => Ok (nmul (Fin d) (nmul u v)))).

(** [quad]: the subintervals found by scipy.integrate.quad for an integrand. The density is a function with real values. *)
Variable quad : (R -> res num) -> R -> R -> info.
Variable density : R -> R.
(** density(quad_points) * quad_weights, simple_distribution.py:374-375, 429-430. *)
Definition dens_weights (ps : list (R * R)) : list R := map (fun p => density (fst p) * snd p) (combine (points ps) (weights ps)).
Definition rows (m : mfn) (ps : list (R * R)) : res (list (list num)) := mapM (fun x => eval_all m (Fin x) None) (points ps).
(** [compute_semiexact_moments], simple_distribution.py:349-378. *)
Definition semiexact_moments (m : mfn) : res (list num) :=
  let ps := panels (quad (fun x => times (density x) (entry m (msize m - 1) x)) (fst (domain_of m)) (snd (domain_of m))) in
  bind (rows m ps) (fun rs => Ok (map (fun i => nsum (map (fun p => nmul (Fin (fst p)) (nth i (snd p) NaN)) (combine (dens_weights ps) rs)))
                                      (seq 0 (msize m)))).
(** [compute_semiexact_cov], simple_distribution.py:402-440. *)
Definition semiexact_cov (m : mfn) : res (list (list num)) :=
  let ps := panels (quad (fun x => times2 (density x) (entry m (msize m - 1) x) (entry m (msize m - 1) x)) (fst (domain_of m)) (snd (domain_of m))) in
  bind (rows m ps) (fun rs => Ok (map (fun i => map (fun j =>
    nsum (map (fun p => nmul (nmul (nth i (snd p) NaN) (Fin (fst p))) (nth j (snd p) NaN)) (combine (dens_weights ps) rs)))
    (seq 0 (msize m))) (seq 0 (msize m)))).
End Rule.

(** [value]: the value of scipy.integrate.quad. *)
Section Exact.
Variable value : (R -> res num) -> R -> R -> num.
Variable density : R -> R.
(** [compute_exact_moments], simple_distribution.py:329-346: one integral for each moment. *)
Definition exact_moments (m : mfn) : list num :=
  fold_left (fun acc i => upd acc i (fun _ => value (fun x => bind (eval m i (Fin x)) (fun v => Ok (nmul v (Fin (density x))))) (fst (domain_of m)) (snd (domain_of m))))
    (seq 0 (msize m)) (repeat (Fin 0) (msize m)).
(** [compute_exact_cov], simple_distribution.py:381-398: integral[j][i] = integral[i][j] = ... assigns from left to right. *)
Definition put (i j : nat) (v : num) (a : list (list num)) : list (list num) := upd a i (fun row => upd row j (fun _ => v)).
Definition exact_cov (m : mfn) : list (list num) :=
  fold_left (fun acc i => fold_left (fun acc j =>
      let v := value (fun x => bind (entry m i x) (fun a => bind (entry m j x) (fun b => Ok (nmul (nmul a b) (Fin (density x))))))
                     (fst (domain_of m)) (snd (domain_of m)) in
      put i j v (put j i v acc)) (seq 0 (S i)) acc)
    (seq 0 (msize m)) (repeat (repeat (Fin 0) (msize m)) (msize m)).
End Exact.

(** ** The quadrature of the density fit
    Attributes _quad_points, _quad_weights, _quad_moments, _last_multipliers, _last_gradient. Vectors are functions of the index. *)
Definition vec := nat -> R.
Record qstate := mkQ { q_points : list R; q_weights : list R; q_moments : list vec; q_last : vec; q_grad : vec }.
Section Fit.
Variables pt w : list R.
(** [size]: approx_size, [mom x i]: eval_moments(x)[i], [errs]: _moment_errs, [tol]: _quad_tolerance, [a], [b]: domain;
    [sub l]: the subintervals that scipy's quad finds for the integrand of the multipliers l (simple_distribution.py:157-175). *)
Variables (size : nat) (mom : R -> vec) (errs : vec) (tol : R) (sub : vec -> info).
Definition sumv (f : vec) : R := fold_right Rplus 0 (map f (seq 0 size)).
Definition norm (v : vec) : R := sqrt (sumv (fun i => v i * v i)).
Definition clip200 (x : R) : R := Rmin (Rmax x (-200)) 200.
(** simple_distribution.py:215-238 (distribution.py:299-323). *)
Definition renew (l : vec) : qstate :=
  let ps := panels (sub l) in
  let xs := points pt ps in
  let ws := weights w ps in
  let ms := map mom xs in
  let integral := fun i => fold_right Rplus 0 (map (fun p => fst p i * exp (clip200 (- sumv (fun k => fst p k * (l k / errs k)))) * snd p) (combine ms ws)) / errs i in
  mkQ xs ws ms l integral.
(** [_update_quadrature], simple_distribution.py:198-238 (distribution.py:281-323) without force; with force: [renew]. *)
Definition update (l : vec) (s : qstate) : qstate :=
  let diff := fun i => l i - q_last s i in
  if Rlt_dec (norm (q_grad s) * norm diff) tol then s
  else if Rlt_dec (Rabs (sumv (fun i => q_grad s i * diff i))) tol then s
  else renew l.
(** _initialize_params and then evaluations of the functional, its gradient or its matrix at any multipliers (simple_distribution.py:152, 265, 282, 297). *)
Definition fit_run (l0 : vec) (ls : list vec) : qstate := fold_left (fun s l => update l s) ls (renew l0).
End Fit.
(** First multipliers of the fit, "start with uniform distribution": simple_distribution.py:142-144 and distribution.py:226-229
    (there the first error is set before). *)
Definition start_simple (a b : R) (errs : vec) : vec := fun i => match i with O => - ln (1 / (b - a)) | _ => 0 end.
Definition start_dist (a b : R) (errs : vec) : vec := fun i => match i with O => - ln (1 / (b - a)) * errs O | _ => 0 end.
(** [density], simple_distribution.py:96-105 with the bounds; distribution.py:184-194 has no bounds. *)
Definition density_simple (size : nat) (mom : R -> vec) (errs l : vec) (x : R) : R := exp (clip200 (- sumv size (fun i => mom x i * l i / errs i))).
Definition density_dist (size : nat) (mom : R -> vec) (errs l : vec) (x : R) : R := exp (- sumv size (fun i => mom x i * l i / errs i)).
