(** Regression of level variances: mlmc/estimator.py:56-169. Floats are real numbers; np.linalg.lstsq and the integrals of
    scipy are functions given from outside. *)
From Verif Require Import Base AllocModel.
From Coq Require Import Reals.
Local Open Scope R_scope.

(** np.allclose(x, 0): |x| <= 1e-8 + 1e-5 * 0. *)
Definition close0 (x : R) : bool := if Rle_dec (Rabs x) (/ 100000000) then true else false.

Section Reg.
(** Least squares solution of X p = y for rows of three numbers, np.linalg.lstsq(WX, log_vars)[0]. *)
Variable lstsq : list (R * R * R) -> list R -> R * R * R.
(** Variance of the logarithm of a chi-squared variable with n - 1 degrees of freedom, lines 156-166 (numerical integrals). *)
Variable log_chi_var : Z -> R.

(** abs(np.array(ns) - np.array(n_samples)) summed, with broadcasting: equal lengths, or one of them has length 1; otherwise ValueError. *)
Definition bdiff (a b : list Z) : res (list Z) :=
  if Nat.eqb (length a) (length b) then Ok (map (fun p => (fst p - snd p)%Z) (combine a b))
  else match a, b with
       | [x], _ => Ok (map (fun y => (x - y)%Z) b)
       | _, [y] => Ok (map (fun x => (x - y)%Z) a)
       | _, _ => Err ValueError
       end.
Definition abs_sum (d : list Z) : Z := fold_right Z.add 0%Z (map Z.abs d).
(** [_variance_of_variance], lines 136-169, with the cache [_saved_var_var]: new cache and result. The numbers of samples are
    a list of python integers; for one sample the degrees of freedom are 0 and 2 / df raises ZeroDivisionError. *)
Definition variance_of_variance (saved : option (list Z * list R)) (n_samples : list Z) : option (list Z * list R) * res (list R) :=
  let compute := if existsb (fun n => Z.eqb n 1) n_samples then (saved, Err ZeroDivisionError)
                 else let vars := map log_chi_var n_samples in (Some (n_samples, vars), Ok vars) in
  match saved with
  | None => compute
  | Some (ns, vars) =>
      match bdiff ns n_samples with
      | Err e => (saved, Err e)
      | Ok d => if Z.eqb (abs_sum d) 0 then (saved, Ok vars) else compute
      end
  end.

(** One row of X, lines 119-124. *)
Definition xrow (h : R) : R * R * R := (1, ln h, (ln h) ^ 2).
Definition xdot (r p : R * R * R) : R := fst (fst r) * fst (fst p) + snd (fst r) * snd (fst p) + snd r * snd p.
(** [_moment_variance_regression], lines 95-134. [var_var] is the result of [_variance_of_variance]; its value is overwritten by
    ones (line 113), so that X and the right-hand side are not scaled. np.full raises ValueError when the numbers of steps and
    variances differ (one step is broadcast to all levels). Outside of the model: steps or variances of levels 1, ... that are
    not positive; their logarithms are infinite or NaN. *)
Definition moment_regression (var_var : res (list R)) (raw steps : list R) : res (list R) :=
  if Nat.ltb (length raw) 3 || forallb close0 raw then Ok raw
  else
    bind var_var (fun _ =>
      let l1 := (length raw - 1)%nat in
      let hs := match tl steps with [h] => Ok (repeat h l1) | hs => if Nat.eqb (length hs) l1 then Ok hs else Err ValueError end in
      bind hs (fun hs =>
        let X := map xrow hs in
        let params := lstsq X (map ln (tl raw)) in
        Ok (hd 0 raw :: map (fun r => exp (xdot r params)) X))).

(** raw_vars[:, m]. *)
Definition column (m : nat) (vars : list (list R)) : list R := map (fun r => nth m r 0) vars.
(** The calls for moments 1, ..., [todo] being the moments left; the cache is passed on. *)
Fixpoint columns (saved : option (list Z * list R)) (n_created : list Z) (raw : list (list R)) (steps : list R) (todo : list nat)
    : option (list Z * list R) * res (list (list R)) :=
  match todo with
  | [] => (saved, Ok [])
  | m :: todo =>
      let c := column m raw in
      let (saved1, vv) := if Nat.ltb (length c) 3 || forallb close0 c then (saved, Ok []) else variance_of_variance saved n_created in
      match moment_regression vv c steps with
      | Err e => (saved1, Err e)
      | Ok x => let (saved2, r) := columns saved1 n_created raw steps todo in (saved2, bind r (fun xs => Ok (x :: xs)))
      end
  end.
(** [_all_moments_variance_regression], lines 87-93, for an array with [M] columns. *)
Definition all_moments_regression (saved : option (list Z * list R)) (n_created : list Z) (M : nat) (raw : list (list R)) (steps : list R)
    : option (list Z * list R) * res (list (list R)) :=
  let (saved, r) := columns saved n_created raw steps (seq 1 (M - 1)) in
  (saved, bind r (fun cols =>
     if Nat.eqb M 0 then Err IndexError
     else if forallb close0 (column 0 raw) then
       Ok (map (fun l => entry raw l 0 :: map (fun c => nth l c 0) cols) (seq 0 (length raw)))
     else Err AssertionError)).
(** [estimate_diff_vars_regression], lines 56-74: [given] are the variances passed by the caller, [estimated] the result of
    [estimate_diff_vars]; the steps come from the storage. *)
Definition diff_vars_regression (saved : option (list Z * list R)) (n_created : list Z) (M : nat) (given : option (list (list R)))
    (estimated : res (list (list R))) (steps n_ops : list R) : option (list Z * list R) * res (list (list R) * list R) :=
  match (match given with Some r => Ok r | None => estimated end) with
  | Err e => (saved, Err e)
  | Ok raw => let (saved, r) := all_moments_regression saved n_created M raw steps in (saved, bind r (fun v => Ok (v, n_ops)))
  end.
End Reg.
