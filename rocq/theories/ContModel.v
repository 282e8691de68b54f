(** Continuation in the number of moments of the density fit: class Distribution, mlmc/tool/distribution.py:85-181 and 216-249. Floats of
    the sizes are rational numbers, other floats real numbers (with infinity and NaN where the code can meet them). *)
From Coq Require Import Reals Qround.
From Verif Require Import Base NumModel DistModel.
Local Open Scope Q_scope.

(** Python's round: to the nearest integer, halves to the even one. *)
Definition py_round (x : Q) : Z :=
  let f := Qfloor x in
  let r := x - inject_Z f in
  if negb (Qle_bool (1 # 2) r) then f
  else if negb (Qle_bool r (1 # 2)) then (f + 1)%Z
  else if Z.even f then f else (f + 1)%Z.
(** odd_size, distribution.py:107. *)
Definition odd_size (size : Q) : Z := (2 * py_round ((size - 1) / 2) + 1)%Z.
(** The loop while size > 4, distribution.py:105-109; None: more iterations than the fuel. *)
Fixpoint size_loop (fuel : nat) (size : Q) (sizes : list Z) : option (list Z) :=
  match fuel with
  | O => None
  | S fuel' =>
      if negb (Qle_bool size 4) then
        let size := size / (6 # 5) in
        let o := odd_size size in
        size_loop fuel' size (if Z.eqb o (last sizes 0%Z) then sizes else sizes ++ [o])
      else Some sizes
  end.
(** distribution.py:98-110, [n]: self.approx_size. *)
Definition fit_sizes (fuel n : nat) : option (list Z) :=
  if Nat.leb n 5 then Some [Z.of_nat n]
  else match size_loop fuel (inject_Z (Z.of_nat n)) [Z.of_nat n] with Some l => Some (rev l) | None => None end.

Local Open Scope R_scope.
(** distribution.py:118-124. [init_error]: norm of the gradient, None: NaN (max(tol, nan) is tol). *)
Definition tolerances (sizes : list Z) (tol : R) (init_error : option R) : list R :=
  match sizes with
  | [_] => [tol]
  | _ =>
      let t1 := tol in
      let t0 := match init_error with Some e => Rmax tol (e / 10) | None => tol end in
      let s0 := IZR (hd 0%Z sizes) in
      let s1 := IZR (last sizes 0%Z) in
      map (fun s => let t := (IZR s - s0) / (s1 - s0) in exp (ln t1 * t + ln t0 * (1 - t))) sizes
  end.

Definition norm (l : list R) : R := sqrt (fold_right Rplus 0 (map (fun x => x * x) l)).
Definition fmin (e : R) (l : list R) : R := fold_right Rmin e l.
(** [_initialize_params], distribution.py:216-231: errors and multipliers; the domain (a, b) is not None. np.min of an empty array is an
    error. *)
Definition init_params (a b : R) (errs : list R) (size : nat) (tol : option R) : res (list R * list R) :=
  match tol with
  | None => Err AssertionError
  | Some _ =>
      match errs with
      | e0 :: e1 :: es =>
          let e := fmin e1 es / 8 in
          match size with
          | O => Err IndexError
          | S k => Ok (e :: e1 :: es, - ln (1 / (b - a)) * e :: repeat 0 k)
          end
      | _ => Err ValueError
      end
  end.
(** [extend_size], distribution.py:234-249: the penalty and the new multipliers; _last_solved_multipliers is [mult]. An array longer than
    its place is refused. The slices of means and errors, the derivatives at the end points and the quadrature are left out. *)
Definition extend_size (reg : R) (new_size : nat) (mult : list R) : res (num * list R) :=
  let stab := if Req_EM_T (norm mult) 0 then inf_mul reg true else Fin (reg / norm mult) in
  if Nat.leb (length mult) new_size then Ok (stab, mult ++ repeat 0 (new_size - length mult)) else Err ValueError.

(** One call of the minimiser. *)
Record stage := mkStage { st_size : nat; st_tol : R; st_quad_tol : R; st_stab : num; st_last : list R; st_start : list R; st_result : list R }.
Section Fit.
(** scipy's minimize: result.x for a size, a tolerance, penalty, last multipliers and the first multipliers. *)
Variable minimise : nat -> R -> num -> list R -> list R -> list R.
(** norm of the gradient for the first multipliers, distribution.py:116; norm of the gradient can be NaN. *)
Variable init_error : list R -> option R.
Variables (a b reg : R).
(** The loop over sizes and tolerances, distribution.py:128-146. *)
Fixpoint stages (todo : list (Z * R)) (mult : list R) : res (list stage * list R) :=
  match todo with
  | [] => Ok ([], mult)
  | (s, t) :: todo' =>
      let size := Z.to_nat s in
      bind (extend_size reg size mult) (fun e =>
      let x := minimise size t (fst e) mult (snd e) in
      bind (stages todo' x) (fun r => Ok (mkStage size t (t / 16) (fst e) mult (snd e) x :: fst r, snd r)))
  end.
(** [estimate_density_minimize], distribution.py:85-157, up to the normalization: errors, stages, last multipliers; self.moment_errs are
    [errs], as many as there are moments. Out of fuel: an exception (does not happen, C208). *)
Definition fit (fuel : nat) (errs : list R) (tol : R) : res (list R * list stage * list R) :=
  match fit_sizes fuel (length errs) with
  | None => Err PyException
  | Some sizes =>
      let s0 := Z.to_nat (hd 0%Z sizes) in
      bind (init_params a b errs s0 (Some tol)) (fun p =>
      bind (extend_size reg s0 (snd p)) (fun e =>
      let tols := tolerances sizes tol (init_error (snd e)) in
      bind (stages (combine sizes tols) (snd e)) (fun r => Ok (fst p, fst r, snd r))))
  end.
(** [estimate_density], distribution.py:159-181: the first line passes the tolerance in place of the size. [root]: scipy's root. *)
Definition estimate_density (root : list R -> list R) (errs : list R) (tol : option R) : res (list R) :=
  bind (init_params a b errs 0 None) (fun p => Ok (root (snd p))).
End Fit.

(** [_calculate_functional], distribution.py:340-360, with a penalty that can be infinite. *)
Definition fun_value (n K : nat) (w : vec) (mom E : nat -> nat -> R) (mean err : vec) (coef : R) (stab : num) (lastm mult : list R) : num :=
  nadd (Fin (functional n K w mom E mean err coef (fun i => nth i mult 0)))
       (nmul (nmul (Fin (1 / 2)) stab) (Fin (fold_right Rplus 0 (map (fun p => (fst p - snd p) * (fst p - snd p)) (combine lastm mult))))).
