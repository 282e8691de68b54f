(** The plot of the regression of the variances, [BSplots.plot_var_regression], mlmc/plot/plots.py:593-618, 765-806, over the real numbers.
    Colours, scales and files of the figures are left out. *)
From Coq Require Import Reals.
From Verif Require Import Base BsPlotModel.
Open Scope R_scope.

(** A series: the number of its moment and its points. *)
Definition curve := (nat * list (R * R))%type.
(** [_scatter_level_moment_data] with given i_moments, plots.py:593-618. IndexError for a missing column, ZeroDivisionError for no moment. *)
Definition scatter_sel (sel : list nat) (values : array2) : res (list curve) :=
  if existsb (fun m => existsb (fun row => (length row <=? m)%nat) values) sel then Err IndexError else
  if (length sel =? 0)%nat then Err ZeroDivisionError else
  let step := 5 / 10 / INR (length sel) in
  Ok (map (fun q => (snd q, combine (map (fun l => INR l + step * INR (fst q)) (seq 0 (length values))) (map (fun row => nth (snd q) row 0) values)))
          (combine (seq 0 (length sel)) sel)).

(** The argument i_moments: None, an int or a list of non-negative numbers. *)
Inductive i_arg := INone | IInt (k : nat) | IList (l : list nat).
(** plots.py:774-778; [size] is moments_fn.size. *)
Definition selected (size : nat) (a : i_arg) : list nat :=
  match a with INone => seq 0 size | IInt k => seq 0 k | IList l => l end.

(** What is drawn: the points of the reference and of the estimate, the curves and the curves of the error. *)
Record reg_drawn := { ref_points : list curve; est_points : list curve; curves : list curve; err_curves : list curve }.
(** The curves of a moment, plots.py:789-795: X[1:] against reg[1:, m] and X against reg[:, m] / ref[:, m]. IndexError for a missing column,
    ValueError for different lengths. numpy would stretch a single row, this is not followed. *)
Definition reg_curve (n_moments n_levels : nat) (ref reg : array2) (m : nat) : res (curve * curve) :=
  if existsb (fun row => (length row <=? m)%nat) (reg ++ ref) then Err IndexError else
  let step := 5 / 10 / INR n_moments in
  let X := map (fun l => INR l + step * INR m) (seq 0 n_levels) in
  let Y := map (fun row => nth m row 0) reg in
  if negb (length reg =? n_levels)%nat || negb (length ref =? n_levels)%nat then Err ValueError else
  Ok ((m, combine (tl X) (tl Y)), (m, combine X (map (fun p => nth m (fst p) 0 / nth m (snd p) 0) (combine reg ref)))).
(** The loop, plots.py:789-795. *)
Fixpoint reg_curves (n_moments n_levels : nat) (ref reg : array2) (sel : list nat) : res (list (curve * curve)) :=
  match sel with
  | [] => Ok []
  | m :: sel => bind (reg_curve n_moments n_levels ref reg m) (fun c => bind (reg_curves n_moments n_levels ref reg sel) (fun cs => Ok (c :: cs)))
  end.
(** [plot_var_regression], plots.py:765-806; [est], [reg] are the results of the two calls of the estimator, [ref_level_var b] the reference.
    0.5 / self._n_moments raises ZeroDivisionError for no moment. *)
Definition plot_var_regression (b : bs) (size n_levels : nat) (a : i_arg) (est reg : array2) : res reg_drawn :=
  let sel := selected size a in
  bind (scatter_sel sel (ref_level_var b)) (fun rp =>
  bind (scatter_sel sel est) (fun ep =>
  if (n_moments b =? 0)%nat then Err ZeroDivisionError else
  bind (reg_curves (n_moments b) n_levels (ref_level_var b) reg sel) (fun cs =>
  Ok {| ref_points := rp; est_points := ep; curves := map fst cs; err_curves := map snd cs |}))).

(** np.allclose(x, 0): at most the default absolute tolerance. *)
Definition close0 (x : R) : bool := if Rle_dec (Rabs x) (1 / 10 ^ 8) then true else false.
(** raw_vars[:, m]. *)
Definition column (m : nat) (A : array2) : list R := map (fun row => nth m row 0) A.
(** The call [estimator.estimate_diff_vars_regression(moments_fn)] in plots.py:783. The first parameter of that method is n_created_samples
    (estimator.py:56), so the moments object is kept as the numbers of samples. [_moment_variance_regression] (estimator.py:95-134) gives the
    column back for fewer than three levels or variances close to zero. Otherwise it asks for [_variance_of_variance] (estimator.py:136-169),
    which raises TypeError: the moments object can neither be iterated (line 153) nor subtracted from numbers (line 149). The variances are those
    of the estimator's own moments (estimator.py:66-69), [raw] with [K] columns; assertion of line 92. *)
Definition regression_call (K : nat) (raw : array2) : res array2 :=
  if (3 <=? length raw)%nat && existsb (fun m => negb (forallb close0 (column m raw))) (seq 1 (K - 1)) then Err TypeError else
  if (K =? 0)%nat then Err IndexError else
  if forallb close0 (column 0 raw) then Ok raw else Err AssertionError.
(** [plot_var_regression] together with its calls of the estimator, plots.py:782-783; [raw] are the variances of the estimated moments, which
    are here the moments of the plot (estimator.py:246). *)
Definition plot_regression_of (b : bs) (size n_levels : nat) (a : i_arg) (raw : array2) : res reg_drawn :=
  bind (regression_call size raw) (fun reg => plot_var_regression b size n_levels a raw reg).
