(** Plots of the bootstrap, class plots.BSplots, mlmc/plot/plots.py:557-563, 593-618, 651-737, over the real numbers. The near
    copies in class Aux (plots.py:808-950) are not followed. Colours, titles and files of the figures are left out. *)
From Coq Require Import Reals.
From Verif Require Import Base.
Open Scope R_scope.

(** A two-dimensional array, row by row. *)
Definition array2 := list (list R).
(** The object, plots.py:557-563. The last two attributes are not set by the constructor; [None] when nobody has set them. *)
Record bs := { n_samples : list nat; bs_n_samples : list nat; n_moments : nat; ref_level_var : array2;
               var_variance : option (list R); level_var_variance : option array2 }.
(** [__init__], plots.py:558-562. *)
Definition init (n bs_n : list nat) (moments : nat) (ref : array2) : bs :=
  {| n_samples := n; bs_n_samples := bs_n; n_moments := moments; ref_level_var := ref; var_variance := None; level_var_variance := None |}.
(** Assignment of an attribute from outside. *)
Definition set_var (b : bs) (v : list R) : bs :=
  {| n_samples := n_samples b; bs_n_samples := bs_n_samples b; n_moments := n_moments b; ref_level_var := ref_level_var b;
     var_variance := Some v; level_var_variance := level_var_variance b |}.
Definition set_level_var (b : bs) (L : array2) : bs :=
  {| n_samples := n_samples b; bs_n_samples := bs_n_samples b; n_moments := n_moments b; ref_level_var := ref_level_var b;
     var_variance := var_variance b; level_var_variance := Some L |}.

(** [_scatter_level_moment_data] without i_moments, plots.py:593-618: for every moment its number (it gives the colour and the label)
    and its points. IndexError for a row with too few columns, ZeroDivisionError for no moment (0.5/n_moments). *)
Definition scatter (moments : nat) (values : array2) : res (list (nat * list (R * R))) :=
  if existsb (fun row => (length row <? moments)%nat) values then Err IndexError else
  let n := (moments - 1)%nat in
  if (n =? 0)%nat then Err ZeroDivisionError else
  let step := 5 / 10 / INR n in
  Ok (map (fun m => (S m, combine (map (fun l => INR l + step * INR m) (seq 0 (length values))) (map (fun row => nth (S m) row 0) values)))
          (seq 0 n)).

(** Label of a tick: the total, or a level with the numbers of its samples. *)
Inductive label := Total | Level (l nsbs ns : nat).
(** What is drawn: the points, the labels of the ticks 0, 1, ... and the limits of the vertical axis. *)
Record drawn := { points : list (nat * list (R * R)); labels : list label; y_lim : R * R }.
(** [plot_bs_variances] without y_lim, plots.py:651-679. np.min of nothing raises ValueError. *)
Definition plot_bs_variances (b : bs) (variances : array2) : res drawn :=
  match concat (map (@tl R) variances) with
  | [] => Err ValueError
  | x :: r =>
    bind (scatter (n_moments b) variances) (fun p =>
    let pairs := combine (bs_n_samples b) (n_samples b) in
    Ok {| points := p;
          labels := Total :: map (fun q => Level (S (fst q)) (fst (snd q)) (snd (snd q))) (combine (seq 0 (length pairs)) pairs);
          y_lim := (fold_left Rmin r x, fold_left Rmax r x) |})
  end.

(** [row[1:] /= d] in place. *)
Definition div_tail (row d : list R) : list R :=
  match row with [] => [] | x :: r => x :: map (fun p => fst p / snd p) (combine r d) end.
(** [rows[:, 1:] /= ds] in place, ValueError for different shapes; numpy would stretch a single row or column, this is not followed. Float
    arrays; a division by zero is an arbitrary real instead of inf or nan. *)
Definition div_tails (rows ds : array2) : res array2 :=
  if (length rows =? length ds)%nat && forallb (fun p => (length (tl (fst p)) =? length (snd p))%nat) (combine rows ds)
  then Ok (map (fun p => div_tail (fst p) (snd p)) (combine rows ds)) else Err ValueError.
(** np.concatenate((v[None, :], L), axis=0). *)
Definition stack (v : list R) (L : array2) : res array2 :=
  if forallb (fun row => (length row =? length v)%nat) L then Ok (v :: L) else Err ValueError.

(** [plot_bs_var_error_contributions], plots.py:681-692. [self._bs_level_var_variance[:, :]] is a view, so the division changes the
    attribute. The result and the object afterwards. *)
Definition error_contributions (b : bs) : res drawn * bs :=
  match var_variance b with
  | None => (Err AttributeError, b)
  | Some v =>
  match level_var_variance b with
  | None => (Err AttributeError, b)
  | Some L =>
  match div_tails L (map (fun p => repeat (INR (snd p) ^ 2) (length (tl (fst p)))) (combine L (bs_n_samples b))) with
  | Err e => (Err e, b)
  | Ok L' => let b' := set_level_var b L' in (bind (stack v L') (plot_bs_variances b'), b')
  end end end.

(** l_var_var_scale, plots.py:700. *)
Definition level_scale (b : bs) : array2 :=
  map (fun p => map (fun V => V ^ 2 * 2 / (INR (snd p) - 1)) (tl (fst p))) (combine (ref_level_var b) (bs_n_samples b)).
(** total_var_var_scale, plots.py:701; [k] columns. *)
Definition total_scale (b : bs) (k : nat) : list R :=
  map (fun m => fold_left Rplus (map (fun p => nth m (fst p) 0 / INR (snd p) ^ 2) (combine (level_scale b) (bs_n_samples b))) 0) (seq 0 k).
(** [plot_bs_level_variances_error], plots.py:694-713. Both attributes are changed through views. *)
Definition level_variances_error (b : bs) : res drawn * bs :=
  if negb (length (ref_level_var b) =? length (bs_n_samples b))%nat then (Err ValueError, b) else
  match var_variance b with
  | None => (Err AttributeError, b)
  | Some v =>
  match div_tails [v] [total_scale b (length (hd [] (level_scale b)))] with
  | Err e => (Err e, b)
  | Ok V' => let v' := hd [] V' in let b1 := set_var b v' in
  match level_var_variance b with
  | None => (Err AttributeError, b1)
  | Some L =>
  match div_tails L (level_scale b) with
  | Err e => (Err e, b1)
  | Ok L' => let b2 := set_level_var b1 L' in (bind (stack v' L') (plot_bs_variances b2), b2)
  end end end end.

(** [plot_bs_var_log_var], plots.py:715-727: nothing is changed in place. ValueError for different lengths. *)
Definition var_log_var (b : bs) : res drawn * bs :=
  match level_var_variance b with
  | None => (Err AttributeError, b)
  | Some L =>
  if negb (length L =? length (bs_n_samples b))%nat then (Err ValueError, b) else
  match var_variance b with
  | None => (Err AttributeError, b)
  | Some v => (bind (stack v (map (fun p => map (fun V => sqrt (V * INR (snd p))) (fst p)) (combine L (bs_n_samples b)))) (plot_bs_variances b), b)
  end end.
(** The plot of the variances in [Estimate.plot_bs_var_log], estimator.py:230-246: one row for every level, no row for the total. *)
Definition plot_bs_var_log (n bs_n : list nat) (moments : nat) (l_vars mean_bs_l_vars : array2) : res drawn :=
  plot_bs_variances (init n bs_n moments l_vars) mean_bs_l_vars.
