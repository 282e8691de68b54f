(** Data of the plots: mlmc/plot/plots.py. Floats are real numbers; the axes of matplotlib are represented by the list of
    what has been drawn. *)
From Coq Require Import Reals.
From Verif Require Import Base.
Open Scope R_scope.

(** ** Choice of the moments *)
Section Rounding.
(** [np.round] followed by [astype(int)]. *)
Variable rnd : R -> Z.

(** [np.geomspace(1, stop, num)] for a positive [stop], as called in plots.py:53. *)
Definition geomspace (stop : R) (num : nat) : list R :=
  match num with
  | O => []
  | 1%nat => [1]
  | _ => map (fun i => Rpower stop (INR i / INR (num - 1))) (seq 0 num)
  end.

(** The loop of plots.py:55-56; [p] is the previous entry of the array, already increased. *)
Fixpoint bump (p : Z) (l : list Z) : list Z :=
  match l with
  | [] => []
  | x :: l' => let y := Z.max x (p + 1) in y :: bump y l'
  end.

(** [moments_subset], plots.py:40-57. geomspace raises for the bound 0, that is one moment; with no moments at all (bound -1)
    the code is not followed, the model raises too. *)
Definition moments_subset (n_moments : nat) (moments : option nat) : res (list Z) :=
  match moments with
  | None => Ok (map Z.of_nat (seq 1 (n_moments - 1)))
  | Some k =>
      if (n_moments <=? 1)%nat then Err ValueError
      else match map rnd (geomspace (INR (n_moments - 1)) k) with
           | [] => Ok []
           | x :: l => Ok (x :: bump x l)
           end
  end.

(** ** Tables of moments *)
(** Column of an array; an index outside of the array raises. The indices are never negative here. *)
Definition at_index (row : list R) (i : Z) : res R :=
  match nth_error row (Z.to_nat i) with Some x => Ok x | None => Err IndexError end.
Fixpoint mapr {A B} (f : A -> res B) (l : list A) : res (list B) :=
  match l with
  | [] => Ok []
  | x :: l' => bind (f x) (fun y => bind (mapr f l') (fun ys => Ok (y :: ys)))
  end.
(** [level_vars[:, subset]], plots.py:433, 452, 525. *)
Definition columns (table : list (list R)) (subset : list Z) : res (list (list R)) :=
  mapr (fun row => mapr (at_index row) subset) table.

Definition rsum (l : list R) : R := fold_right Rplus 0 l.
(** [np.mean]. *)
Definition mean (l : list R) : R := rsum l / INR (length l).
Definition zip_with {A B C} (f : A -> B -> C) (a : list A) (b : list B) : list C := map (fun p => f (fst p) (snd p)) (combine a b).

(** ** VarianceBreakdown *)
(** One call of [ax.bar]: positions, heights, bottoms and the two sides of the error bars; plots.py:460-461. *)
Record bar := { b_x : list R; b_h : list R; b_bottom : list R; b_err : option (list R * list R) }.

(** Attributes of VarianceBreakdown, plots.py:405-413; labels: None is 'avg'. *)
Record breakdown := {
  bd_n : option nat; bd_subset : list Z; bd_shift : R; bd_X : list (list R); bd_labels : list (option Z); bd_bars : list bar }.
Definition bd_init : breakdown := {| bd_n := None; bd_subset := []; bd_shift := 0; bd_X := []; bd_labels := []; bd_bars := [] |}.

Definition width : R := 1 / 10.

(** Heights of the bars of one level, plots.py:447-449 and 452-454. Zero samples on a level would give infinities in numpy
    and zero here; the theorems ask for positive numbers. *)
Definition heights (vars : list R) (n : R) : list R := map (fun v => v / n) (mean vars :: vars).
(** Error bars, plots.py:455-458. *)
Definition error_bars (Y ref_Y : list R) : list R * list R :=
  let diff := zip_with Rminus ref_Y Y in (map (fun d => - Rmin d 0) diff, map (fun d => Rmax d 0) diff).

(** Loop over the levels, plots.py:446-472: from the last level to the first; [rows] are the rows of the remaining levels in
    this order: variances, number of samples and reference variances. *)
Fixpoint stack (X sum_Y : list R) (rows : list (list R * R * option (list R))) : list bar :=
  match rows with
  | [] => []
  | (vars, n, ref) :: rest =>
      let Y := heights vars n in
      let err := match ref with None => None | Some rv => Some (error_bars Y (heights rv n)) end in
      {| b_x := X; b_h := Y; b_bottom := sum_Y; b_err := err |} :: stack X (zip_with Rplus sum_Y Y) rest
  end.

Definition positions (shift : R) (m : nat) : list R := map (fun i => shift + (width * (11 / 10)) * INR i) (seq 0 m).

(** [add_variances], plots.py:415-472; the tables are lists of rows, [n_moments] is their width; annotations are left out. A
    reference table with too few rows raises in the loop after the bars of some levels; the model draws none. *)
Definition add_variances (kind : option nat) (n_moments : nat) (level_vars : list (list R)) (n_samples : list R)
    (ref : option (list (list R))) (s : breakdown) : breakdown * res unit :=
  if negb (length n_samples =? length level_vars)%nat then (s, Err AssertionError)
  else
    let chosen := match bd_n s with
                  | None => (Some n_moments, moments_subset n_moments kind)
                  | Some n => (Some n, if (n =? n_moments)%nat then Ok (bd_subset s) else Err AssertionError)
                  end in
    match snd chosen with
    | Err e => ({| bd_n := fst chosen; bd_subset := bd_subset s; bd_shift := bd_shift s; bd_X := bd_X s; bd_labels := bd_labels s; bd_bars := bd_bars s |}, Err e)
    | Ok sub =>
        let s1 := {| bd_n := fst chosen; bd_subset := sub; bd_shift := bd_shift s; bd_X := bd_X s; bd_labels := bd_labels s; bd_bars := bd_bars s |} in
        match columns level_vars sub with
        | Err e => (s1, Err e)
        | Ok vars =>
            let X := positions (bd_shift s) (length sub + 1) in
            let s2 := {| bd_n := fst chosen; bd_subset := sub; bd_shift := last X 0 + 3 * width; bd_X := bd_X s ++ [X];
                         bd_labels := bd_labels s ++ None :: map Some sub; bd_bars := bd_bars s |} in
            let refs := match ref with
                        | None => Ok (map (fun _ => None) vars)
                        | Some t => if (length t <? length vars)%nat then Err IndexError
                                    else bind (columns (firstn (length vars) t) sub) (fun r => Ok (map Some r))
                        end in
            match refs with
            | Err e => (s2, Err e)
            | Ok rs =>
                let rows := rev (combine (combine vars n_samples) rs) in
                ({| bd_n := bd_n s2; bd_subset := sub; bd_shift := bd_shift s2; bd_X := bd_X s2; bd_labels := bd_labels s2;
                    bd_bars := bd_bars s ++ stack X (repeat 0 (length sub + 1)) rows |}, Ok tt)
            end
        end
    end.

(** ** Variance *)
(** Attributes of Variance, plots.py:505-509. *)
Record varplot := { vp_n : option nat; vp_subset : list Z; vp_min : R; vp_max : R; vp_data : dict (list R * list R) }.
Definition vp_init : varplot := {| vp_n := None; vp_subset := []; vp_min := powerRZ 10 300; vp_max := 0; vp_data := [] |}.

(** Loop of plots.py:528-532 from moment number [m] on; [cols] are the rows of the transposed table. *)
Fixpoint collect (m : nat) (steps : list R) (cols : list (list R)) (d : dict (list R * list R)) : dict (list R * list R) :=
  match cols with
  | [] => d
  | vars :: rest =>
      let old := match dget d m with Some p => p | None => ([], []) end in
      collect (S m) steps rest (dset d m (fst old ++ steps, snd old ++ vars))
  end.

Definition column (table : list (list R)) (j : nat) : list R := map (fun row => nth j row 0) table.

(** [add_level_variances], plots.py:511-532; [steps] is not empty, otherwise [steps[-1]] raises. *)
Definition add_level_variances (kind : option nat) (n_moments : nat) (steps : list R) (variances : list (list R))
    (s : varplot) : varplot * res unit :=
  let chosen := match vp_n s with
                | None => (Some n_moments, moments_subset n_moments kind)
                | Some n => (Some n, if (n =? n_moments)%nat then Ok (vp_subset s) else Err AssertionError)
                end in
  match snd chosen with
  | Err e => ({| vp_n := fst chosen; vp_subset := vp_subset s; vp_min := vp_min s; vp_max := vp_max s; vp_data := vp_data s |}, Err e)
  | Ok sub =>
      match columns variances sub, steps with
      | Err e, _ => ({| vp_n := fst chosen; vp_subset := sub; vp_min := vp_min s; vp_max := vp_max s; vp_data := vp_data s |}, Err e)
      | Ok _, [] => ({| vp_n := fst chosen; vp_subset := sub; vp_min := vp_min s; vp_max := vp_max s; vp_data := vp_data s |}, Err IndexError)
      | Ok vars, first :: _ =>
          ({| vp_n := fst chosen; vp_subset := sub; vp_min := Rmin (vp_min s) (last steps 0); vp_max := Rmax (vp_max s) first;
              vp_data := collect 0 steps (map (column vars) (seq 0 (length sub))) (vp_data s) |}, Ok tt)
      end
  end.
End Rounding.

(** [np.unique(X, return_index=True)] of plots.py:76: a stable sort of the values with their indices, of equal values the
    first is kept. *)
Fixpoint insert (x : R) (i : nat) (l : list (R * nat)) : list (R * nat) :=
  match l with
  | [] => [(x, i)]
  | (y, j) :: l' => if Rlt_dec x y then (x, i) :: l
                    else if Req_EM_T x y then l
                    else (y, j) :: insert x i l'
  end.
Fixpoint unique_from (i : nat) (X : list R) (acc : list (R * nat)) : list (R * nat) :=
  match X with
  | [] => acc
  | x :: X' => unique_from (S i) X' (insert x i acc)
  end.
Definition unique (X : list R) : list (R * nat) := unique_from 0 X [].

(** [make_monotone], plots.py:74-78. *)
Definition make_monotone (X Y : list R) : res (list R * list R) :=
  let u := unique X in
  bind (mapr (fun p => match nth_error Y (snd p) with Some y => Ok y | None => Err IndexError end) u)
       (fun sY => Ok (map fst u, sY)).

(** Data of the curve drawn by [Variance.show] for one moment, plots.py:545-549: without the smallest step. *)
Definition curve (X Y : list R) : res (list R * list R) :=
  bind (make_monotone X Y) (fun p => Ok (tl (fst p), tl (snd p))).

(** ** Eigenvalues *)
(** First position where the predicate holds, 0 if nowhere: [np.argmax] of an array of booleans. *)
Fixpoint argmax_from (i : nat) (l : list bool) : option nat :=
  match l with
  | [] => None
  | b :: l' => if b then Some i else argmax_from (S i) l'
  end.
Definition argmax (l : list bool) : nat := match argmax_from 0 l with Some i => i | None => 0 end.
Definition positive (x : R) : bool := if Rlt_dec 0 x then true else false.

(** Values drawn by [Eigenvalues.add_values] in the logarithmic scale without errors and without a threshold for decreasing
    values, plots.py:311-343. Increasing values without a threshold raise a TypeError in plots.py:324. *)
Definition add_values (log_y : bool) (values : list R) : res (list R) :=
  match values with
  | [] => Err IndexError
  | v :: _ =>
      if Rlt_dec v (last values 0) then Err TypeError
      else if log_y then
        let i_last_positive := (length values - argmax (map positive (rev values)))%nat in
        Ok (firstn (i_last_positive + 1) values)
      else Ok values
  end.

(** ** Common domain *)
(** [Distribution.adjust_domain] and [Eigenvalues.adjust_ylim], plots.py:251-259, 358-366. *)
Definition adjust_domain (old : option (R * R)) (d : R * R) : option (R * R) :=
  match old with
  | None => Some d
  | Some o => Some (Rmin (fst o) (fst d), Rmax (snd o) (snd d))
  end.

(** ** File names *)
(** [_show_and_save], plots.py:60-71: name of the file written, None when the figure is shown. *)
Definition last3 (f : pystr) : pystr := skipn (length f - 3) f.
Definition save_name (file : option pystr) (title : pystr) : option pystr :=
  match file with
  | None => None
  | Some f =>
      let f := match f with [] => title | _ => f end in
      Some (if pystr_eq_dec (last3 f) (str "pdf") then f else f ++ str ".pdf")
  end.
