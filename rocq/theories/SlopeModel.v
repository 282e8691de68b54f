(** Detection of the change of slope of the eigenvalues: mlmc/tool/simple_distribution.py:537-609. Floats are real numbers. *)
From Verif Require Import Base.
From Coq Require Import Reals.
Local Open Scope R_scope.

Definition rsum (l : list R) : R := fold_right Rplus 0 l.
(** A fit: slope and value at zero, np.poly1d(fit). *)
Definition line (f : R * R) (x : R) : R := fst f * x + snd f.
(** The points (x, y) of a window that starts at index [a], np.arange(a, b) and values[a:b]. *)
Definition points (a : nat) (Y : list R) : list (R * R) := combine (map INR (seq a (length Y))) Y.
Definition residual (f : R * R) (P : list (R * R)) : R := rsum (map (fun p => (snd p - line f (fst p))²) P).
(** np.polyfit(X, Y, deg=1): solution of the normal equations; line 547. *)
Definition polyfit (P : list (R * R)) : R * R :=
  let n := INR (length P) in
  let sx := rsum (map fst P) in
  let sy := rsum (map snd P) in
  let sxx := rsum (map (fun p => fst p * fst p) P) in
  let sxy := rsum (map (fun p => fst p * snd p) P) in
  let s := (n * sxy - sx * sy) / (n * sxx - sx * sx) in
  (s, (sy - s * sx) / n).

(** values[a:b]. *)
Definition window (v : list R) (a b : nat) : list R := firstn (b - a) (skipn a v).
Definition fit_of (v : list R) (a b : nat) : R * R := polyfit (points a (window v a b)).
Definition fit_value (v : list R) (a b : nat) : R :=
  residual (fit_of v a b) (points a (window v a b)) / (INR (b - a)) ^ 2.

(** Body of the loops of [best_fit_all], lines 540-554; the state is the best fit with its value, None stands for
    best_fit = None and best_fit_value = inf. *)
Definition fit_step (v : list R) (best : option (nat * nat * (R * R) * R)) (ab : Z * Z) : option (nat * nat * (R * R) * R) :=
  let (a, b) := ab in
  if ((0 <=? a) && (a + 2 <? b) && (b <? Z.of_nat (length v)))%Z then
    let (a, b) := (Z.to_nat a, Z.to_nat b) in
    let new := Some (a, b, fit_of v a b, fit_value v a b) in
    match best with
    | None => new
    | Some (_, w) => if Rlt_dec (fit_value v a b) w then new else best
    end
  else best.
(** [best_fit_all], lines 537-556. *)
Definition best_fit_all (v : list R) (range_a range_b : list Z) : option (nat * nat * (R * R)) :=
  option_map fst (fold_left (fit_step v) (list_prod range_a range_b) None).

(** Means of neighbouring pairs, values[:end].reshape((-1, 2)); a last value without partner is left out. *)
Fixpoint pair_means (v : list R) : list R :=
  match v with
  | x :: y :: v' => (x + y) / 2 :: pair_means v'
  | _ => []
  end.
(** [best_p1_fit], lines 559-579; the recursion halves the list, the fuel is its length. *)
Fixpoint best_p1 (fuel : nat) (v : list R) : res (option (nat * nat * (R * R))) :=
  if (12 <? length v)%nat then
    match fuel with
    | 0%nat => Err PyException
    | S fuel' =>
        bind (best_p1 fuel' (pair_means v)) (fun r =>
          match r with
          | None => Err TypeError
          | Some (a, b, _) =>
              let (a, b) := ((2 * Z.of_nat a)%Z, (2 * Z.of_nat b)%Z) in
              Ok (best_fit_all v [a - 1; a; a + 1]%Z [b - 1; b; b + 1]%Z)
          end)
    end
  else let r := map Z.of_nat (seq 0 (length v)) in Ok (best_fit_all v r r).
Definition best_p1_fit (v : list R) : res (option (nat * nat * (R * R))) := best_p1 (length v) v.

(** np.argmax(values > 0): 0 when there is none. *)
Fixpoint first_positive (v : list R) : option nat :=
  match v with
  | [] => None
  | x :: v' => if Rlt_dec 0 x then Some 0%nat else option_map S (first_positive v')
  end.
Definition argmax_positive (v : list R) : nat := match first_positive v with Some i => i | None => 0%nat end.

(** [detect_treshold_slope_change] with log=True, lines 583-609, for an array of floats. np.argmax of an empty array raises
    ValueError. Outside of the model: a value that is not positive at or after the first positive one (or no positive value
    at all), whose logarithm is NaN or infinite; this is the last branch, no theorem speaks of it. The function is meant for
    increasing sequences. *)
Definition detect (values : list R) : res (nat * list R) :=
  let i0 := argmax_positive values in
  let head := firstn i0 values in
  let tail := skipn i0 values in
  if match values with [] => true | _ => false end then Err ValueError
  else if forallb (fun x => if Rlt_dec 0 x then true else false) tail then
    let logs := map ln tail in
    bind (best_p1_fit logs) (fun r =>
      match r with
      | None => Err TypeError
      | Some (a, _, fit) =>
          let t := (a + i0)%nat in
          let left := map (fun i => line fit (INR i - INR i0)) (seq 0 t) in
          Ok (t, map exp (left ++ skipn t (head ++ logs)))
      end)
  else Err PyException.
