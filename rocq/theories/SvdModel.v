(** SpatialCorrelatedField: points, decomposition and samples, mlmc/random/correlated_field.py:320-363 and 374-498. *)
From Verif Require Import Base.

Section Svd.
(** Points, values. *)
Context {P V : Type}.
Variables add mul : V -> V -> V.
(** [est pts m]: _eigen_value_estimate(m), lines 414-428; [rsvd pts m]: singular values returned by randomized_svd with m components for the
    covariance matrix of the points. [field pts m k]: the product of the factor of m terms for these points
    with the normal numbers of the k-th draw, one value for each point. *)
Variable est : list P -> nat -> Q.
Variable rsvd : list P -> nat -> list Q.
Variable field : list P -> nat -> nat -> list V.

(** mu or sigma: a number, or an array with one for each point. An argument may also be a list, which has no attribute shape. *)
Inductive coef := Scalar (v : V) | Array (l : list V).
Inductive arg := ANone | AScalar (v : V) | AArray (l : list V) | AList (l : list V).
(** [cov] and [factor]: the points of cov_mat and of _cov_l_factor, and its number of terms n_approx_terms. *)
Record rf := mkRf { points : option (list P); mu : coef; sigma : coef; cov : option (list P); factor : option (list P * nat); draws : nat }.
Definition new_rf (mu sigma : V) : rf := mkRf None (Scalar mu) (Scalar sigma) None None 0.

Definition to_array (old : coef) (a : arg) : coef :=
  match a with ANone => old | AScalar v => Scalar v | AArray l | AList l => Array l end.
(** [set_points], lines 320-342: the number of coordinates is not modelled. cov_mat and _cov_l_factor stay: _set_points, lines 386-388, is
    not called. *)
Definition set_points (s : rf) (pts : list P) (amu asigma : arg) : res rf :=
  let m := to_array (mu s) amu in
  bind (match m with Scalar _ => Ok tt | Array l => if Nat.eqb (length l) (length pts) then Ok tt else Err AssertionError end) (fun _ =>
  let sg := to_array (sigma s) asigma in
  bind (match sg with
        | Scalar _ => Ok tt
        | Array _ =>
            match asigma with
            | AArray l => if Nat.eqb (length l) (length pts) then Ok tt else Err AssertionError
            | AScalar _ => Err AssertionError
            | ANone | AList _ => Err AttributeError
            end
        end) (fun _ => Ok (mkRf (Some pts) m sg (cov s) (factor s) (draws s)))).
(** [cov_matrix], lines 390-412. *)
Definition cov_matrix (s : rf) : res rf :=
  match points s with
  | None => Err AssertionError
  | Some pts => Ok (mkRf (points s) (mu s) (sigma s) (Some pts) (factor s) (draws s))
  end.

(** int(np.ceil(1.5 * m)). *)
Definition grow (m : nat) : nat := (3 * m + 1) / 2.
Definition threshold (ev : list Q) : Q := (last ev 0 / hd 0 ev)%Q.
(** while threshold >= precision and m <= range[1], lines 474-478: [ev] the singular values found so far. None: [fuel] passes were not
    enough. *)
Fixpoint terms_loop (fuel : nat) (svd : nat -> list Q) (precision thr : Q) (m hi : nat) (ev : option (list Q)) : option (option (list Q)) :=
  if (Qle_bool precision thr && Nat.leb m hi)%bool then
    match fuel with
    | O => None
    | S fuel' => let ev' := svd m in terms_loop fuel' svd precision (threshold ev') (grow m) hi (Some ev')
    end
  else Some ev.
(** Number of terms, lines 454-481, for [n] = n_points; [lo], [hi]: n_terms_range, hi None: infinity. Comparisons of the estimates choose the first
    size; between them sp.optmize is missing. *)
Definition n_terms (n : nat) (pts : list P) (precision : Q) (lo : nat) (hi : option nat) : res nat :=
  if Nat.leb n lo then Ok n
  else
    let lo' := Nat.max 1 lo in
    let hi' := match hi with None => n | Some h => Nat.min n h end in
    bind (if negb (Qle_bool (est pts lo') precision) then Ok lo'
          else if negb (Qle_bool precision (est pts hi')) then Ok hi' else Err AttributeError) (fun m =>
    match terms_loop (S hi') (rsvd pts) precision (2 * precision)%Q (Nat.max m lo') hi' None with
    | Some (Some ev) => Ok (Nat.min (length ev) hi')
    | Some None => Err UnboundLocalError
    | None => Err PyException
    end).
(** [svd_dcmp], lines 430-488: the covariance matrix kept from before is used if there is one. *)
Definition svd_dcmp (s : rf) (precision : Q) (lo : nat) (hi : option nat) : res rf :=
  bind (match cov s with Some _ => Ok s | None => cov_matrix s end) (fun s =>
  match cov s, points s with
  | Some pts, Some cur => bind (n_terms (length cur) pts precision lo hi) (fun m => Ok (mkRf (points s) (mu s) (sigma s) None (Some (pts, m)) (draws s)))
  | _, _ => Err AssertionError
  end).
(** sigma * field + mu: numpy raises if the lengths differ, unless one is a single number. *)
Definition combine_coef (f : V -> V -> V) (c : coef) (l : list V) : res (list V) :=
  match c with
  | Scalar v => Ok (map (f v) l)
  | Array a =>
      if Nat.eqb (length a) (length l) then Ok (map (fun p => f (fst p) (snd p)) (combine a l))
      else match a, l with
           | [v], _ => Ok (map (f v) l)
           | _, [x] => Ok (map (fun v => f v x) a)
           | _, _ => Err ValueError
           end
  end.
(** [sample], lines 347-363 with log False, and [_sample], lines 490-498. *)
Definition sample (s : rf) : res (rf * list V) :=
  bind (match factor s with Some _ => Ok s | None => svd_dcmp s (1 # 100) 1 None end) (fun s =>
  match factor s with
  | None => Err AttributeError
  | Some (pts, m) =>
      bind (combine_coef mul (sigma s) (field pts m (draws s))) (fun x =>
      bind (combine_coef add (mu s) x) (fun y => Ok (mkRf (points s) (mu s) (sigma s) (cov s) (factor s) (S (draws s)), y)))
  end).
End Svd.
Arguments ANone {V}.
