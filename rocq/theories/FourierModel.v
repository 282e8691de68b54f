(** FourierSpatialCorrelatedField.random_field, mlmc/random/correlated_field.py:547-745, over the real numbers. *)
From Coq Require Import Reals.
From Verif Require Import Base.
Open Scope R_scope.

Section Fourier.
(** [fails t c]: evaluation of chunk [c] in attempt [t] runs out of memory. *)
Variable fails : nat -> nat -> bool.
(** mode_no, the modes k[d] of each dimension and the two rows of normal_distr_values. *)
Variable mode_no : nat.
Variable k : list (list R).
Variables z0 z1 : list R.
(** Points, one number for each dimension. *)
Variable points : list (list R).

Fixpoint zip (f : R -> R -> R) (a b : list R) : list R :=
  match a, b with x :: a', y :: b' => f x y :: zip f a' b' | _, _ => [] end.
Definition slice (l : list R) (a e : nat) : list R := firstn (e - a) (skipn a l).
(** Phases of a chunk at a point, lines 725-731; dimension 3 does not get here. *)
Definition phase (p : list R) (a e : nat) : list R :=
  match k, p with
  | [k0], [x] => map (fun q => q * x) (slice k0 a e)
  | [k0; k1], [x; y] => zip Rplus (map (fun q => q * x) (slice k0 a e)) (map (fun q => q * y) (slice k1 a e))
  | _, _ => []
  end.
(** The sum of a chunk at a point, lines 733-736. *)
Definition chunk_sum (p : list R) (a e : nat) : R :=
  let ph := phase p a e in
  fold_right Rplus 0
    (zip Rplus (zip (fun z q => z * cos (2 * PI * q)) (slice z0 a e) ph)
               (zip (fun z q => z * sin (2 * PI * q)) (slice z1 a e) ph)).
(** for chunk in range(chunk_no), lines 716-736: summed_modes and whether all chunks were done. *)
Fixpoint chunks (t chunk_len c n : nat) (acc : list R) : bool * list R :=
  match n with
  | O => (true, acc)
  | S n' => if fails t c then (false, acc)
            else chunks t chunk_len (S c) n' (zip Rplus acc (map (fun p => chunk_sum p (c * chunk_len) (S c * chunk_len)) points))
  end.
(** int(np.ceil(mode_no / chunk_no)), line 714. *)
Definition chunk_length (chunk_no : nat) : nat := ((mode_no + (chunk_no - 1)) / chunk_no)%nat.
(** while True, lines 712-743; None: [fuel] attempts were not enough. *)
Fixpoint attempts (fuel t chunk_no exp : nat) (acc : list R) : option (list R) :=
  match fuel with
  | O => None
  | S fuel' =>
      match chunks t (chunk_length chunk_no) 0 chunk_no acc with
      | (true, acc') => Some acc'
      | (false, acc') => attempts fuel' (S t) (chunk_no + 2 ^ exp) (S exp) acc'
      end
  end.
(** [random_field], lines 676-745, with the random numbers drawn as arguments. [gauss]: correlation_exponent is 2; gau and
    exp, lines 609-653, raise in dimension 3, and exp in dimension 1 uses an attribute that is not there. *)
Definition random_field (fuel : nat) (gauss : bool) : res (option (list R)) :=
  match length k, gauss with
  | 1%nat, true | 2%nat, _ =>
      Ok (option_map (map (fun s => sqrt (1 / INR mode_no) * s)) (attempts fuel 0 1 0 (map (fun _ => 0) points)))
  | 1%nat, false => Err AttributeError
  | _, _ => Err PyException
  end.
End Fourier.
