(** Covariance function of a correlated field: mlmc/random/correlated_field.py:270-315 and 390-412, over the real numbers.
    Arrays are functions of indices below their shape. *)
From Coq Require Import Reals.
From Verif Require Import Base.
Open Scope R_scope.

(** Sum of the first [n] entries. *)
Fixpoint rsum (n : nat) (f : nat -> R) : R :=
  match n with O => 0 | S n' => rsum n' f + f n' end.

(** Argument [corr_exp]: the two names or a number. *)
Inductive corr_exp := Gauss | Exponential | Number (x : R).

(** Attributes set by the constructor, correlated_field.py:288-308; mean, deviation and logarithm do not enter the covariance. *)
Record field := { f_dim : nat; f_exponent : R; f_tensor : nat -> nat -> R }.

(** np.finfo(float).eps *)
Definition float_eps : R := / 2 ^ 52.

(** [RandomFieldBase.__init__], correlated_field.py:270-315. *)
Definition make_field (e : corr_exp) (dim : nat) (corr_length : R) (aniso : option (nat -> nat -> R)) : res field :=
  let exponent := match e with Gauss => 2 | Exponential => 1 | Number x => x end in
  match aniso with
  | None => if Rlt_dec float_eps corr_length
            then Ok {| f_dim := dim; f_exponent := exponent; f_tensor := fun i j => (if (i =? j)%nat then 1 else 0) * (1 / (corr_length ^ 2)) |}
            else Err AssertionError
  | Some K => Ok {| f_dim := dim; f_exponent := exponent; f_tensor := K |}
  end.

(** Power of numpy for a base that is not negative and a positive exponent (a negative base gives nan, an exponent which is not
    positive gives inf or one at zero; not followed). *)
Definition power (x e : R) : R := if Req_EM_T x 0 then 0 else Rpower x e.

(** [cov_matrix], correlated_field.py:405-411: entry of row [i] and column [j]; [points i] are the coordinates of point i. *)
Definition cov_matrix (f : field) (points : nat -> nat -> R) (i j : nat) : R :=
  let diff := fun k => points j k - points i k in
  let dot := fun l => rsum (f_dim f) (fun k => diff k * f_tensor f k l) in
  let len_sqr := rsum (f_dim f) (fun l => dot l * diff l) in
  exp (- power len_sqr (f_exponent f / 2)).
