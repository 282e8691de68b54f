(** Mappings of parameters of fields, mlmc/random/correlated_field.py:12-41, over the real numbers. *)
From Coq Require Import Reals.
From Verif Require Import Base.
Open Scope R_scope.

(** [positive_to_range], correlated_field.py:34-41; division by zero as for python numbers (numpy gives inf or nan). *)
Definition positive_to_range (e a b : R) : res R :=
  if Req_EM_T (b + (b - a) * e) 0 then Err ZeroDivisionError
  else Ok (b * (1 - (b - a) / (b + (b - a) * e))).

(** 1e-10 and 1e-15. *)
Definition eps10 : R := / IZR (10 ^ 10).
Definition eps15 : R := / IZR (10 ^ 15).
(** [kozeny_carman], correlated_field.py:12-31, for one number; porosity is positive when the power is taken. *)
Definition kozeny_carman (porosity m factor viscosity : R) : res R :=
  if Rlt_dec eps10 viscosity then
    let p := Rmax (Rmin porosity (1 - eps10)) eps10 in
    let cond := factor * Rpower p (2 + m) / (1 - p) ^ 2 / viscosity in
    Ok (Rmax cond eps15)
  else Err AssertionError.
