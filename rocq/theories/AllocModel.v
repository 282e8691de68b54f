(** Numbers of samples and level parameters. Models mlmc/estimator.py:366-450 and mlmc/sampler.py:82-90. *)
From Coq Require Export Reals.
From Verif Require Import Base.
Local Open Scope R_scope.

(** np.round (to even at halves) and .astype(int) (towards zero) of a real number; float rounding is left out. *)
Definition half_even (x : R) : Z :=
  let f := Int_part x in let d := x - IZR f in
  if Rlt_dec d (/ 2) then f else if Rlt_dec (/ 2) d then (f + 1)%Z else if Z.even f then f else (f + 1)%Z.
Definition to_int (x : R) : Z := if Rlt_dec x 0 then (- Int_part (- x))%Z else Int_part x.

Definition vsum (l : list R) : R := fold_right Rplus 0 l.
Definition vmax (l : list R) : res R := match l with [] => Err ValueError | x :: l => Ok (fold_left Rmax l x) end.
Fixpoint all_ok {A} (l : list (res A)) : res (list A) :=
  match l with [] => Ok [] | x :: l => bind x (fun a => bind (all_ok l) (fun r => Ok (a :: r))) end.
Definition entry (vars : list (list R)) (l m : nat) : R := nth m (nth l vars []) 0.

(** estimator.py:366-385 [estimate_n_samples_for_target_variance]; vars has one row per level, all of the same
    length M. n_ops has one entry per level (numpy would also accept a single number); divisions by zero, where
    numpy goes on with infinities, are outside of the model's range of faithfulness. *)
Definition estimate_n (target : R) (vars : list (list R)) (n_ops : list R) (n_levels : nat) : res (list Z) :=
  let L := length vars in
  if negb (Nat.eqb (length n_ops) L) then Err ValueError else
  let ops l := nth l n_ops 0 in
  let sqrt_var_n m l := sqrt (entry vars l m * ops l) in
  let total m := vsum (map (sqrt_var_n m) (seq 0 L)) in
  let estimate l m := to_int (IZR (half_even (sqrt_var_n m l / ops l * total m / target))) in
  let safe l m := Rmax (Rmin (IZR (estimate l m)) (entry vars l m * INR n_levels / target)) 2 in
  bind (all_ok (map (fun l => vmax (map (safe l) (seq 0 (length (nth l vars []))))) (seq 0 L)))
       (fun r => Ok (map to_int r)).

(** float ** float. A negative base with a fractional exponent gives a complex number in python; left out (raises). *)
Definition py_pow (a p : R) : res R :=
  if Rlt_dec 0 a then Ok (Rpower a p)
  else if Req_EM_T p 0 then Ok 1
  else if Req_EM_T a 0 then Ok 0
  else if Req_EM_T p 1 then Ok a else Err TypeError.
(** estimator.py:388-398 [calc_level_params]; 409-426 [determine_level_parameters] has the same body. *)
Definition level_param (i n : nat) : R := if Nat.eqb n 1 then 1 else INR i / INR (n - 1).
Definition level_params (step_range : R * R) (n_levels : nat) : res (list (list R)) :=
  if Rlt_dec (snd step_range) (fst step_range) then
    all_ok (map (fun i => bind (py_pow (fst step_range) (1 - level_param i n_levels)) (fun a =>
                          bind (py_pow (snd step_range) (level_param i n_levels)) (fun b => Ok [a * b])))
                (seq 0 n_levels))
  else Err AssertionError.

(** np.linspace(a, b, n). *)
Definition linspace (a b : R) (n : nat) : list R :=
  map (fun i => if (Nat.ltb 1 n && Nat.eqb i (n - 1))%bool then b else a + INR i * ((b - a) / INR (n - 1))) (seq 0 n).
Definition log2 (x : R) : R := ln x / ln 2.
Definition exp2 (x : R) : R := Rpower 2 x.
(** sampler.py:82-90 [sample_range]. The logarithm of 0 and of negative numbers (converted to unspecified integers
    by the code) raises in the model. *)
Definition sample_range (n0 nL : R) (n_levels : nat) : res (list Z) :=
  if Rlt_dec 0 n0 then if Rlt_dec 0 nL then
    Ok (map (fun y => to_int (IZR (half_even (exp2 y)))) (linspace (log2 n0) (log2 nL) n_levels))
  else Err ValueError else Err ValueError.
(** estimator.py:429-450 [determine_n_samples]. *)
Definition determine_n_samples (n_levels : nat) (n_samples : option (list R)) : res (list R) :=
  let ns := match n_samples with None => [100; 3] | Some l => l end in
  let ns := match ns with [n] => [n; 3] | _ => ns end in
  match ns with
  | [n0; nL] => bind (sample_range n0 nL n_levels) (fun l => Ok (map IZR l))
  | _ => Ok ns
  end.
(** estimator.py:401-406 [determine_sample_vec]. *)
Definition determine_sample_vec {A} (collected : list A) (n_levels : nat) (v : option (list A)) : list A :=
  let v := match v with None => collected | Some v => v end in
  if Nat.ltb n_levels (length v) then firstn n_levels v else v.
