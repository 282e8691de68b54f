(** The synthetic simulation: mlmc/sim/synth_simulation.py. *)
From Verif Require Import Base.
From Coq Require Import Reals.

(** Shape and lengths of the lists of times and locations of a QuantitySpec, quantity_spec.py:6-12; names, units, times
    and locations themselves are not used by the simulation. *)
Record qfmt := mkQ { q_shape : list nat; q_times : nat; q_locs : nat }.
Definition prod (l : list nat) : nat := fold_right Nat.mul 1 l.

(** Class attributes SynthSimulation.n_nans and len_results, synth_simulation.py:13-16. *)
Record synth_st := mkSt { n_nans : nat; len_results : nat }.

(** [sample_fn], synth_simulation.py:37-46; floats are real numbers. *)
Definition sample_fn (x h : R) : R := (x + h * sqrt (1 / 10000 + Rabs x))%R.

Section Synth.
(** Values drawn from the distribution for a seed and a size, RandomState(seed) and distr.rvs; nan_fraction: class attribute. *)
Variable rvs : nat -> nat -> list R.
Variable nan_fraction : Q.

(** [generate_random_samples], synth_simulation.py:75-92: fine and coarse values are the same; None: the list [nan]. *)
Definition generate (s : synth_st) (seed size : nat) : synth_st * option (list R) :=
  let s1 := mkSt (n_nans s) (S (len_results s)) in
  let y := rvs seed size in
  let ratio := (inject_Z (Z.of_nat (n_nans s1)) / ((1 # 10000000000) + inject_Z (Z.of_nat (len_results s1))))%Q in
  if negb (Qle_bool nan_fraction ratio) then (mkSt (S (n_nans s1)) (len_results s1), None) else (s1, Some y).

(** Array of one quantity, lines 118-124: shape and values in the order of flatten; numpy drops the dimensions that
    follow an empty one. *)
Definition arr_shape (size : nat) (q : qfmt) : list nat :=
  if Nat.eqb (q_times q) 0 then [0] else if Nat.eqb (q_locs q) 0 then [q_times q; 0] else [q_times q; q_locs q; size].
Definition locations (zero : bool) (result : list R) (q : qfmt) : list R :=
  flat_map (fun i => if zero then result else map (fun x => x + INR i)%R result) (seq 0 (q_locs q)).
Definition quantity_values (zero : bool) (result : list R) (q : qfmt) : list R :=
  concat (repeat (locations zero result q) (q_times q)).
(** np.array(quantities), line 127: arrays of different shapes are refused (numpy 1.24; earlier versions make an array of
    objects). *)
Definition pack (zero : bool) (result : list R) (fmt : list qfmt) : res (list R) :=
  match fmt with
  | [] => Ok []
  | q0 :: _ =>
      if forallb (fun q => if list_eq_dec Nat.eq_dec (arr_shape (length result) q) (arr_shape (length result) q0) then true else false) fmt
      then Ok (flat_map (quantity_values zero result) fmt) else Err ValueError
  end.

(** [calculate], synth_simulation.py:94-131; [fine_step], [coarse_step]: the steps in the configuration of the level. *)
Definition calculate (s : synth_st) (fmt : list qfmt) (fine_step coarse_step : R) (seed : nat)
  : synth_st * res (list R * list R) :=
  match fmt with
  | [] => (s, Err IndexError)
  | q0 :: _ =>
      let '(s1, y) := generate s seed (prod (q_shape q0)) in
      match y with
      | None => (s1, Err PyException)
      | Some x =>
          let zero := if Req_EM_T coarse_step 0 then true else false in
          let fine := map (fun v => sample_fn v fine_step) x in
          let coarse := if zero then repeat 0%R (length fine) else map (fun v => sample_fn v coarse_step) x in
          (s1, bind (pack zero fine fmt) (fun f => bind (pack zero coarse fmt) (fun c => Ok (f, c))))
      end
  end.
End Synth.

(** [result_format], synth_simulation.py:136-145. *)
Definition result_format : list qfmt := [mkQ [2; 1] 3 2; mkQ [2; 1] 3 2].
