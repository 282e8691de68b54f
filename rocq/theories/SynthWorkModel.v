(** The synthetic simulation with a workspace: SynthSimulationWorkspace, mlmc/sim/synth_simulation.py:147-296, and the estimates of the work. *)
From Coq Require Import Reals.
From Verif Require Import Base SynthModel.

(** The configuration file in the working directory: is the entry "distr" equal to "norm", and the entry "nan_fraction". *)
Record cfg := mkCfg { cf_norm : bool; cf_nan : Q }.
(** Class attributes n_nans, nan_fraction, len_results, synth_simulation.py:149-152. *)
Record work_st := mkWork { w_nans : nat; w_fraction : Q; w_len : nat }.
(** [__init__], synth_simulation.py:158-173: the class attributes are reset; [fraction]: config.get('nan_fraction', 0.0). *)
Definition work_init (fraction : Q) : work_st := mkWork 0 fraction 0.

Section Work.
(** Values of stats.norm(loc=1, scale=2) for a seed and a size. *)
Variable norm_rvs : nat -> nat -> list R.

(** [generate_random_samples], synth_simulation.py:219-241; other distributions: NotImplementedError (PyException here); None: the list [nan]. *)
Definition work_generate (s : work_st) (norm : bool) (seed size : nat) : work_st * res (option (list R)) :=
  let s1 := mkWork (w_nans s) (w_fraction s) (S (w_len s)) in
  if norm then
    let y := norm_rvs seed size in
    let ratio := (inject_Z (Z.of_nat (w_nans s1)) / ((1 # 10000000000) + inject_Z (Z.of_nat (w_len s1))))%Q in
    if negb (Qle_bool (w_fraction s1) ratio) then (mkWork (S (w_nans s1)) (w_fraction s1) (w_len s1), Ok None) else (s1, Ok (Some y))
  else (s1, Err PyException).
(** [calculate], synth_simulation.py:244-285 and [_read_config], 291-296; [file]: None if there is no such file (FileNotFoundError, PyException
    here). The entry "distr" is read after the fraction is set and before the shape of the first quantity. *)
Definition work_calculate (s : work_st) (file : option cfg) (fmt : list qfmt) (fine_step coarse_step : R) (seed : nat) : work_st * res (list R * list R) :=
  match file with
  | None => (s, Err PyException)
  | Some c =>
      let s := mkWork (w_nans s) (cf_nan c) (w_len s) in
      match fmt with
      | [] => (s, Err IndexError)
      | q0 :: _ =>
          match work_generate s (cf_norm c) seed (prod (q_shape q0)) with
          | (s1, Err e) => (s1, Err e)
          | (s1, Ok None) => (s1, Err PyException)
          | (s1, Ok (Some x)) =>
              let zero := if Req_EM_T coarse_step 0 then true else false in
              let fine := map (fun v => sample_fn v fine_step) x in
              let coarse := if zero then repeat 0%R (length fine) else map (fun v => sample_fn v coarse_step) x in
              (s1, bind (pack zero fine fmt) (fun f => bind (pack zero coarse fmt) (fun c => Ok (f, c))))
          end
      end
  end.
(** Calls one after another in one process. *)
Fixpoint work_run (s : work_st) (calls : list (option cfg * (R * R * nat))) (fmt : list qfmt) : list (res (list R * list R)) :=
  match calls with
  | [] => []
  | (file, (fs, cs, seed)) :: calls' => let '(s1, r) := work_calculate s file fmt fs cs seed in r :: work_run s1 calls' fmt
  end.
End Work.

(** [n_ops_estimate], synth_simulation.py:133-134 ([complexity]: config['complexity']) and 287-289 (complexity 2), for positive steps. *)
Definition n_ops_estimate (complexity step : R) : R := (Rpower (1 / step) complexity * ln (Rmax (1 / step) 2))%R.
(** Task size of [level_instance], synth_simulation.py:58-73 and 196-216. *)
Definition task_size (complexity fine_step : R) : R := n_ops_estimate complexity fine_step.
Definition work_task_size (fine_step : R) : R := (1 / 20000)%R.
