(** Grids and histogram bins of plots.Distribution, mlmc/plot/plots.py:158-168, 185-222, 251-289, over the real numbers. *)
From Coq Require Import Reals.
From Verif Require Import Base PlotModel.
Open Scope R_scope.

(** np.linspace(a, b, size). *)
Definition linspace (a b : R) (size : nat) : list R :=
  match size with
  | O => []
  | 1%nat => [a]
  | _ => map (fun i => a + INR i * ((b - a) / INR (size - 1))) (seq 0 size)
  end.
(** np.geomspace(a, b, size) for positive bounds; ValueError when a bound is zero. Negative or mixed bounds are not followed, the model raises. *)
Definition gspace (a b : R) (size : nat) : res (list R) :=
  if Rlt_dec 0 a then if Rlt_dec 0 b then Ok (map exp (linspace (ln a) (ln b) size)) else Err ValueError else Err ValueError.
(** [_grid], plots.py:278-289; [own] is self._domain, [domain] the argument; a missing domain: TypeError. *)
Definition grid (log_x : bool) (own : option (R * R)) (size : nat) (domain : option (R * R)) : res (list R) :=
  match (match domain with Some d => Some d | None => own end) with
  | None => Err TypeError
  | Some (a, b) => if log_x then gspace a b size else Ok (linspace a b size)
  end.
(** np.min and np.max of the samples; ValueError for no samples. *)
Definition sample_range (samples : list R) : res (R * R) :=
  match samples with [] => Err ValueError | x :: l => Ok (fold_left Rmin l x, fold_left Rmax l x) end.
(** int(0.5 * np.sqrt(N)), plots.py:167. *)
Definition n_edges (N : nat) : nat := Z.to_nat (Int_part (5 / 10 * sqrt (INR N))).
(** [add_raw_samples], plots.py:158-168: the new domain (adjust_domain, 251-259) and the edges of the bins given to hist. *)
Definition add_raw_samples (log_x : bool) (own : option (R * R)) (samples : list R) : res (option (R * R) * list R) :=
  bind (sample_range samples) (fun d =>
  let own := adjust_domain own d in
  bind (grid log_x own (n_edges (length samples)) None) (fun bins => Ok (own, bins))).
