(** The frame of samples of Estimate.fine_coarse_violinplot, mlmc/estimator.py:249-273. *)
From Verif Require Import Base.

(** A numpy array: its shape and its elements in C order. *)
Record nd := mkNd { nd_shape : list nat; nd_data : list Q }.
(** np.squeeze: the axes of length one are removed. *)
Definition squeeze (a : nd) : nd := mkNd (filter (fun n => negb (Nat.eqb n 1)) (nd_shape a)) (nd_data a).
(** a[:, j]; IndexError for less than two axes or j out of the bounds of the second axis. *)
Definition col (a : nd) (j : nat) : res nd :=
  match nd_shape a with
  | n :: w :: rest =>
      let p := fold_right Nat.mul 1 rest in
      if Nat.ltb j w then Ok (mkNd (n :: rest) (flat_map (fun i => firstn p (skipn ((i * w + j) * p) (nd_data a))) (seq 0 n))) else Err IndexError
  | _ => Err IndexError
  end.
(** One row of the frame: sample, type (true: 'fine', false: 'coarse') and the label "{} F {} C" as a pair of levels. *)
Definition row := (Q * bool * (nat * nat))%type.
(** pd.DataFrame({'samples': ..., 'type': ..., 'level': ...}), estimator.py:262-263, 266-267, 271-272: the column must have one axis (ValueError). *)
Definition data_frame (samples : nd) (fine : bool) (label : nat * nat) : res (list row) :=
  match nd_shape samples with [_] => Ok (map (fun v => (v, fine, label)) (nd_data samples)) | _ => Err ValueError end.

Section Violin.
(** Does the method samples of the quantity take the argument axis. In the repository it does not: Quantity, QuantityConst and QuantityStorage
    define samples(self, chunk_spec), quantity.py:127, 559, 686. *)
Variable takes_axis : bool.
(** The array of samples of a level. Simplified: the first chunk, estimator.py:258, holds all collected samples of the level. *)
Variable arr : nat -> nd.

(** self._quantity.samples(chunk_spec, axis=0), estimator.py:259; TypeError for an unexpected argument. *)
Definition level_samples (level_id : nat) : res nd := if takes_axis then Ok (squeeze (arr level_id)) else Err TypeError.
(** The body of the loop, estimator.py:258-272; the state: the variables dframe and label, None when unbound. *)
Definition violin_step (n_levels : nat) (s : option (list row) * option (nat * nat)) (level_id : nat) : res (option (list row) * option (nat * nat)) :=
  bind (level_samples level_id) (fun samples =>
  if Nat.eqb level_id 0 then
    let label := (level_id, level_id + 1) in
    bind (col samples 0) (fun c => bind (data_frame c true label) (fun f => Ok (Some f, Some label)))
  else
    bind (col samples 1) (fun c =>
    match s with
    | (Some dframe, Some label) =>
        bind (data_frame c false label) (fun f =>
        let dframe := dframe ++ f in
        if Nat.ltb (level_id + 1) n_levels then
          let label := (level_id, level_id + 1) in
          bind (col samples 0) (fun c => bind (data_frame c true label) (fun f => Ok (Some (dframe ++ f), Some label)))
        else Ok (Some dframe, Some label))
    | _ => Err UnboundLocalError
    end)).
Fixpoint violin_loop (n_levels : nat) (levels : list nat) (s : option (list row) * option (nat * nat)) : res (option (list row) * option (nat * nat)) :=
  match levels with [] => Ok s | l :: rest => bind (violin_step n_levels s l) (violin_loop n_levels rest) end.
(** [fine_coarse_violinplot], estimator.py:249-273: the frame given to violinplot.fine_coarse_violinplot. *)
Definition fine_coarse_violinplot (n_levels : nat) : res (list row) :=
  bind (if Nat.ltb 1 n_levels then violin_loop n_levels (seq 0 n_levels) (None, None) else Ok (None, None))
    (fun s => match fst s with Some dframe => Ok dframe | None => Err UnboundLocalError end).
End Violin.
