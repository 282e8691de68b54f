(** Bootstrap estimates, mlmc/estimator.py:171-218, and estimates of subsamples. *)
From Verif Require Import Base QTypeModel QuantityModel NumModel EstimateModel.

(** x[..., mask, :], quantity.py:168-169, for a mask that is an array of floats: numpy accepts only integers and booleans as indices. The
    quantity made by subsample has the type of a condition (quantity.py:362), so select (149-158) accepts it, but its values are those of
    the samples drawn. *)
Definition index_by_floats (x mask : arr num) : res (arr num) := Err IndexError.
(** A chunk of quantity.select(quantity.subsample(..)), line 186, with the positions drawn in this chunk. *)
Definition boot_chunk (ps : list nat) (x : arr num) : res (arr num) := bind (pick_op ps x) (index_by_floats x).
(** The passes of the loop of [est_bootstrap], lines 185-193. [t], [mom]: type and values of the moments; [draw i c]: the positions drawn
    in pass i for chunk c. *)
Fixpoint boot_loop {K} (t : qtype K) (mom : arr num -> arr num) (L : nat) (chunks : list (nat * arr num)) (draw : nat -> nat -> list nat) (passes : list nat)
  : res (list (qmean K)) :=
  match passes with
  | [] => Ok []
  | i :: passes =>
      bind (estimate_mean t L (map (fun c => (fst (snd c), bind (boot_chunk (draw i (fst c)) (snd (snd c))) (fun x => Ok (mom x)))) (combine (seq 0 (length chunks)) chunks)))
        (fun q => bind (boot_loop t mom L chunks draw passes) (fun qs => Ok (q :: qs)))
  end.
(** [est_bootstrap]: the estimates of all passes; the means and variances over the passes (195-205) are left out. [vec]: None or the numbers of samples
    of the levels; subsample (344-345) reads one for each level. *)
Definition est_bootstrap {K} (t : qtype K) (mom : arr num -> arr num) (L : nat) (vec : option (list nat)) (chunks : list (nat * arr num)) (draw : nat -> nat -> list nat)
  (n_subsamples : nat) : res (list (qmean K)) :=
  let short := match vec with None => false | Some v => Nat.ltb (length v) L end in
  if (short && Nat.ltb 0 n_subsamples)%bool then Err IndexError else boot_loop t mom L chunks draw (seq 0 n_subsamples).

(** Samples of quantity.subsample(vec) itself for levels read in one chunk each, quantity.py:307-364: [pss] the positions drawn. *)
Definition subsampled (xs : list (arr num)) (pss : list (list nat)) : res (list (arr num)) := mapM2 (fun x ps => pick_op ps x) xs pss.
