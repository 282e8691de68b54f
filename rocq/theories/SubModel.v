(** Random subsamples: Quantity.subsample and pick_samples, mlmc/quantity/quantity.py:307-364, with the probabilities of their outcomes. *)
From Coq Require Import Reals.
From Verif Require Import Base ProbSpec.
Local Open Scope R_scope.

(** Binomial coefficients. *)
Fixpoint binom (n k : nat) : nat :=
  match k, n with O, _ => 1 | S _, O => 0 | S k', S n' => binom n' k' + binom n' (S k') end.
(** scipy.stats.hypergeom(n, k, m): probabilities of the numbers 0 ... m; k of n items are marked and m items are taken. *)
Definition hypergeom (n k m : nat) : dist nat :=
  map (fun j => (INR (binom k j * binom (n - k) (m - j)) / INR (binom n m), j)) (seq 0 (S m)).
(** An experiment that depends on the outcome of another one. *)
Definition after {A B} (d : dist A) (f : A -> dist B) : dist B :=
  flat_map (fun o => map (fun o' => (fst o * fst o', snd o')) (f (snd o))) d.

Section Sub.
Context {X : Type}.
(** One item of the chunk, each with the same probability. *)
Definition uniform (chunk : list X) : dist X := map (fun x => (/ INR (length chunk), x)) chunk.
(** Attributes k and n of SubsampleParams, quantity.py:331-343. *)
Record params := mkP { p_k : nat; p_n : nat }.
(** [pick_samples], quantity.py:307-323; [chunk] is the list of the samples along axis 1. RNG.choice draws with replacement (320, default of
    numpy). scipy refuses k > n and chunks of more than n samples; the new parameters come back with the samples. *)
Definition pick_samples (chunk : list X) (p : params) : dist (res (list X * params)) :=
  if (Nat.leb (p_k p) (p_n p) && Nat.leb (length chunk) (p_n p))%bool then
    after (hypergeom (p_n p) (p_k p) (length chunk))
      (fun size => map (fun o => (fst o, Ok (snd o, mkP (p_k p - length (snd o)) (p_n p - length chunk)))) (draws (uniform chunk) size))
  else [(1, Err ValueError)].
(** The chunks of a level in turn; [adjust]: what happens to the parameters before each chunk. *)
Fixpoint passes (adjust : params -> params) (p : params) (chunks : list (list X)) : dist (res (list X)) :=
  match chunks with
  | [] => [(1, Ok [])]
  | c :: cs => after (pick_samples c (adjust p)) (fun r =>
      match r with
      | Err e => [(1, Err e)]
      | Ok (out, p') => map (fun o => (fst o, bind (snd o) (fun rest => Ok (out ++ rest)))) (passes adjust p' cs)
      end)
  end.
(** The samples of one level under [subsample], quantity.py:325-364: adjust_value (351-360) puts back the original k and n before each chunk.
    [k]: the entry of sample_vec, [n]: the number collected when subsample was called (346-347). *)
Definition sub_level_law (k n : nat) (chunks : list (list X)) : dist (res (list X)) := passes (fun _ => mkP k n) (mkP k n) chunks.
(** pick_samples on the chunks of a level with one object of parameters that is not reset, as its description (310-317) has it. *)
Definition in_turn (k n : nat) (chunks : list (list X)) : dist (res (list X)) := passes (fun p => p) (mkP k n) chunks.
End Sub.

(** All levels, each read in one chunk; the draws of different levels are independent. *)
Fixpoint subsample_law {X} (vec : list nat) (data : list (list X)) : dist (res (list (list X))) :=
  match vec, data with
  | k :: vec, c :: data => joint (fun a b => bind a (fun x => bind b (fun xs => Ok (x :: xs)))) (sub_level_law k (length c) [c]) (subsample_law vec data)
  | [], _ :: _ => [(1, Err IndexError)]
  | _, [] => [(1, Ok [])]
  end.
