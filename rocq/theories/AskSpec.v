(** Polling of an arbitrary pool into an arbitrary storage. *)
From Verif Require Import Base PoolModel HdfModel SamplerModel.

Section Spec.
Context {P St A : Type}.
Context (getf : P -> P * (A * Z)).        (* get_finished: a batch and the number of running samples *)
Context (store : A -> St -> St * res unit).

(** One pass of the loop of sampler.py:171-178: get_finished, then _store_samples. *)
Definition poll_with (w : P * St) : (P * St) * res Z :=
  let '(p, (a, n)) := getf (fst w) in
  match store a (snd w) with
  | (st', Ok _) => ((p, st'), Ok n)
  | (st', Err e) => ((p, st'), Err e)
  end.

(** Pool, batches and reported numbers of [k] get_finished calls in a row. *)
Fixpoint polled_pool (k : nat) (p : P) : P :=
  match k with 0 => p | S k' => polled_pool k' (fst (getf p)) end.
Fixpoint batches (k : nat) (p : P) : list (A * Z) :=
  match k with 0 => [] | S k' => snd (getf p) :: batches k' (fst (getf p)) end.

(** Storing a list of batches, each once and in order. *)
Definition store_all (bs : list A) (st : St) : St := fold_left (fun s a => fst (store a s)) bs st.

(** Every one of these batches is accepted by the storage. *)
Fixpoint accepted (bs : list A) (st : St) : Prop :=
  match bs with
  | [] => True
  | a :: bs' => snd (store a st) = Ok tt /\ accepted bs' (fst (store a st))
  end.
End Spec.
