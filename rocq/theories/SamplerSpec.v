(** What the sampler properties talk about, stated on the file content and the queues. *)
From Verif Require Import Base TagModel PoolModel HdfModel SamplerModel.

Section Spec.
Context (E : env) (ps : list (param E)).
Notation pairv := (arr (value E) * arr (value E))%type.

(** [s] is reached by a campaign: a new Sampler on a new file, then the operations [ops]. *)
Definition reached (fuel : nat) (ops : list op) (s : sampler E) : Prop :=
  exists s0, start E ps = Ok s0 /\ s = run E ps fuel s0 ops.

(** The file holds group [g] for level [l]. *)
Definition level (s : sampler E) (l : nat) (g : lgroup pairv) : Prop :=
  nth_error (f_groups (s_file s)) l = Some (GFull g).

Definition tag (l i : nat) : pystr := sample_tag (N.of_nat l) (N.of_nat i).

(** Identifiers finished in the pool but not handed over yet. *)
Definition waiting (s : sampler E) (l : nat) : list pystr :=
  map fst (dlist (queues (s_pool s)) l) ++ map fst (dlist (failed_queues (s_pool s)) l).

(** Stored (identifier, value) records of a level. *)
Definition records (g : lgroup pairv) : list (pystr * pairv) :=
  combine (g_cids g) (match g_cvals g with Some v => v | None => [] end).
Definition n_records (g : lgroup pairv) : nat :=
  match g_cvals g with Some v => length v | None => 0 end.

(** The simulation of level l: fine parameters of l, coarse parameters of l - 1. *)
Definition level_config (l : nat) : option (config E) :=
  match l with
  | 0 => option_map (fun p => level_instance E p (zero_param E)) (nth_error ps 0)
  | S k => match nth_error ps k, nth_error ps (S k) with
           | Some c, Some p => Some (level_instance E p c)
           | _, _ => None
           end
  end.

(** Answers of a simulation that count as a success. *)
Definition acceptable (f c : arr (value E)) : bool :=
  match f, c with
  | NdArray f, NdArray c => (Nat.eqb (length f) (expected_len E) && Nat.eqb (length c) (expected_len E))%bool
  | _, _ => true
  end.

(** What sample [id] of level [l] must have stored, for a simulation answering [calc]. *)
Definition sample_record (calc : config E -> N -> outcome (value E)) (l : nat) (id : pystr)
  : list (pystr * pairv) :=
  match level_config l with
  | None => []
  | Some cfg => match calc cfg (seed_of E id) with
                | Returned f c => if acceptable f c then [(id, (f, c))] else []
                | Raised _ => []
                end
  end.
Definition expected_records (calc : config E -> N -> outcome (value E)) (l n : nat) : list (pystr * pairv) :=
  flat_map (fun i => sample_record calc l (tag l i)) (seq 0 n).

(** The simulation is a function of configuration and seed only. *)
Definition deterministic : Prop := forall k k' c x, calculate E k c x = calculate E k' c x.

End Spec.
Arguments level {E}.
Arguments waiting {E}.
Arguments records {E}.
Arguments n_records {E}.

(** Scheduled samples of a level that have no outcome in the file and none waiting in the pool. *)
Definition missing {E} (s : sampler E) (l : nat) (g : lgroup (arr (value E) * arr (value E))) : nat :=
  length (g_sched g) - (length (g_cids g) + length (g_failed g) + length (waiting s l)).
