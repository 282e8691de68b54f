(** Histories of the one-process pool: samples handed over and get_finished calls, in any order. *)
From Verif Require Import Base PoolModel.

Section Spec.
Context (E : env).
Notation V := (value E).
Notation pairv := (arr V * arr V)%type.

Inductive pool_op := Submit (id : pystr) (ls : level_sim E) | Poll.

(** The pool after a history, with all answers of get_finished, oldest first. *)
Definition pool_step (x : pool E * list (finished E)) (o : pool_op) : pool E * list (finished E) :=
  match o with
  | Submit id ls => (pool_schedule (fst x) id ls, snd x)
  | Poll => let (p, a) := get_finished (fst x) in (p, snd x ++ [a])
  end.
Definition pool_run (ops : list pool_op) : pool E * list (finished E) :=
  fold_left pool_step ops (new_pool 0, []).

(** The samples handed over, in order; the k-th one is the k-th simulation call. *)
Fixpoint hands (ops : list pool_op) : list (pystr * level_sim E) :=
  match ops with
  | [] => []
  | Submit id ls :: ops' => (id, ls) :: hands ops'
  | Poll :: ops' => hands ops'
  end.

(** What has to be reported for the call number [k]. *)
Definition success (k : nat) (x : pystr * level_sim E) : option pairv :=
  match calculate E k (ls_config (snd x)) (seed_of E (fst x)) with
  | Raised _ => None
  | Returned (NdArray f) (NdArray c) =>
      if (Nat.eqb (length f) (expected_len E) && Nat.eqb (length c) (expected_len E))%bool
      then Some (NdArray f, NdArray c) else None
  | Returned f c => Some (f, c)
  end.
Fixpoint successes (l k : nat) (xs : list (pystr * level_sim E)) : list (pystr * pairv) :=
  match xs with
  | [] => []
  | x :: xs' => (if Nat.eqb (ls_level (snd x)) l
                 then match success k x with Some v => [(fst x, v)] | None => [] end else [])
                ++ successes l (S k) xs'
  end.
Fixpoint failures (l k : nat) (xs : list (pystr * level_sim E)) : list pystr :=
  match xs with
  | [] => []
  | x :: xs' => (if Nat.eqb (ls_level (snd x)) l
                 then match success k x with Some _ => [] | None => [fst x] end else [])
                ++ failures l (S k) xs'
  end.

(** Run times of the calls of level [l] that did not raise. *)
Fixpoint run_times (l k : nat) (xs : list (pystr * level_sim E)) : list Q :=
  match xs with
  | [] => []
  | x :: xs' => (if Nat.eqb (ls_level (snd x)) l
                 then match calculate E k (ls_config (snd x)) (seed_of E (fst x)) with
                      | Raised _ => [] | Returned _ _ => [duration E k] end else [])
                ++ run_times l (S k) xs'
  end.

(** Reported so far on level [l]. *)
Definition reported_ok (l : nat) (rs : list (finished E)) : list (pystr * pairv) :=
  flat_map (fun a => dlist (fin_ok a) l) rs.
Definition reported_failed (l : nat) (rs : list (finished E)) : list pystr :=
  flat_map (fun a => map fst (dlist (fin_failed a) l)) rs.
(** Number of samples in one answer, whatever their level. *)
Definition answer_size (a : finished E) : nat :=
  list_sum (map (fun x => length (snd x)) (fin_ok a)) + list_sum (map (fun x => length (snd x)) (fin_failed a)).
Definition n_reported (rs : list (finished E)) : nat := list_sum (map answer_size rs).

End Spec.
Arguments Submit {E}.
Arguments Poll {E}.
