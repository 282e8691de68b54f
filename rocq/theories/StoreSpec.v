(** Histories of saves into a storage, and what has been saved on a level. *)
From Verif Require Import Base HdfModel StoreModel.

Section Spec.
Context {X : Type}.
Notation pairx := (list X * list X)%type.

Inductive sop :=
| SSched (l : nat) (ids : list pystr)
| SSave (ok : dict (list (pystr * pairx))) (bad : dict (list (pystr * pystr)))
| SOps (ts : dict (Q * nat))
| SClear
| SReopen.

(** Level ids below the number of levels and, as in any python dictionary, no repeated key. *)
Definition good_dict {A} (L : nat) (d : dict A) : Prop := NoDup (dkeys d) /\ forall l, In l (dkeys d) -> l < L.
Definition good_op (L : nat) (x : sop) : Prop :=
  match x with
  | SSched l _ => l < L
  | SSave ok bad => good_dict L ok /\ good_dict L bad
  | SOps ts => good_dict L ts
  | _ => True
  end.

(** What was scheduled, collected and is failed on level [l]. *)
Definition scheduled_on (l : nat) (h : list sop) : list pystr :=
  flat_map (fun x => match x with SSched l' ids => if Nat.eqb l l' then ids else [] | _ => [] end) h.
Definition collected_on (l : nat) (h : list sop) : list (pystr * pairx) :=
  flat_map (fun x => match x with SSave ok _ => dlist ok l | _ => [] end) h.
Definition failed_on (l : nat) (h : list sop) : list (pystr * pystr) :=
  fold_left (fun acc x => match x with SSave _ bad => acc ++ dlist bad l | SClear => [] | _ => acc end) h [].

(** The file storage after a history, starting from a new file with [L] levels. *)
Definition hdf_step (s : hobj * hfile pairx) (x : sop) : (hobj * hfile pairx) * res unit :=
  let (o, f) := s in
  match x with
  | SSched l ids => let (f', r) := save_scheduled o l ids f in ((o, f'), r)
  | SSave ok bad => let (f', r) := save_samples o ok bad f in ((o, f'), r)
  | SOps ts => let (f', r) := save_n_ops o ts f in ((o, f'), r)
  | SClear => let (f', r) := clear_failed o f in ((o, f'), r)
  | SReopen => match hdf_open f with Ok s' => (s', Ok tt) | Err e => ((o, f), Err e) end
  end.
Definition hdf_run (L : nat) (h : list sop) : (hobj * hfile pairx) * res unit :=
  sfor h (fun x s => hdf_step s x) (fst (save_global_data L (hdf_new, no_file))).

(** The in-memory storage after the same history (no clear_failed and no reopening there). *)
Definition mem_step (m : memory X) (x : sop) : memory X * res unit :=
  match x with
  | SSched l ids => (mem_save_scheduled l ids m, Ok tt)
  | SSave ok bad => mem_save_samples ok bad m
  | SOps ts => (mem_save_n_ops ts m, Ok tt)
  | _ => (m, Err AttributeError)
  end.
Definition mem_run (h : list sop) : memory X * res unit := sfor h (fun x m => mem_step m x) mem_new.

(** Histories both storages accept. *)
Definition mem_op (x : sop) : Prop :=
  match x with
  | SSave ok bad => forall l, In l (dkeys ok) -> dlist ok l <> []
  | SClear | SReopen => False
  | _ => True
  end.
End Spec.
Arguments sop X : clear implicits.

(** The in-memory storage forgets a batch of failures when it is the first thing saved on a level. *)
Section MemSpec.
Context {X : Type}.
Fixpoint touched (l : nat) (h : list (sop X)) : bool :=
  match h with
  | [] => false
  | SSave ok bad :: r => (existsb (Nat.eqb l) (dkeys ok) || existsb (Nat.eqb l) (dkeys bad) || touched l r)%bool
  | _ :: r => touched l r
  end.
Fixpoint first_failures (l : nat) (h : list (sop X)) : nat :=
  match h with
  | [] => 0
  | SSave ok bad :: r => if existsb (Nat.eqb l) (dkeys ok) then 0
                         else if existsb (Nat.eqb l) (dkeys bad) then length (dlist bad l)
                         else first_failures l r
  | _ :: r => first_failures l r
  end.

(** Records of running times on level [l]: (time, number of samples). *)
Definition time_records (l : nat) (h : list (sop X)) : list (Q * nat) :=
  flat_map (fun x => match x with SOps ts => match dget ts l with Some r => [r] | None => [] end | _ => [] end) h.
End MemSpec.
