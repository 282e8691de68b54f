(** What the concurrent pools are meant to do. *)
From Verif Require Import Base PoolModel ConcModel.

Section Spec.
Context {A : Type}.
Definition scheduled (ls : list (label A)) : list pystr := flat_map (fun l => match l with Schedule _ id => [id] | _ => [] end) ls.
Definition delivered (ls : list (label A)) : list (item A) :=
  flat_map (fun l => match l with Deliver _ id (Done a) => [(id, inl a)] | Deliver _ id (Failed m) => [(id, inr m)] | _ => [] end) ls.
Definition reported (s : cst A) : list (item A) := flat_map fst (answers s).

(** Executions without an escaping exception and without a result arriving between the copy and the clear of the
    queue it is put in. *)
Definition in_window (s : cst A) (l : label A) : bool :=
  match main s, l with
  | Copied f level _ _ _, Deliver level' _ w => (Nat.eqb level level' && match w with Done _ => negb f | Failed _ => f | Escaped => false end)%bool
  | _, _ => false
  end.
Definition escapes (l : label A) : bool := match l with Deliver _ _ Escaped => true | _ => false end.
Fixpoint quiet (s : cst A) (ls : list (label A)) : bool :=
  match ls with
  | [] => true
  | l :: ls' => (negb (in_window s l) && negb (escapes l) && match cstep s l with Some s' => quiet s' ls' | None => false end)%bool
  end.
End Spec.
