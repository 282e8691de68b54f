(** Common vocabulary: python exceptions as values, python dictionaries as
    association lists in insertion order, small list facts. *)
From Coq Require Export Ascii String.
From Coq Require Export List Arith ZArith NArith QArith Qround Lia Bool Permutation.
Export ListNotations.
#[global] Open Scope list_scope.
#[global] Open Scope nat_scope.

(** Exceptions raised by python code. Only the kind matters to the model. *)
Inductive exn :=
| IndexError | KeyError | ValueError | TypeError | AttributeError
| AssertionError | NameError | ZeroDivisionError
| UnboundLocalError | PyException.

Inductive res (A : Type) : Type :=
| Ok (a : A)
| Err (e : exn).
Arguments Ok {A} a.
Arguments Err {A} e.

Definition bind {A B} (r : res A) (k : A -> res B) : res B :=
  match r with Ok a => k a | Err e => Err e end.

(** Python string: list of (ASCII) characters. *)
Definition pystr := list ascii.
Definition str (s : string) : pystr := list_ascii_of_string s.

Definition pystr_eq_dec : forall a b : pystr, {a = b} + {a <> b} :=
  list_eq_dec ascii_dec.

(** Python dictionary with integer keys, in insertion order. *)
Definition dict (A : Type) := list (nat * A).

Fixpoint dget {A} (d : dict A) (k : nat) : option A :=
  match d with
  | [] => None
  | (k', v) :: d' => if Nat.eqb k k' then Some v else dget d' k
  end.

(** d[k] = v: replaces in place or appends at the end. *)
Fixpoint dset {A} (d : dict A) (k : nat) (v : A) : dict A :=
  match d with
  | [] => [(k, v)]
  | (k', v') :: d' => if Nat.eqb k k' then (k', v) :: d' else (k', v') :: dset d' k v
  end.

Definition dkeys {A} (d : dict A) : list nat := map fst d.

(** The list stored under a key, [] when absent (d.get(k, [])). *)
Definition dlist {A} (d : dict (list A)) (k : nat) : list A :=
  match dget d k with Some l => l | None => [] end.

(** Replace the element at a position (no effect outside the list). *)
Fixpoint upd {A} (l : list A) (i : nat) (f : A -> A) : list A :=
  match l, i with
  | [], _ => []
  | x :: l', 0 => f x :: l'
  | x :: l', S i' => x :: upd l' i' f
  end.

(** Truncation toward zero: python int(float). *)
Definition Qtrunc (q : Q) : Z := if Qle_bool 0 q then Qfloor q else Qceiling q.
