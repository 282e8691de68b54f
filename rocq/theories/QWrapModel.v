(** Constants in expressions of quantities: what python values become, their shapes, and the types of results of numpy
    functions. Models mlmc/quantity/quantity.py:158-243, 403-479 and 515-539. *)
From Verif Require Import Base QTypeModel.

Section Wrap.
Context {V : Type}.

(** A numpy array: its shape and its entries by index (only indices inside of the shape matter). *)
Record nd := mkNd { shape : list nat; at_ix : list nat -> V }.

(** numpy broadcasting. Shapes are compared from the last axis; [bdims] works on reversed shapes. *)
Fixpoint bdims (a b : list nat) : res (list nat) :=
  match a, b with
  | [], _ => Ok b
  | _, [] => Ok a
  | x :: a', y :: b' =>
      bind (bdims a' b') (fun r =>
        if Nat.eqb x y then Ok (x :: r) else if Nat.eqb x 1 then Ok (y :: r) else if Nat.eqb y 1 then Ok (x :: r)
        else Err ValueError)
  end.
(** The index of an operand of (reversed) shape [s] that belongs to a (reversed) index of the result. *)
Fixpoint bindex (s ix : list nat) : list nat :=
  match s, ix with
  | d :: s', i :: ix' => (if Nat.eqb d 1 then 0 else i) :: bindex s' ix'
  | _, _ => []
  end.
(** x op y; the operators 225-243 and ufuncs of two arguments. *)
Definition nd_bin (f : V -> V -> V) (x y : nd) : res nd :=
  bind (bdims (rev (shape x)) (rev (shape y))) (fun s =>
    Ok (mkNd (rev s) (fun ix => f (at_ix x (rev (bindex (rev (shape x)) (rev ix))))
                                  (at_ix y (rev (bindex (rev (shape y)) (rev ix))))))).

(** Python values given to [wrap]. [PNumpyNumber] is a numpy scalar that is no subclass of int or float (np.int64,
    np.float32, np.bool_); np.float64 is a float. Lists and arrays come as arrays. *)
Inductive pyval :=
| PInt (v : V) | PFloat (v : V) | PBool (v : V) | PNumpyNumber (v : V) | PArray (a : nd) | PNone.

(** isinstance(value, (int, float)): bool is a subclass of int. *)
Definition is_number (p : pyval) : bool := match p with PInt _ | PFloat _ | PBool _ => true | _ => false end.
Definition is_bool (p : pyval) : bool := match p with PBool _ => true | _ => false end.

Context {K : Type}.
(** 531-539 [_process_value]: [value[:, np.newaxis, np.newaxis]]. *)
Definition scalar_value (v : V) : nd := mkNd [1; 1; 1] (fun _ => v).
Definition array_value (a : nd) : res nd :=
  match shape a with
  | [] => Err IndexError
  | m :: rest => Ok (mkNd (m :: 1 :: 1 :: rest) (fun ix => at_ix a (firstn 1 ix ++ skipn 3 ix)))
  end.
(** 438-457 [wrap] of a value that is no quantity: the type and the value of the constant. The test for numbers comes
    before the test for bools. *)
Definition value_of (p : pyval) : option V :=
  match p with PInt v | PFloat v | PBool v => Some v | _ => None end.
Definition wrap (p : pyval) : res (qtype K * nd) :=
  if is_number p then match value_of p with Some v => Ok (QScalar, scalar_value v) | None => Err TypeError end
  else if is_bool p then match value_of p with Some v => Ok (QBool, scalar_value v) | None => Err TypeError end
  else match p with
       | PArray a => bind (array_value a) (fun x => Ok (QArray (shape a) QScalar, x))
       | _ => Err ValueError
       end.

(** 404-416 [_get_base_qtype]: true for BoolType. The test [type(..) == qt.ScalarType] does not hold for BoolType. *)
Definition base_of (ts : list (qtype K)) : qtype K := if existsb (fun t => negb (base_bool t)) ts then QScalar else QBool.
(** 459-479 [_result_qtype]: the type of the result of a numpy function from its value on the first chunk. *)
Definition result_type (ts : list (qtype K)) (first : nd) : res (qtype K) :=
  match shape first with
  | [] => Err IndexError
  | m :: _ => Ok (QArray [m] (base_of ts))
  end.
(** 418-436 [_method] of a function of two arguments, of which the first is a quantity of type [t] with first chunk [x]
    and the second is a python value or a quantity: the type and the value on the first chunk. *)
Inductive arg := AQuantity (t : qtype K) (x : nd) | AValue (p : pyval).
Definition wrap_arg (a : arg) : res (qtype K * nd) := match a with AQuantity t x => Ok (t, x) | AValue p => wrap p end.
Definition method (f : V -> V -> V) (a b : arg) : res (qtype K * nd) :=
  bind (wrap_arg a) (fun x => bind (wrap_arg b) (fun y =>
    bind (nd_bin f (snd x) (snd y)) (fun z => bind (result_type [fst x; fst y] z) (fun t => Ok (t, z))))).
(** 158-161: the test of [select] on its conditions. *)
Definition select_accepts (t : qtype K) : bool := base_bool t.
(** 177-205 and 207-223 [create_quantity] of two operands of which the first is a quantity and no constant: the type is
    that of the quantity. *)
Definition create (f : V -> V -> V) (t : qtype K) (x : nd) (p : pyval) : res (qtype K * nd) :=
  bind (wrap p) (fun y => bind (nd_bin f x (snd y)) (fun z => Ok (t, z))).

(** 222-223, two constants: the result of the operation, which already has the axes of a constant, is the value of a new
    QuantityConst. *)
Definition create_const (f : V -> V -> V) (x y : qtype K * nd) : res (qtype K * nd) :=
  bind (nd_bin f (snd x) (snd y)) (fun z => bind (array_value z) (fun v => Ok (fst x, v))).

End Wrap.
Arguments nd V : clear implicits.
Arguments pyval V : clear implicits.
Arguments arg V K : clear implicits.
