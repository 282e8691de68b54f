(** Structured quantity types. Models mlmc/quantity/quantity_types.py and the item access of
    mlmc/quantity/quantity.py:366-380. *)
From Verif Require Import Base.

Section QType.
Context {K : Type} (K_eq : forall a b : K, {a = b} + {a <> b}).   (* dictionary keys, times, locations *)

(** quantity_types.py: ScalarType 64-84, BoolType 87-88, ArrayType 91-98, TimeSeriesType 143-148,
    FieldType 177-185, DictType 200-212. A time series keeps its list of times, a field the keys of its
    dictionary and the type of its first entry, a dictionary its items in order.
    ScalarType(BoolType()) is not modelled. *)
Inductive qtype :=
| QScalar
| QBool
| QArray (shape : list nat) (q : qtype)
| QTimes (times : list K) (q : qtype)
| QField (keys : list K) (q : qtype)
| QDict (items : list (K * qtype)).

Definition prod (l : list nat) : nat := fold_right Nat.mul 1 l.

(** [size] of the classes: 73-76, 100-101, 150-151, 187-188, 217-218. *)
Fixpoint size (t : qtype) : nat :=
  match t with
  | QScalar | QBool => 1
  | QArray shape q => prod shape * size q
  | QTimes times q => length times * size q
  | QField keys q => length keys * size q
  | QDict items => list_sum (map (fun x => size (snd x)) items)
  end.

(** Entry of [dict(pairs)]: a repeated key keeps its position and takes the last value. *)
Fixpoint pset {A} (d : list (K * A)) (k : K) (v : A) : list (K * A) :=
  match d with
  | [] => [(k, v)]
  | (k', v') :: d' => if K_eq k' k then (k', v) :: d' else (k', v') :: pset d' k v
  end.
Definition pdict {A} (pairs : list (K * A)) : list (K * A) := fold_left (fun d x => pset d (fst x) (snd x)) pairs [].
Fixpoint pget {A} (d : list (K * A)) (k : K) : option A :=
  match d with [] => None | (k', v) :: d' => if K_eq k' k then Some v else pget d' k end.

(** [base_qtype]: true for BoolType. 19-20, 68-71, 214-215. *)
Fixpoint base_bool (t : qtype) : bool :=
  match t with
  | QScalar => false
  | QBool => true
  | QArray _ q | QTimes _ q | QField _ q => base_bool q
  | QDict items => match items with x :: _ => base_bool (snd x) | [] => false end
  end.

(** FieldType.__init__ 178-185. *)
Definition mk_field (args : list (K * qtype)) : res qtype :=
  match args with
  | [] => Err IndexError
  | x :: _ => if forallb (fun y => Nat.eqb (size (snd y)) (size (snd x))) args
              then Ok (QField (map fst (pdict args)) (snd x))
              else Err AssertionError
  end.

(** DictType.__init__ and _check_base_type 201-212: BoolType is a subclass of ScalarType, so bool entries
    after a scalar first entry pass. *)
Definition mk_dict (args : list (K * qtype)) : res qtype :=
  match pdict args with
  | [] => Err IndexError
  | x :: r => if (negb (base_bool (snd x)) || forallb (fun y => base_bool (snd y)) r)%bool
              then Ok (QDict (x :: r)) else Err TypeError
  end.

(** [replace_scalar] 22-31, 78-84, 223-233. *)
Fixpoint replace_scalar (s : qtype) (t : qtype) : qtype :=
  match t with
  | QScalar | QBool => s
  | QArray shape q => QArray shape (replace_scalar s q)
  | QTimes times q => QTimes times (replace_scalar s q)
  | QField keys q => QField keys (replace_scalar s q)
  | QDict items => QDict (map (fun x => (fst x, replace_scalar s (snd x))) items)
  end.

(** One component of an array key: an integer or a slice with step 1. *)
Inductive asel := At (i : Z) | Range (a b : option Z).
Inductive key := Key (k : K) | Index (ix : list asel).

(** Python index normalisation on an axis of length n. *)
Definition norm_at (n : nat) (i : Z) : option nat :=
  let j := (if i <? 0 then i + Z.of_nat n else i)%Z in
  if ((0 <=? j) && (j <? Z.of_nat n))%Z%bool then Some (Z.to_nat j) else None.
Definition norm_bound (n : nat) (d : nat) (i : option Z) : nat :=
  match i with
  | None => d
  | Some i => let j := (if i <? 0 then i + Z.of_nat n else i)%Z in
              Z.to_nat (Z.max 0 (Z.min j (Z.of_nat n)))
  end.
(** Positions selected on an axis of length n; None: IndexError. *)
Definition positions (n : nat) (s : asel) : option (list nat) :=
  match s with
  | At i => option_map (fun j => [j]) (norm_at n i)
  | Range a b => let lo := norm_bound n 0 a in let hi := norm_bound n n b in Some (seq lo (hi - lo))
  end.

(** Shape of np.empty(shape)[ix]. *)
Fixpoint new_shape (shape : list nat) (ix : list asel) : res (list nat) :=
  match ix, shape with
  | [], _ => Ok shape
  | _ :: _, [] => Err IndexError
  | s :: ix', n :: shape' =>
      match positions n s with
      | None => Err IndexError
      | Some ps => bind (new_shape shape' ix') (fun r =>
                     Ok (match s with At _ => r | Range _ _ => length ps :: r end))
      end
  end.

(** Rows of a chunk reshaped to (shape, ...) that A[ix] keeps, in order (numpy basic indexing). *)
Fixpoint select_rows {R} (shape : list nat) (ix : list asel) (rows : list R) : res (list R) :=
  match ix, shape with
  | [], _ => Ok rows
  | _ :: _, [] => Err IndexError
  | s :: ix', n :: shape' =>
      match positions n s with
      | None => Err IndexError
      | Some ps => let b := prod shape' in
          fold_right (fun p acc => bind acc (fun a =>
              bind (select_rows shape' ix' (firstn b (skipn (p * b) rows))) (fun r => Ok (r ++ a))))
            (Ok []) ps
      end
  end.

(** [index] of a list: position of the first equal element. *)
Fixpoint index_of (k : K) (l : list K) : option nat :=
  match l with
  | [] => None
  | x :: l' => if K_eq x k then Some 0 else option_map S (index_of k l')
  end.
(** Sizes of the dictionary entries before [k], 241-246. *)
Fixpoint dict_start (k : K) (items : list (K * qtype)) : nat :=
  match items with
  | [] => 0
  | (k', q) :: r => if K_eq k' k then 0 else size q + dict_start k r
  end.

(** [get_key] of the classes: 103-122, 153-159, 190-197, 235-246. list.index raises ValueError (which the
    code does not catch); a missing dictionary key ends with UnboundLocalError. *)
Definition get_key (t : qtype) (key : key) : res (qtype * nat) :=
  match t, key with
  | QArray shape q, Index ix =>
      bind (new_shape shape ix) (fun sh =>
        Ok (match sh with
            | [] | [1] => (q, 0)
            | _ => (QArray sh q, 0)
            end))
  | QTimes times q, Key k => match index_of k times with
                             | None => Err ValueError | Some p => Ok (q, p * size q) end
  | QField keys q, Key k => match index_of k keys with
                            | None => Err ValueError | Some p => Ok (q, p * size q) end
  | QDict items, Key k => match pget items k with
                          | None => Err UnboundLocalError | Some q => Ok (q, dict_start k items) end
  | _, _ => Err TypeError
  end.

(** quantity.py:366-380 [__getitem__] applied to the rows of a chunk, with _make_getitem_op of
    quantity_types.py:51-58 and 124-134: the leading axis of the chunk is reshaped to the array shape, which
    fails when the numbers of rows differ (rows with at least one value). *)
Definition getitem_rows {R} (t : qtype) (key : key) (rows : list R) : res (list R) :=
  bind (get_key t key) (fun qs =>
    match t, key with
    | QArray shape _, Index ix =>
        if Nat.eqb (length rows) (prod shape) then select_rows shape ix rows else Err ValueError
    | _, _ => Ok (firstn (size (fst qs)) (skipn (snd qs) rows))
    end).

(** Declared result format: quantity_spec.py:6-13. *)
Record spec := mkSpec { sp_name : K; sp_shape : list nat; sp_times : list K; sp_locs : list K }.
(** quantity.py:14-32 [make_root_quantity]: the type of the root quantity. *)
Definition spec_type (s : spec) : res qtype :=
  bind (mk_field (map (fun l => (l, QArray (sp_shape s) QScalar)) (sp_locs s))) (fun f =>
    Ok (QTimes (sp_times s) f)).
Fixpoint spec_types (fmt : list spec) : res (list (K * qtype)) :=
  match fmt with
  | [] => Ok []
  | s :: r => bind (spec_type s) (fun t => bind (spec_types r) (fun ts => Ok ((sp_name s, t) :: ts)))
  end.
Definition root_type (fmt : list spec) : res qtype := bind (spec_types fmt) mk_dict.


(** Building quantities from parts. A part is a quantity: the identity of its type object (types are compared
    with [!=] on objects, quantity.py:506-512), its type and its rows on one chunk. *)
Record part (R : Type) := mkPart { p_oid : nat; p_type : qtype; p_rows : list R }.
Arguments mkPart {R}. Arguments p_oid {R}. Arguments p_type {R}. Arguments p_rows {R}.

(** quantity.py:506-512 [_check_same_qtype]. *)
Definition same_qtype {R} (parts : list (part R)) : res qtype :=
  match parts with
  | [] => Err IndexError
  | x :: r => if forallb (fun y => Nat.eqb (p_oid x) (p_oid y)) r then Ok (p_type x) else Err ValueError
  end.
(** quantity.py:389-401 [_concatenate]: np.concatenate along the first axis. *)
Definition concat_rows {R} (parts : list (part R)) : list R := flat_map p_rows parts.

(** quantity.py:481-504 [QArray], [QDict], [QTimeSeries], [QField]. For an array, [shape] is the shape of the
    nested list of quantities and [parts] its flattened entries; a list of another length is not a nested
    list of that shape. *)
Definition q_array {R} (shape : list nat) (parts : list (part R)) : res (qtype * list R) :=
  bind (same_qtype parts) (fun q => Ok (QArray shape q, concat_rows parts)).
Definition q_dict {R} (parts : list (K * part R)) : res (qtype * list R) :=
  bind (mk_dict (map (fun x => (fst x, p_type (snd x))) parts)) (fun t => Ok (t, concat_rows (map snd parts))).
Definition q_times {R} (parts : list (K * part R)) : res (qtype * list R) :=
  bind (same_qtype (map snd parts)) (fun q => Ok (QTimes (map fst parts) q, concat_rows (map snd parts))).
Definition q_field {R} (parts : list (K * part R)) : res (qtype * list R) :=
  bind (same_qtype (map snd parts)) (fun _ =>
    bind (mk_field (map (fun x => (fst x, p_type (snd x))) parts)) (fun t => Ok (t, concat_rows (map snd parts)))).

End QType.
Arguments qtype K : clear implicits.
Arguments key K : clear implicits.
Arguments spec K : clear implicits.
Arguments part K R : clear implicits.
Arguments mkPart {K R}. Arguments p_oid {K R}. Arguments p_type {K R}. Arguments p_rows {K R}.

(** quantity_estimate.py:96-119 [moments]: [eval_all] gives the list of moments of a value, the result
    [M, N, 2, R] is transposed to [M, R, N, 2] (moments at the bottom) or [R, M, N, 2] and flattened.
    A row is one component of the quantity: the samples, each with its fine and coarse value. *)
Definition moments_rows {V} (r : nat) (eval_all : V -> list V) (d : V) (bottom : bool) (rows : list (list (list V)))
  : list (list (list V)) :=
  let mom := fun j row => map (map (fun v => nth j (eval_all v) d)) row in
  if bottom then flat_map (fun row => map (fun j => mom j row) (seq 0 r)) rows
  else flat_map (fun j => map (mom j) rows) (seq 0 r).
(** The type of the moments quantity, 110-116. *)
Definition moments_type {K} (r : nat) (bottom : bool) (t : qtype K) : qtype K :=
  if bottom then replace_scalar (QArray [r] QScalar) t else QArray [r] t.
