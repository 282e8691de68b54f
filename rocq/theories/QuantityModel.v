(** Quantities as expression graphs over stored samples. Models mlmc/quantity/quantity.py:35-565. *)
From Verif Require Import Base QTypeModel.

Section Quantity.
Context {K V : Type} (K_eq : forall a b : K, {a = b} + {a <> b}).

(** A chunk: entry [m][i][k] is component m of sample i, k = 0 fine, k = 1 coarse
    (sample_storage_hdf.py:169-184). *)
Definition arr := list (list (list V)).
(** Samples of a numeric quantity, or the one dimensional mask of a comparison. *)
Inductive val := Num (a : arr) | Mask (m : list bool).

(** numpy broadcasting along one axis. *)
Fixpoint mapM {A B} (f : A -> res B) (l : list A) : res (list B) :=
  match l with
  | [] => Ok []
  | x :: l' => bind (f x) (fun y => bind (mapM f l') (fun ys => Ok (y :: ys)))
  end.
Fixpoint mapM2 {A B C} (f : A -> B -> res C) (x : list A) (y : list B) : res (list C) :=
  match x, y with
  | a :: x', b :: y' => bind (f a b) (fun c => bind (mapM2 f x' y') (fun cs => Ok (c :: cs)))
  | _, _ => Ok []
  end.
Definition bcast {A B C} (f : A -> B -> res C) (x : list A) (y : list B) : res (list C) :=
  if Nat.eqb (length x) (length y) then mapM2 f x y
  else match x, y with
       | [a], _ => mapM (f a) y
       | _, [b] => mapM (fun a => f a b) x
       | _, _ => Err ValueError
       end.
(** x op y for arrays with three axes: quantity.py:207-243 with the broadcasting of constants [M, 1, 1]. *)
Definition bin {W} (op : V -> V -> W) (x y : arr) : res (list (list (list W))) :=
  bcast (bcast (bcast (fun a b => Ok (op a b)))) x y.

(** quantity.py:246-257 [_process_mask]: [.all] over the components, then over fine and coarse. A quantity
    without components is left out (the model raises). *)
Definition process_mask (rows : list (list (list bool))) : res (list bool) :=
  match rows with
  | [] => Err ValueError
  | r :: _ => Ok (map (fun i => forallb (fun row => forallb (fun b => b) (nth i row [])) rows) (seq 0 (length r)))
  end.

(** x[..., mask, :], quantity.py:168-169. *)
Definition keep {A} (mask : list bool) (l : list A) : list A := map snd (filter fst (combine mask l)).
Definition select_op (rows : arr) (mask : list bool) : res arr :=
  mapM (fun row => if Nat.eqb (length mask) (length row) then Ok (keep mask row) else Err IndexError) rows.

(** np.concatenate along the components, quantity.py:389-401: the other axes must agree. *)
Definition concat_op (parts : list arr) : res arr :=
  let rows := concat parts in
  match rows with
  | [] => Ok []
  | r :: _ => if forallb (fun row => if list_eq_dec Nat.eq_dec (map (@length V) row) (map (@length V) r) then true else false) rows
              then Ok rows else Err ValueError
  end.

(** Samples at the drawn positions, quantity.py:307-323 (RNG.choice(chunk, axis=1)). *)
Definition pick_op (ps : list nat) (rows : arr) : res arr :=
  mapM (fun row => mapM (fun i => match nth_error row i with Some s => Ok s | None => Err IndexError end) ps) rows.

(** What a quantity computes from its input quantities (positions in the list of all objects). *)
Inductive op :=
| ORoot (r : nat)                                      (* QuantityStorage, 654-695 *)
| OConst (c : list V)                                  (* QuantityConst of value [M, 1, 1], 515-565 *)
| OBin (f : V -> V -> V) (a b : nat)                   (* + - * / %, 177-243 *)
| OUn (f : V -> V) (a : nat)                           (* numpy functions of one quantity, 418-436; moment *)
| OItem (k : key K) (a : nat)                          (* 366-380 *)
| OConcat (parts : list nat)                           (* QArray QDict QTimeSeries QField, 481-504 *)
| OMoments (r : nat) (ev : V -> list V) (d : V) (bottom : bool) (a : nat)  (* quantity_estimate.py:96-156 *)
| OCmp (c : V -> V -> bool) (a b : nat)                (* < <= > >= == !=, 245-305 *)
| OMask (f : bool -> bool -> bool) (a b : nat)         (* np.logical_and and alike on masks, 418-436 *)
| OSelect (a m : nat)                                  (* 149-172 *)
| OSub (pick : nat -> nat -> list nat) (a : nat).      (* subsample, 325-364: positions drawn per level and chunk *)
Definition inputs (o : op) : list nat :=
  match o with
  | ORoot _ | OConst _ => []
  | OUn _ a | OItem _ a | OMoments _ _ _ _ a => [a]
  | OSub _ a => [a]     (* the constant with the parameters is left out: it has no selection id *)
  | OBin _ a b | OCmp _ a b | OMask _ a b => [a; b]
  | OSelect a m => [a; m]
  | OConcat ps => ps
  end.

(** id(x): the position of an object, or the identity of None (selection_id 98-108 of a quantity without
    storage). Objects are never freed in the model. *)
Inductive oid := Obj (n : nat) | NoneId.
Definition oid_eq_dec (a b : oid) : {a = b} + {a <> b}.
Proof. decide equality. apply Nat.eq_dec. Defined.

(** A quantity object: its operation, type, whether its values are masks, the attributes _storage (position of
    the root quantity) and _selection_id. *)
Record node := mkNode { n_op : op; n_type : qtype K; n_mask : bool; n_store : option nat; n_sel : option oid }.
Definition graph := list node.

(** 55-67 [get_quantity_storage]. *)
Definition store_of (g : graph) (a : nat) : option nat :=
  match nth_error g a with
  | None => None
  | Some n => match n_op n with ORoot _ => Some a | OConst _ => None | _ => n_store n end
  end.
Fixpoint first_store (g : graph) (l : list nat) : option nat :=
  match l with
  | [] => None
  | a :: l' => match store_of g a with Some r => Some r | None => first_store g l' end
  end.
(** 98-108, 541-546, 673-678 [selection_id]. *)
Definition selection_id (g : graph) (a : nat) : option oid :=
  match nth_error g a with
  | None => None
  | Some n => match n_op n with
              | ORoot _ => Some (Obj a)
              | OConst _ => None
              | _ => Some (match n_sel n with
                           | Some s => s
                           | None => match n_store n with Some r => Obj r | None => NoneId end
                           end)
              end
  end.

(** 69-81 [set_selection_id]. *)
Fixpoint set_selection_id (g : graph) (l : list nat) (sel : option oid) : res (option oid) :=
  match l with
  | [] => Ok sel
  | a :: l' =>
      match sel with
      | None => set_selection_id g l' (selection_id g a)
      | Some s => match selection_id g a with
                  | None => set_selection_id g l' sel
                  | Some s' => if oid_eq_dec s s' then set_selection_id g l' sel else Err PyException
                  end
      end
  end.
(** 83-96 [_check_selection_ids]; own is the selection_id() of the new object. *)
Definition check_selection_ids (g : graph) (l : list nat) (store : option nat) (own : oid) : bool :=
  match store with
  | None => true
  | Some _ => forallb (fun a => match selection_id g a with
                                | None => true
                                | Some s => if oid_eq_dec s own then true else false end) l
  end.

(** 36-53 [Quantity.__init__]: the new object is appended. *)
Definition new_quantity (g : graph) (t : qtype K) (mask : bool) (o : op) : res graph :=
  let l := inputs o in
  let store := first_store g l in
  bind (set_selection_id g l None) (fun sel =>
    let own := match sel with Some s => s | None => match store with Some r => Obj r | None => NoneId end end in
    if check_selection_ids g l store own then Ok (g ++ [mkNode o t mask store sel]) else Err AssertionError).

(** Construction commands. Operands are positions of existing objects; numbers and lists are wrapped to
    constants by a separate command (wrap, 438-457; a single number gets the type of an array of length one instead
    of a scalar type). Operands of a wrong kind (a mask where numbers are expected
    or the reverse) are left out: the model raises TypeError. *)
Inductive cmd :=
| CRoot (r : nat) (t : qtype K)
| CConst (c : list V)
| CBin (f : V -> V -> V) (a b : nat)
| CUn (f : V -> V) (a : nat)
| CItem (k : key K) (a : nat)
| CConcat (mk : list (qtype K) -> res (qtype K)) (parts : list nat)
| CMoments (shape : list nat) (ev : V -> list V) (d : V) (bottom : bool) (a : nat)
| CCmp (c : V -> V -> bool) (a b : nat)
| CMask (f : bool -> bool -> bool) (a b : nat)
| CSelect (a : nat) (ms : list nat)
| CSub (pick : nat -> nat -> list nat) (a : nat).

Definition numeric (g : graph) (a : nat) : res node :=
  match nth_error g a with Some n => if n_mask n then Err TypeError else Ok n | None => Err NameError end.
Definition masked (g : graph) (a : nat) : res node :=
  match nth_error g a with Some n => if n_mask n then Ok n else Err TypeError | None => Err NameError end.
Definition is_const (n : node) : option (list V) := match n_op n with OConst c => Some c | _ => None end.
Definition const_arr (c : list V) : arr := map (fun v => [[v]]) c.

Definition new_mask (g : graph) (f : bool -> bool -> bool) (a b : nat) : res graph :=
  bind (masked g a) (fun _ => bind (masked g b) (fun _ => new_quantity g QBool true (OMask f a b))).

(** 160-166: np.logical_and of the conditions; the position of the combined mask is returned. *)
Fixpoint and_masks (g : graph) (m : nat) (ms : list nat) : res (graph * nat) :=
  match ms with
  | [] => Ok (g, m)
  | m' :: ms' => bind (new_mask g andb m m') (fun g' => and_masks g' (length g) ms')
  end.

(** The type of a mask built by a numpy function is an array of booleans whose length is the number of samples
    of the first chunk (459-479); only its base type is ever used, and the model keeps QBool. *)
Definition build (g : graph) (c : cmd) : res graph :=
  match c with
  | CRoot r t => Ok (g ++ [mkNode (ORoot r) t false None None])
  | CConst v => Ok (g ++ [mkNode (OConst v) (QArray [length v] QScalar) false None None])
  | CBin f a b =>
      bind (numeric g a) (fun na => bind (numeric g b) (fun nb =>
        match is_const na, is_const nb with
        | Some _, Some _ => Err TypeError    (* left out: the value of the new constant has five axes, see QWrapModel *)
        | None, _ => new_quantity g (n_type na) false (OBin f a b)
        | Some _, None => new_quantity g (n_type nb) false (OBin f a b)
        end))
  | CUn f a => bind (numeric g a) (fun na => new_quantity g (QArray [size (n_type na)] QScalar) false (OUn f a))
  | CItem k a => bind (numeric g a) (fun na => bind (get_key K_eq (n_type na) k) (fun qs =>
                   new_quantity g (fst qs) false (OItem k a)))
  | CConcat mk ps => bind (mapM (numeric g) ps) (fun ns => bind (mk (map n_type ns)) (fun t =>
                   new_quantity g t false (OConcat ps)))
  | CMoments sh ev d bottom a => bind (numeric g a) (fun na =>
      new_quantity g (if bottom then replace_scalar (QArray sh QScalar) (n_type na) else QArray sh (n_type na)) false
                   (OMoments (prod sh) ev d bottom a))
  | CCmp f a b => bind (numeric g a) (fun na => bind (numeric g b) (fun _ =>
                   new_quantity g (replace_scalar QBool (n_type na)) true (OCmp f a b)))
  | CMask f a b => new_mask g f a b
  | CSelect a ms =>
      bind (numeric g a) (fun na =>
        match ms with
        | [] => Err IndexError
        | m :: ms' => bind (mapM (masked g) ms) (fun _ => bind (and_masks g m ms') (fun gm =>
            bind (new_quantity (fst gm) (n_type na) false (OSelect a (snd gm))) (fun g' =>
              Ok (upd g' (length (fst gm)) (fun n => mkNode (n_op n) (n_type n) (n_mask n) (n_store n) (Some (Obj (length (fst gm)))))))))
        end)
  | CSub pick a => bind (numeric g a) (fun na => new_quantity g (replace_scalar QBool (n_type na)) false (OSub pick a))
  end.
(** 126-135 [samples]: the inputs' samples, then the operation. The samples of all objects for one chunk spec are
    computed in the order of creation; an object only refers to older ones. [env r] is the chunk of storage r,
    [lvl] and [cid] identify the chunk spec. *)
Definition num_of (v : res val) : res arr := bind v (fun x => match x with Num a => Ok a | Mask _ => Err TypeError end).
Definition mask_of (v : res val) : res (list bool) := bind v (fun x => match x with Mask m => Ok m | Num _ => Err TypeError end).
Definition at_ (vals : list (res val)) (a : nat) : res val := nth a vals (Err NameError).

Definition eval_op (env : nat -> arr) (lvl cid : nat) (tys : list (qtype K)) (vals : list (res val)) (o : op) : res val :=
  match o with
  | ORoot r => Ok (Num (env r))
  | OConst c => Ok (Num (const_arr c))
  | OBin f a b => bind (num_of (at_ vals a)) (fun x => bind (num_of (at_ vals b)) (fun y =>
                    bind (bin f x y) (fun z => Ok (Num z))))
  | OUn f a => bind (num_of (at_ vals a)) (fun x => Ok (Num (map (map (map f)) x)))
  | OItem k a => bind (num_of (at_ vals a)) (fun x => bind (getitem_rows K_eq (nth a tys QScalar) k x) (fun y => Ok (Num y)))
  | OConcat ps => bind (mapM (fun p => num_of (at_ vals p)) ps) (fun xs => bind (concat_op xs) (fun y => Ok (Num y)))
  | OMoments r ev d bottom a => bind (num_of (at_ vals a)) (fun x => Ok (Num (moments_rows r ev d bottom x)))
  | OCmp c a b => bind (num_of (at_ vals a)) (fun x => bind (num_of (at_ vals b)) (fun y =>
                    bind (bin c x y) (fun z => bind (process_mask z) (fun m => Ok (Mask m)))))
  | OMask f a b => bind (mask_of (at_ vals a)) (fun x => bind (mask_of (at_ vals b)) (fun y =>
                    bind (bcast (fun p q => Ok (f p q)) x y) (fun z => Ok (Mask z))))
  | OSelect a m => bind (num_of (at_ vals a)) (fun x => bind (mask_of (at_ vals m)) (fun y =>
                    bind (select_op x y) (fun z => Ok (Num z))))
  | OSub pick a => bind (num_of (at_ vals a)) (fun x => bind (pick_op (pick lvl cid) x) (fun y => Ok (Num y)))
  end.
Definition eval_all (env : nat -> arr) (lvl cid : nat) (g : graph) : list (res val) :=
  fold_left (fun vals n => vals ++ [eval_op env lvl cid (map n_type g) vals (n_op n)]) g [].
Definition samples (env : nat -> arr) (lvl cid : nat) (g : graph) (a : nat) : res val := at_ (eval_all env lvl cid g) a.

End Quantity.
Arguments arr V : clear implicits.
Arguments val V : clear implicits.
Arguments op K V : clear implicits.
Arguments node K V : clear implicits.
Arguments graph K V : clear implicits.
Arguments cmd K V : clear implicits.
