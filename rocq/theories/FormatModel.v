(** The result format in the file: mlmc/sample_storage_hdf.py:36-113, mlmc/tool/hdf5.py:48-90 and 131-175,
    mlmc/quantity/quantity_spec.py:6-21. *)
From Verif Require Import Base.

Section Format.
(** Floating point numbers without NaN; [rd]: conversion of a text to a number by numpy (None: ValueError). *)
Context {V : Type}.
Variable veq : forall a b : V, {a = b} + {a <> b}.
Variable rd : pystr -> option V.

(** A location: a name or a point. *)
Inductive loc := LName (s : pystr) | LPoint (x y z : V).
Record qspec := mkSpec { q_name : pystr; q_unit : pystr; q_shape : list Z; q_times : list V; q_locs : list loc }.

Definition loc_eq_dec : forall a b : loc, {a = b} + {a <> b}.
Proof. intros a b. decide equality; try apply veq. apply pystr_eq_dec. Defined.

(** [QuantitySpec.__eq__], quantity_spec.py:15-21: locations of the first are among those of the second. *)
Definition spec_eqb (a b : qspec) : bool :=
  (if pystr_eq_dec (q_name a) (q_name b) then true else false) && (if pystr_eq_dec (q_unit a) (q_unit b) then true else false)
  && (if list_eq_dec Z.eq_dec (q_shape a) (q_shape b) then true else false)
  && (if list_eq_dec veq (q_times a) (q_times b) then true else false)
  && forallb (fun l => if in_dec loc_eq_dec l (q_locs b) then true else false) (q_locs a).
(** a == b of lists. *)
Fixpoint specs_eqb (a b : list qspec) : bool :=
  match a, b with
  | [], [] => true
  | x :: a', y :: b' => spec_eqb x y && specs_eqb a' b'
  | _, _ => false
  end.

(** Types of the columns that vary: number of times, and locations as names of at most 50 bytes or as points. *)
Inductive loc_type := TNames (n : nat) | TPoints (n : nat).
Definition dtype := (nat * loc_type)%type.
Definition dtype_eq_dec : forall a b : dtype, {a = b} + {a <> b}.
Proof. intros a b. decide equality; [decide equality; apply Nat.eq_dec|apply Nat.eq_dec]. Defined.
(** [_hdf_result_format], sample_storage_hdf.py:36-56: [len] of a point is 3. *)
Definition hdf_result_format (locs : list loc) (times : list V) : res dtype :=
  match locs with
  | [] => Err IndexError
  | l :: _ =>
      let n := match l with LName s => length s | LPoint _ _ _ => 3 end in
      Ok (length times, if Nat.eqb n 3 then TPoints (length locs) else TNames (length locs))
  end.

(** Rows of the dataset. *)
Inductive stored_locs := SNames (l : list pystr) | SPoints (l : list (V * V * V)).
Record row := mkRow { r_name : pystr; r_unit : pystr; r_shape : list Z; r_times : list V; r_locs : stored_locs }.

(** Text to bytes of type S50: ASCII only (UnicodeEncodeError is a ValueError), cut to 50, null characters at the end are lost. *)
Definition is_null (c : ascii) : bool := Ascii.eqb c zero.
Fixpoint drop_null (s : pystr) : pystr := match s with c :: s' => if is_null c then drop_null s' else s | [] => [] end.
Definition s50 (s : pystr) : res pystr :=
  if forallb (fun c => Nat.ltb (nat_of_ascii c) 128) s then Ok (rev (drop_null (rev (firstn 50 s)))) else Err ValueError.
Definition int32 (z : Z) : Z := ((z + 2147483648) mod 4294967296 - 2147483648)%Z.
(** a[:] = l for an array of length [n]: numpy repeats a list of length one. *)
Definition broadcast {A} (n : nat) (l : list A) : res (list A) :=
  if Nat.eqb (length l) n then Ok l else match l with [x] => Ok (repeat x n) | _ => Err ValueError end.
Fixpoint map_res {A B} (f : A -> res B) (l : list A) : res (list B) :=
  match l with [] => Ok [] | x :: l' => bind (f x) (fun y => bind (map_res f l') (fun ys => Ok (y :: ys))) end.
Definition as_name (l : loc) : res pystr := match l with LName s => s50 s | LPoint _ _ _ => Err ValueError end.
Definition as_point (l : loc) : res (V * V * V) := match l with LPoint x y z => Ok (x, y, z) | LName _ => Err ValueError end.
Definition as_number (l : loc) : res V :=
  match l with LName s => match rd s with Some v => Ok v | None => Err ValueError end | LPoint _ _ _ => Err ValueError end.
Definition is_name (l : loc) : bool := match l with LName _ => true | LPoint _ _ _ => false end.
(** Assignment of locations. Names into a column of points are converted to numbers, which fill the points if there are one or three of
    them. Points into a column of names raise (numpy accepts one point for three names; left out). *)
Definition pack_locs (t : loc_type) (locs : list loc) : res stored_locs :=
  match t with
  | TNames n => bind (map_res as_name locs) (fun l => bind (broadcast n l) (fun l => Ok (SNames l)))
  | TPoints n =>
      if forallb is_name locs then
        bind (map_res as_number locs) (fun vs =>
        match vs with
        | [v] => Ok (SPoints (repeat (v, v, v) n))
        | [a; b; c] => Ok (SPoints (repeat (a, b, c) n))
        | _ => Err ValueError
        end)
      else bind (map_res as_point locs) (fun l => bind (broadcast n l) (fun l => Ok (SPoints l)))
  end.
(** One pass of the loop, hdf5.py:153-159. *)
Definition pack (t : dtype) (q : qspec) : res row :=
  bind (s50 (q_name q)) (fun name =>
  bind (s50 (q_unit q)) (fun unit =>
  bind (broadcast 2 (q_shape q)) (fun shape =>
  bind (broadcast (fst t) (q_times q)) (fun times =>
  bind (pack_locs (snd t) (q_locs q)) (fun locs => Ok (mkRow name unit (map int32 shape) times locs)))))).

(** The dataset result_format: None if it is not in the file. *)
Definition dataset := option (dtype * list row).
Definition empty_row : row := mkRow [] [] [] [] (SNames []).
(** [HDF5.save_result_format], hdf5.py:131-163: a new dataset has the length and type of the array. Writing an array of another type to
    an existing dataset raises, one of another length too unless that is one. *)
Definition h5_save (f : dataset) (fmt : list qspec) (t : dtype) : res dataset :=
  let '(dt, rows) := match f with Some d => d | None => (t, repeat empty_row (length fmt)) end in
  bind (map_res (pack t) fmt) (fun new =>
  if dtype_eq_dec dt t then
    if Nat.eqb (length new) (length rows) then Ok (Some (dt, new))
    else match new with [r] => Ok (Some (dt, repeat r (length rows))) | _ => Err TypeError end
  else Err TypeError).
(** [load_result_format], sample_storage_hdf.py:101-113 and hdf5.py:166-175: points have no method decode. *)
Definition unpack (r : row) : res qspec :=
  match r_locs r with
  | SNames l => Ok (mkSpec (r_name r) (r_unit r) (r_shape r) (r_times r) (map LName l))
  | SPoints [] => Ok (mkSpec (r_name r) (r_unit r) (r_shape r) (r_times r) [])
  | SPoints _ => Err AttributeError
  end.
Definition load_result_format (f : dataset) : res (list qspec) :=
  match f with None => Err AttributeError | Some (_, rows) => map_res unpack rows end.
(** [save_result_format], sample_storage_hdf.py:88-99. *)
Definition save_result_format (f : dataset) (fmt : list qspec) (t : dtype) : res dataset :=
  match load_result_format f with
  | Ok old => if specs_eqb old fmt then h5_save f fmt t else Err ValueError
  | Err AttributeError => h5_save f fmt t
  | Err e => Err e
  end.
(** [save_global_data], sample_storage_hdf.py:58-76: on a storage opened from an existing file ([opened]) the file is kept, otherwise
    create_file_structure, hdf5.py:59-69, removes everything from it first. *)
Definition save_global_data (opened : bool) (f : dataset) (fmt : list qspec) : res dataset :=
  match fmt with
  | [] => Err IndexError
  | q :: _ =>
      bind (hdf_result_format (q_locs q) (q_times q)) (fun t =>
      save_result_format (if opened then f else None) fmt t)
  end.
End Format.
Arguments LName {V} s.
