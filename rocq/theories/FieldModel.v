(** Sets of dependent fields: classes Field and Fields of mlmc/random/correlated_field.py. *)
From Verif Require Import Base.

(** Python dictionaries with string keys in insertion order. *)
Fixpoint pget {A} (d : list (pystr * A)) (k : pystr) : option A :=
  match d with [] => None | (n, v) :: d' => if pystr_eq_dec k n then Some v else pget d' k end.
Fixpoint pset {A} (d : list (pystr * A)) (k : pystr) (v : A) : list (pystr * A) :=
  match d with
  | [] => [(k, v)]
  | (n, w) :: d' => if pystr_eq_dec k n then (n, v) :: d' else (n, w) :: pset d' k v
  end.

Section Fields.
(** Numbers and points. *)
Context {V P : Type}.
Variable zero : V.
(** '{}'.format of a number. *)
Variable fmt : V -> pystr.
(** Random field objects are numbers. [rf_ok r pts]: set_points (and the decomposition, correlated_field.py:320-342 and
    430-488) succeeds on these points; [rf_draw r k pts]: values returned by the [k]-th call of sample if it is a call on
    object [r] whose points are [pts], correlated_field.py:347-363. *)
Variable rf_ok : nat -> list P -> bool.
Variable rf_draw : nat -> nat -> list P -> list V.

(** Constant, random field, or function evaluated element by element by numpy with a number of arguments. Functions that
    are not evaluated element by element are left out. *)
Inductive kind := KConst (c : V) | KRandom (r : nat) | KFunc (arity : nat) (h : list V -> V).
Inductive param := PName (s : pystr) | PNum (c : V).
Record spec := mkSpec { s_name : pystr; s_kind : kind; s_params : list param; s_regions : list pystr }.

(** [Field.__init__], correlated_field.py:45-80. *)
Definition mk_field (name : pystr) (k : kind) (params : list param) (regions : list pystr) : res spec :=
  match k with
  | KConst _ | KRandom _ => if Nat.eqb (length params) 0 then Ok (mkSpec name k params regions) else Err AssertionError
  | KFunc a _ =>
      if Nat.eqb (length params) 0 then Err AssertionError
      else if Nat.eqb a (length params) then Ok (mkSpec name k params regions) else Err PyException
  end.

(** Copies of the fields made by Fields: objects are numbers, positions in [heap]; [order]: the list self.fields;
    [names]: self.fields_dict. *)
Record fobj := mkF { f_name : pystr; f_kind : kind; f_params : list nat; f_regions : list pystr; f_outer : bool }.
Record fset := mkFS { heap : list fobj; order : list nat; names : list (pystr * nat) }.
Definition dummy : fobj := mkF [] (KConst zero) [] [] false.
Definition obj (fs : fset) (id : nat) : fobj := nth id (heap fs) dummy.

(** [_get_field_obj], correlated_field.py:149-160. *)
Definition get_field_obj (fs : fset) (regions : list pystr) (p : param) : res (fset * nat) :=
  match p with
  | PNum c =>
      let id := length (heap fs) in
      let name := str "const_" ++ fmt c in
      Ok (mkFS (heap fs ++ [mkF name (KConst c) [] regions true]) (id :: order fs) (pset (names fs) name id), id)
  | PName s => match pget (names fs) s with Some id => Ok (fs, id) | None => Err AssertionError end
  end.
Fixpoint get_field_objs (fs : fset) (regions : list pystr) (ps : list param) : res (fset * list nat) :=
  match ps with
  | [] => Ok (fs, [])
  | p :: ps' =>
      bind (get_field_obj fs regions p) (fun r =>
      bind (get_field_objs (fst r) regions ps') (fun r' => Ok (fst r', snd r :: snd r')))
  end.
(** [Fields.__init__], correlated_field.py:113-147. *)
Definition add_field (fs : fset) (s : spec) : res fset :=
  bind (get_field_objs fs (s_regions s) (s_params s)) (fun r =>
    let '(fs1, ids) := r in
    let id := length (heap fs1) in
    Ok (mkFS (heap fs1 ++ [mkF (s_name s) (s_kind s) ids (s_regions s) true]) (order fs1 ++ [id]) (pset (names fs1) (s_name s) id))).
Fixpoint add_fields (fs : fset) (ss : list spec) : res fset :=
  match ss with [] => Ok fs | s :: ss' => bind (add_field fs s) (fun fs1 => add_fields fs1 ss') end.
Definition mk_fields (ss : list spec) : res fset := add_fields (mkFS [] [] []) ss.

(** [set_outer_fields], correlated_field.py:176-187. *)
Definition set_outer_fields (fs : fset) (outer : list pystr) : fset :=
  mkFS (map (fun f => mkF (f_name f) (f_kind f) (f_params f) (f_regions f)
                        (if in_dec pystr_eq_dec (f_name f) outer then true else false)) (heap fs))
       (order fs) (names fs).

(** Attributes set by [set_points] and [sample]: n_elements, points of the random field objects, full_sample_ids and
    _sample of the fields, number of calls of sample on random field objects so far. *)
Record mstate := mkM { m_n : nat; m_pts : dict (list P); m_ids : dict (list nat); m_samples : dict (list V); m_draws : nat }.

(** Points of each region, correlated_field.py:202-206. *)
Fixpoint group_regions (i : nat) (region_ids : list nat) (d : dict (list nat)) : dict (list nat) :=
  match region_ids with
  | [] => d
  | r :: rs => group_regions (S i) rs (dset d r (dlist d r ++ [i]))
  end.
(** Point numbers of a field, lines 209-213: a region name that is not in the map is a KeyError. *)
Fixpoint region_points (reg_points : dict (list nat)) (region_map : list (pystr * nat)) (regs : list pystr) : res (list nat) :=
  match regs with
  | [] => Ok []
  | reg :: regs' =>
      match pget region_map reg with
      | None => Err KeyError
      | Some r => bind (region_points reg_points region_map regs') (fun l => Ok (dlist reg_points r ++ l))
      end
  end.
(** points[point_ids]; the numbers are those of points. *)
Definition pick (points : list P) (ids : list nat) : list P :=
  flat_map (fun i => match nth_error points i with Some p => [p] | None => [] end) ids.
(** [Field.set_points], correlated_field.py:82-94. *)
Definition field_set_points (m : mstate) (f : fobj) (id : nat) (pts : list P) : res mstate :=
  match f_kind f with
  | KConst c => Ok (mkM (m_n m) (m_pts m) (m_ids m) (dset (m_samples m) id (repeat c (length pts))) (m_draws m))
  | KRandom r => if rf_ok r pts then Ok (mkM (m_n m) (dset (m_pts m) r pts) (m_ids m) (m_samples m) (m_draws m)) else Err PyException
  | KFunc _ _ => Ok m
  end.
Definition set_field (fs : fset) (points : list P) (reg_points : dict (list nat)) (region_map : list (pystr * nat))
  (m : mstate) (id : nat) : res mstate :=
  let f := obj fs id in
  match f_regions f with
  | [] => bind (field_set_points m f id points) (fun m1 =>
            Ok (mkM (m_n m1) (m_pts m1) (dset (m_ids m1) id (seq 0 (m_n m1))) (m_samples m1) (m_draws m1)))
  | regs => bind (region_points reg_points region_map regs) (fun ids =>
            bind (field_set_points m f id (pick points ids)) (fun m1 =>
            Ok (mkM (m_n m1) (m_pts m1) (dset (m_ids m1) id ids) (m_samples m1) (m_draws m1))))
  end.
Fixpoint set_fields (fs : fset) (points : list P) reg_points region_map (m : mstate) (ids : list nat) : res mstate :=
  match ids with
  | [] => Ok m
  | id :: ids' => bind (set_field fs points reg_points region_map m id) (fun m1 => set_fields fs points reg_points region_map m1 ids')
  end.
(** [Fields.set_points], correlated_field.py:189-218. *)
Definition set_points (fs : fset) (m : mstate) (points : list P) (region_ids : list nat) (region_map : list (pystr * nat)) : res mstate :=
  if Nat.eqb (length points) (length region_ids) then
    set_fields fs points (group_regions 0 region_ids []) region_map
      (mkM (length points) (m_pts m) (m_ids m) (m_samples m) (m_draws m)) (order fs)
  else Err AssertionError.

(** Evaluation of a function element by element: numpy repeats an argument of length one. *)
Definition vec_len (args : list (list V)) : nat :=
  match find (fun a => negb (Nat.eqb (length a) 1)) args with Some a => length a | None => 1 end.
Definition vec (h : list V -> V) (args : list (list V)) : res (list V) :=
  let n := vec_len args in
  if forallb (fun a => Nat.eqb (length a) 1 || Nat.eqb (length a) n)%bool args
  then Ok (map (fun j => h (map (fun a => nth (if Nat.eqb (length a) 1 then 0 else j) a zero) args)) (seq 0 n))
  else Err ValueError.
Fixpoint get_samples (m : mstate) (ids : list nat) : res (list (list V)) :=
  match ids with
  | [] => Ok []
  | id :: ids' => match dget (m_samples m) id with
                  | None => Err AttributeError
                  | Some l => bind (get_samples m ids') (fun ls => Ok (l :: ls))
                  end
  end.
(** [Field.sample], correlated_field.py:96-108. *)
Definition field_sample (m : mstate) (f : fobj) (id : nat) : res (mstate * list V) :=
  match f_kind f with
  | KConst _ => match dget (m_samples m) id with Some l => Ok (m, l) | None => Err AttributeError end
  | KRandom r =>
      match dget (m_pts m) r with
      | None => Err AttributeError
      | Some pts => let l := rf_draw r (m_draws m) pts in
                    Ok (mkM (m_n m) (m_pts m) (m_ids m) (dset (m_samples m) id l) (S (m_draws m)), l)
      end
  | KFunc _ h =>
      bind (get_samples m (f_params f)) (fun args =>
      bind (vec h args) (fun l => Ok (mkM (m_n m) (m_pts m) (m_ids m) (dset (m_samples m) id l) (m_draws m), l)))
  end.
(** result[ids] = values of numpy, one value is repeated. *)
Fixpoint put_values (l : list V) (ids : list nat) (vals : list V) : list V :=
  match ids, vals with
  | i :: ids', v :: vals' => put_values (upd l i (fun _ => v)) ids' vals'
  | _, _ => l
  end.
Definition assign (l : list V) (ids : list nat) (vals : list V) : res (list V) :=
  if Nat.eqb (length ids) (length vals) then Ok (put_values l ids vals)
  else match vals with [v] => Ok (put_values l ids (repeat v (length ids))) | _ => Err ValueError end.
(** [Fields.sample], correlated_field.py:220-231. *)
Definition sample_one (fs : fset) (s : mstate * list (pystr * list V)) (id : nat) : res (mstate * list (pystr * list V)) :=
  let '(m, result) := s in
  let f := obj fs id in
  bind (field_sample m f id) (fun r =>
    let '(m1, smp) := r in
    if f_outer f then
      match dget (m_ids m1) id with
      | None => Err AttributeError
      | Some ids => bind (assign (repeat zero (m_n m1)) ids smp) (fun l => Ok (m1, pset result (f_name f) l))
      end
    else Ok (m1, result)).
Fixpoint sample_loop (fs : fset) (s : mstate * list (pystr * list V)) (ids : list nat) : res (mstate * list (pystr * list V)) :=
  match ids with [] => Ok s | id :: ids' => bind (sample_one fs s id) (fun s1 => sample_loop fs s1 ids') end.
Definition sample (fs : fset) (m : mstate) : res (mstate * list (pystr * list V)) := sample_loop fs (m, []) (order fs).
End Fields.
Arguments KConst {V}. Arguments KRandom {V}. Arguments KFunc {V}. Arguments PName {V}. Arguments PNum {V}.
