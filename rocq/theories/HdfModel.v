(** File storage. Models mlmc/sample_storage_hdf.py and mlmc/tool/hdf5.py.
    One dataset append, one dataset/group creation and one attribute write are atomic.
    The result format dataset is modelled separately in FormatModel.v. *)
From Verif Require Import Base.

(** Computation on a state that may raise; effects before the exception stay. *)
Definition st (S A : Type) := S -> S * res A.
Definition sret {S A} (a : A) : st S A := fun s => (s, Ok a).
Definition sthrow {S A} (e : exn) : st S A := fun s => (s, Err e).
Definition sbind {S A B} (m : st S A) (k : A -> st S B) : st S B :=
  fun s => match m s with (s', Ok a) => k a s' | (s', Err e) => (s', Err e) end.

(** for x in l: body(x) *)
Fixpoint sfor {S A} (l : list A) (body : A -> st S unit) : st S unit :=
  match l with
  | [] => sret tt
  | x :: l' => sbind (body x) (fun _ => sfor l' body)
  end.

Section Hdf.
Context {V : Type}.   (* a stored (fine, coarse) pair *)

(** Datasets of one level group, hdf5.py:225-242 and 303-320; collected_values is created by
    the first successful batch. n_ops_estimate is the group attribute of hdf5.py:430-450. *)
Record lgroup := mkLG {
  g_sched : list pystr;
  g_cids : list pystr;
  g_cvals : option (list V);
  g_failed : list (pystr * pystr);
  g_nops : option (Q * Q) }.

Definition empty_group : lgroup := mkLG [] [] None [] None.

(** A group in the file has its datasets, or only the bare group (hdf5.py:217-223 with
    loaded_from_file = True). A level id at or beyond the length of the list has no group. *)
Inductive gstate := GBare | GFull (g : lgroup).

Record hfile := mkFile {
  f_params : option nat;      (* number of entries of the level_parameters attribute *)
  f_groups : list gstate }.

Definition no_file : hfile := mkFile None [].

(** SampleStorageHDF object: _hdf_object._load_from_file and the level ids of _level_groups. *)
Record hobj := mkObj { o_loaded : bool; o_groups : list nat }.

(** hdf5.py:106-121 [add_level_group] and 197-242 [LevelGroup.__init__] for level number [i];
    groups are always added in the order 0, 1, 2, ... *)
Definition make_datasets (g : gstate) : gstate :=
  match g with GBare => GFull empty_group | GFull g => GFull g end.

Definition add_level_group (loaded : bool) (f : hfile) (i : nat) : hfile :=
  let gs := if Nat.ltb i (length (f_groups f)) then f_groups f else f_groups f ++ [GBare] in
  mkFile (f_params f) (if loaded then gs else upd gs i make_datasets).

Definition add_level_groups (o : hobj) (f : hfile) (n : nat) : hobj * hfile :=
  (mkObj (o_loaded o) (o_groups o ++ seq 0 n),
   fold_left (add_level_group (o_loaded o)) (seq 0 n) f).

(** sample_storage_hdf.py:16-34 [__init__] on a file that exists, with hdf5.py:71-82 [load_from_file]. *)
Definition hdf_open (f : hfile) : res (hobj * hfile) :=
  match f_params f with
  | None => Err PyException
  | Some n => if Nat.eqb n 0 then Ok (mkObj true [], f)
              else Ok (add_level_groups (mkObj true []) f n)
  end.

(** sample_storage_hdf.py:16-34 [__init__] when the file does not exist. *)
Definition hdf_new : hobj := mkObj false [].

(** sample_storage_hdf.py:58-76 [save_global_data], hdf5.py:59-69 [create_file_structure],
    84-91 [clear_groups], 93-104 [init_header]; [n] is the number of level parameters.
    Result format left out (FormatModel.v). *)
Definition save_global_data (n : nat) : st (hobj * hfile) unit := fun '(o, f) =>
  let start := if o_loaded o
               then match f_params f with None => Err PyException | Some _ => Ok f end
               else Ok (mkFile (Some n) []) in
  match start with
  | Err e => ((o, f), Err e)
  | Ok f1 => if Nat.eqb (length (o_groups o)) n then ((o, f1), Ok tt)
             else (add_level_groups o f1 n, Ok tt)
  end.

(** self._level_groups[i] followed by opening its HDF group. *)
Definition get_group (o : hobj) (f : hfile) (i : nat) : res (nat * lgroup) :=
  match nth_error (o_groups o) i with
  | None => Err IndexError
  | Some lid => match nth_error (f_groups f) lid with
                | Some (GFull g) => Ok (lid, g)
                | _ => Err KeyError
                end
  end.

Definition set_group (f : hfile) (lid : nat) (g : lgroup) : hfile :=
  mkFile (f_params f) (upd (f_groups f) lid (fun _ => GFull g)).

Definition with_group (o : hobj) (i : nat) (k : lgroup -> lgroup) : st hfile unit := fun f =>
  match get_group o f i with
  | Err e => (f, Err e)
  | Ok (lid, g) => (set_group f lid (k g), Ok tt)
  end.

(** hdf5.py:293-301 [append_scheduled]. *)
Definition append_scheduled (ids : list pystr) (g : lgroup) : lgroup :=
  mkLG (g_sched g ++ ids) (g_cids g) (g_cvals g) (g_failed g) (g_nops g).

(** sample_storage_hdf.py:135-142 [save_scheduled_samples]; nothing is opened for an empty list. *)
Definition save_scheduled (o : hobj) (i : nat) (ids : list pystr) : st hfile unit :=
  match ids with
  | [] => fun f => match nth_error (o_groups o) i with
                   | None => (f, Err IndexError) | Some _ => (f, Ok tt) end
  | _ => with_group o i (append_scheduled ids)
  end.

(** hdf5.py:303-320 [append_successful]: the separate file writes, in order. *)
Definition write_ids (s : list (pystr * V)) (g : lgroup) : lgroup :=
  mkLG (g_sched g) (g_cids g ++ map fst s) (g_cvals g) (g_failed g) (g_nops g).
Definition make_values (g : lgroup) : lgroup :=
  mkLG (g_sched g) (g_cids g)
       (match g_cvals g with None => Some [] | Some v => Some v end) (g_failed g) (g_nops g).
Definition write_values (s : list (pystr * V)) (g : lgroup) : lgroup :=
  mkLG (g_sched g) (g_cids g)
       (option_map (fun v => v ++ map snd s) (g_cvals g)) (g_failed g) (g_nops g).
Definition succ_writes (s : list (pystr * V)) : list (lgroup -> lgroup) :=
  [write_ids s; make_values; write_values s].
Definition append_successful (s : list (pystr * V)) (g : lgroup) : lgroup :=
  fold_left (fun g w => w g) (succ_writes s) g.

(** hdf5.py:322-328 [append_failed]. *)
Definition append_failed (s : list (pystr * pystr)) (g : lgroup) : lgroup :=
  mkLG (g_sched g) (g_cids g) (g_cvals g) (g_failed g ++ s) (g_nops g).

(** sample_storage_hdf.py:115-133 [save_samples]. *)
Definition save_level {A} (o : hobj) (app : list A -> lgroup -> lgroup) (x : nat * list A) : st hfile unit :=
  match snd x with
  | [] => sret tt
  | _ => with_group o (fst x) (app (snd x))
  end.
Definition save_samples (o : hobj) (ok : dict (list (pystr * V))) (bad : dict (list (pystr * pystr)))
  : st hfile unit :=
  sbind (sfor ok (save_level o append_successful)) (fun _ => sfor bad (save_level o append_failed)).

(** sample_storage_hdf.py:223-237 [save_n_ops]. *)
Definition add_n_ops (t : Q) (n : nat) (g : lgroup) : lgroup :=
  let cur := match g_nops g with None => (0%Q, 0%Q) | Some c => c end in
  let new := match n with
             | 0 => cur
             | S _ => ((fst cur + t)%Q, (snd cur + inject_Z (Z.of_nat n))%Q)
             end in
  mkLG (g_sched g) (g_cids g) (g_cvals g) (g_failed g) (Some new).
Definition save_n_ops (o : hobj) (ts : dict (Q * nat)) : st hfile unit :=
  sfor ts (fun '(level, (t, n)) => with_group o level (add_n_ops t n)).

(** Reading all groups of the object: for level in self._level_groups. *)
Fixpoint read_groups (f : hfile) (lids : list nat) : res (list (nat * lgroup)) :=
  match lids with
  | [] => Ok []
  | lid :: r => match nth_error (f_groups f) lid with
                | Some (GFull g) => bind (read_groups f r) (fun l => Ok ((lid, g) :: l))
                | _ => Err KeyError
                end
  end.
Definition groups_of (o : hobj) (f : hfile) := read_groups f (o_groups o).

(** sample_storage_hdf.py:78-86 [load_scheduled_samples]: a dictionary, so a repeated level id
    overwrites. *)
Definition load_scheduled (o : hobj) (f : hfile) : res (dict (list pystr)) :=
  bind (groups_of o f) (fun gs =>
    Ok (fold_left (fun d x => dset d (fst x) (g_sched (snd x))) gs [])).

(** hdf5.py:390-398 [get_finished_ids]. *)
Definition finished_ids (g : lgroup) : list pystr := g_cids g ++ map fst (g_failed g).

(** sample_storage_hdf.py:186-195 [n_finished]. The level id indexes an array with one entry
    per group object. *)
Definition n_finished (o : hobj) (f : hfile) : res (list nat) :=
  bind (groups_of o f) (fun gs =>
    fold_left (fun r x => bind r (fun a =>
        if Nat.ltb (fst x) (length a)
        then Ok (upd a (fst x) (fun n => n + length (finished_ids (snd x))))
        else Err IndexError))
      gs (Ok (repeat 0 (length (o_groups o))))).

(** hdf5.py:400-406 [get_unfinished_ids]: list(set(scheduled) - set(finished)); python's set order
    is arbitrary, here first occurrences in scheduling order. *)
Definition mem_str (x : pystr) (l : list pystr) : bool :=
  if in_dec pystr_eq_dec x l then true else false.
Definition unfinished_level (g : lgroup) : list pystr :=
  filter (fun x => negb (mem_str x (finished_ids g))) (nodup pystr_eq_dec (g_sched g)).

(** sample_storage_hdf.py:197-207 [unfinished_ids]. *)
Definition unfinished_ids (o : hobj) (f : hfile) : res (list pystr) :=
  bind (groups_of o f) (fun gs => Ok (flat_map (fun x => unfinished_level (snd x)) gs)).

(** sample_storage_hdf.py:209-217 [failed_samples]; level ids kept as numbers. *)
Definition failed_samples (o : hobj) (f : hfile) : res (dict (list pystr)) :=
  bind (groups_of o f) (fun gs =>
    Ok (fold_left (fun d x => dset d (fst x) (map fst (g_failed (snd x)))) gs [])).

(** sample_storage_hdf.py:219-221 [clear_failed], hdf5.py:418-428. *)
Definition clear_failed_group (g : lgroup) : lgroup :=
  mkLG (g_sched g) (g_cids g) (g_cvals g) [] (g_nops g).
Definition clear_failed (o : hobj) : st hfile unit := fun f =>
  sfor (o_groups o) (fun lid f =>
    match nth_error (f_groups f) lid with
    | Some (GFull g) => (set_group f lid (clear_failed_group g), Ok tt)
    | Some GBare => (f, Ok tt)
    | None => (f, Err KeyError)
    end) f.

(** sample_storage_hdf.py:239-250 [get_n_ops]: TypeError for a level without record. *)
Definition get_n_ops (o : hobj) (f : hfile) : res (list Q) :=
  bind (groups_of o f) (fun gs =>
    fold_left (fun r x => bind r (fun a =>
        match g_nops (snd x) with
        | None => Err TypeError
        | Some (t, n) =>
            if Nat.ltb (fst x) (length a)
            then Ok (upd a (fst x) (fun _ => if Qle_bool n 0 then 0%Q else (t / n)%Q))
            else Err IndexError
        end))
      gs (Ok (repeat 0%Q (length (o_groups o))))).

End Hdf.
Arguments lgroup V : clear implicits.
Arguments gstate V : clear implicits.
Arguments hfile V : clear implicits.
