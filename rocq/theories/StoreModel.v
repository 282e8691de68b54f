(** Reading results from the file storage, and the in-memory storage.
    Models mlmc/sample_storage.py, mlmc/sample_storage_hdf.py:144-184, 258-266 and
    mlmc/tool/hdf5.py:353-388. *)
From Verif Require Import Base HdfModel.

(** mlmc/quantity/quantity_spec.py:24-28 [ChunkSpec]; the slice is [start, stop) with step 1. *)
Record chunk_spec := mkChunk { c_id : nat; c_start : nat; c_stop : nat; c_level : nat }.

Section Store.
Context {X : Type}.                     (* one number *)
Notation pairx := (list X * list X)%type. (* fine and coarse result *)

(** h5py iter_chunks of a one dimensional dataset of [n] rows stored in chunks of [c] rows. *)
Fixpoint iter_chunks (fuel c start n : nat) : list (nat * nat) :=
  match fuel with
  | 0 => []
  | S fuel' => if Nat.ltb start n then (start, Nat.min (start + c) n) :: iter_chunks fuel' c (start + c) n else []
  end.

Fixpoint number {A B} (k : nat -> A -> B) (i : nat) (l : list A) : list B :=
  match l with [] => [] | x :: l' => k i x :: number k (S i) l' end.

(** hdf5.py:353-363 [LevelGroup.chunks]; [c] is the chunk size h5py chose for the dataset. *)
Definition chunks (c : nat) (lid : nat) (g : lgroup pairx) (n_samples : option nat) : res (list chunk_spec) :=
  match g_cvals g with
  | None => Err AttributeError
  | Some vs => match n_samples with
               | Some n => Ok [mkChunk 0 0 n lid]
               | None => Ok (number (fun i s => mkChunk i (fst s) (snd s) lid) 0
                               (iter_chunks (length vs) c 0 (length vs)))
               end
  end.

(** Python slicing l[start:stop]. *)
Definition slice {A} (l : list A) (start stop : nat) : list A := firstn (stop - start) (skipn start l).

(** hdf5.py:365-376 [collected]. *)
Definition collected_slice (g : lgroup pairx) (start stop : nat) : option (list pairx) :=
  option_map (fun vs => slice vs start stop) (g_cvals g).

(** chunk[:, :1, :] on level 0 and transpose((2, 0, 1)): entry [m][i][k] is component m of sample i,
    fine (k = 0) or coarse (k = 1). [M] is the number of components of the dataset and [d] never used
    for rows of that length. *)
Definition transpose (d : X) (M lid : nat) (rows : list pairx) : list (list (list X)) :=
  map (fun m => map (fun v => if Nat.eqb lid 0 then [nth m (fst v) d]
                              else [nth m (fst v) d; nth m (snd v) d]) rows) (seq 0 M).

(** sample_storage_hdf.py:169-184 [sample_pairs_level]. A level without values fails:
    None has neither slicing nor transpose. *)
Definition sample_pairs_level (d : X) (M : nat) (o : hobj) (f : hfile pairx) (cs : chunk_spec)
  : res (list (list (list X))) :=
  bind (get_group o f (c_level cs)) (fun lg =>
    match collected_slice (snd lg) (c_start cs) (c_stop cs) with
    | None => Err (if Nat.eqb (c_level cs) 0 then TypeError else AttributeError)
    | Some rows => Ok (transpose d M (c_level cs) rows)
    end).

(** sample_storage_hdf.py:258-266 [get_n_collected] with hdf5.py:378-388; None stands for the
    AttributeError object that is returned (not raised) for a level without values. *)
Definition get_n_collected (o : hobj) (f : hfile pairx) : res (list (option nat)) :=
  bind (groups_of o f) (fun gs =>
    fold_left (fun r x => bind r (fun a =>
        if Nat.ltb (fst x) (length a)
        then Ok (upd a (fst x) (fun _ => option_map (@length _) (g_cvals (snd x))))
        else Err IndexError))
      gs (Ok (repeat (Some 0) (length (o_groups o))))).

(** Memory storage: the dictionaries of sample_storage.py:140-149. *)
Record memory := mkMem {
  m_failed : dict (list (pystr * pystr));
  m_results : dict (list pairx);
  m_ids : dict (list pystr);
  m_sched : dict (list pystr);
  m_nops : dict Q;
  m_nfin : dict nat }.
Definition mem_new : memory := mkMem [] [] [] [] [] [].

(** d.setdefault(k, []).extend(l) *)
Definition dextend {A} (d : dict (list A)) (k : nat) (l : list A) : dict (list A) := dset d k (dlist d k ++ l).

(** sample_storage.py:164-189 [_save_successful]: an empty list fails on res[:, 1]. *)
Definition mem_save_ok (x : nat * list (pystr * pairx)) : st memory unit := fun m =>
  match snd x with
  | [] => (m, Err IndexError)
  | _ =>
      let l := fst x in
      let fin := match dget (m_nfin m) l with None => 0 | Some n => n end in
      (mkMem (m_failed m)
             (match dget (m_results m) l with
              | None => dset (m_results m) l (map snd (snd x))
              | Some r => dset (m_results m) l (r ++ map snd (snd x)) end)
             (dextend (m_ids m) l (map fst (snd x)))
             (m_sched m) (m_nops m)
             (dset (m_nfin m) l (fin + length (snd x))), Ok tt)
  end.

(** sample_storage.py:191-203 [_save_failed]. *)
Definition mem_save_failed (x : nat * list (pystr * pystr)) : st memory unit := fun m =>
  let l := fst x in
  (mkMem (dextend (m_failed m) l (snd x)) (m_results m) (m_ids m) (m_sched m) (m_nops m)
         (match dget (m_nfin m) l with
          | None => dset (m_nfin m) l 0
          | Some n => dset (m_nfin m) l (n + length (snd x)) end), Ok tt).

(** sample_storage.py:151-158 [save_samples]. *)
Definition mem_save_samples (ok : dict (list (pystr * pairx))) (bad : dict (list (pystr * pystr))) : st memory unit :=
  sbind (sfor ok mem_save_ok) (fun _ => sfor bad mem_save_failed).

(** sample_storage.py:213-222 [n_finished]; None is an uninitialised entry of np.empty. *)
Definition mem_n_finished (m : memory) : res (list (option nat)) :=
  match m_nfin m with
  | [] => Err ValueError
  | _ => Ok (map (fun l => dget (m_nfin m) l) (seq 0 (S (list_max (dkeys (m_nfin m))))))
  end.

(** sample_storage.py:230-243 [save_scheduled_samples], [load_scheduled_samples]. *)
Definition mem_save_scheduled (l : nat) (ids : list pystr) (m : memory) : memory :=
  mkMem (m_failed m) (m_results m) (m_ids m) (dextend (m_sched m) l ids) (m_nops m) (m_nfin m).
Definition mem_load_scheduled (m : memory) : dict (list pystr) := m_sched m.

(** sample_storage.py:258-259 [_level_chunks]; python's [:n] with n = None is the whole array. *)
Definition mem_chunks (m : memory) (l : nat) (n_samples : option nat) : res (list chunk_spec) :=
  match dget (m_results m) l with
  | None => Err KeyError
  | Some r => Ok [mkChunk 0 0 (match n_samples with None => length r | Some n => Nat.min n (length r) end) l]
  end.

(** sample_storage.py:261-285 [sample_pairs_level]; results with two axes (scalar results) are left out. *)
Definition mem_sample_pairs_level (d : X) (M : nat) (m : memory) (cs : chunk_spec) : res (list (list (list X))) :=
  match dget (m_results m) (c_level cs) with
  | None => Err KeyError
  | Some r => Ok (transpose d M (c_level cs) (slice r (c_start cs) (c_stop cs)))
  end.

(** sample_storage.py:317-328 [get_level_ids], [get_n_collected]: one entry per level with results. *)
Definition mem_get_n_collected (m : memory) : res (list nat) :=
  fold_left (fun r l => bind r (fun a =>
      if Nat.ltb l (length a)
      then Ok (upd a l (fun _ => length (dlist (m_results m) l)))
      else Err IndexError))
    (dkeys (m_results m)) (Ok (repeat 0 (length (m_results m)))).

(** sample_storage.py:287-298 [save_n_ops] and 300-308 [get_n_ops]. Assumed of numpy: np.max of a
    keys view, a 0-d object array, is the view itself, so the list has one entry per recorded level.
    None is an entry of np.empty that was never written. *)
Definition mem_save_n_ops (ts : dict (Q * nat)) (m : memory) : memory :=
  fold_left (fun m x => let '(l, (t, n)) := x in
      let cur := match dget (m_nops m) l with None => 0%Q | Some q => q end in
      mkMem (m_failed m) (m_results m) (m_ids m) (m_sched m)
        (dset (m_nops m) l (if Nat.eqb n 0 then cur else (cur + t / inject_Z (Z.of_nat n))%Q)) (m_nfin m)) ts m.
Definition mem_get_n_ops (m : memory) : res (list (option Q)) :=
  fold_left (fun r x => bind r (fun a =>
      if Nat.ltb (fst x) (length a) then Ok (upd a (fst x) (fun _ => Some (snd x))) else Err IndexError))
    (m_nops m) (Ok (repeat None (length (m_nops m)))).

(** sample_storage.py:310-315 [unfinished_ids]. *)
Definition mem_unfinished_ids (m : memory) : list pystr := [].

End Store.
Arguments memory X : clear implicits.
