(** Directories of samples: mlmc/sampling_pool.py:26-51, 86-204, 207-252 and 297-337. A path is the list of its components from the
    root, without "." and ".."; the tree of files maps paths to entries. Errors of the operating system are PyException. Results
    and running times of samples are in PoolModel.v, permissions and links are left out. *)
From Verif Require Import Base TagModel.

Section Work.
Context {C : Type}.

Inductive entry := Dir | File (c : C).
Definition path := list pystr.
Definition fs := path -> option entry.

(** Name of a file given by the user. *)
Inductive fpath := Abs (p : path) | Rel (p : path).

(** Files, and the working directory of the process: None when that directory has been removed. *)
Record world := mkW { files : fs; cwd : option path }.

(** [strip d p]: the rest of [p] below [d]. *)
Fixpoint strip (d p : path) : option path :=
  match d, p with
  | [], _ => Some p
  | _ :: _, [] => None
  | a :: d', b :: p' => if pystr_eq_dec a b then strip d' p' else None
  end.
Definition under (d p : path) : bool := match strip d p with Some _ => true | None => false end.

Definition path_eqb (p q : path) : bool := if list_eq_dec pystr_eq_dec p q then true else false.

Definition is_dir (s : fs) (p : path) : bool := match s p with Some Dir => true | _ => false end.
Definition exists_ (s : fs) (p : path) : bool := match s p with Some _ => true | None => false end.

(** The beginnings of a path, itself included. *)
Definition ancestors (p : path) : list path := map (fun k => firstn k p) (seq 0 (S (length p))).

(** os.makedirs(p, exist_ok=True). *)
Definition makedirs (s : fs) (p : path) : res fs :=
  if existsb (fun q => match s q with Some (File _) => true | _ => false end) (ancestors p) then Err PyException
  else Ok (fun q => if under q p then Some Dir else s q).

(** shutil.rmtree of a directory. *)
Definition rmtree (w : world) (p : path) : world :=
  mkW (fun q => if under p q then None else files w q)
      (match cwd w with Some d => if under p d then None else Some d | None => None end).

(** shutil.copytree(src, dst) for a [dst] that does not exist and is not below [src]; directories above [dst] are made. *)
Definition copytree (s : fs) (src dst : path) : res fs :=
  if negb (is_dir s src) || exists_ s dst then Err PyException
  else bind (makedirs s dst) (fun s1 =>
       Ok (fun q => match strip dst q with Some r => s (src ++ r) | None => s1 q end)).

(** A name is looked up from the working directory; in a removed one nothing is found. *)
Definition resolve (d : option path) (f : fpath) : option path :=
  match f with
  | Abs p => Some p
  | Rel p => match d with Some q => Some (q ++ p) | None => None end
  end.

(** open(p, "w") and writing: the directory must exist. *)
Definition write_file (s : fs) (d : path) (n : pystr) (c : C) : res fs :=
  if negb (is_dir s d) || is_dir s (d ++ [n]) then Err PyException
  else Ok (fun q => if path_eqb q (d ++ [n]) then Some (File c) else s q).

(** [change_to_sample_directory], sampling_pool.py:128-138. *)
Definition change_to_sample_directory (s : fs) (work : path) (id : pystr) : res fs :=
  if is_dir s (work ++ [id]) then Ok s else makedirs s (work ++ [id]).

(** [copy_sim_files], sampling_pool.py:140-148. *)
Fixpoint copy_sim_files (s : fs) (d : option path) (l : list fpath) (dir : path) : res fs :=
  match l with
  | [] => Ok s
  | f :: l' =>
      match resolve d f with
      | None => Err PyException
      | Some p => match s p with
                  | Some (File c) => bind (write_file s dir (@last pystr p []) c) (fun s' => copy_sim_files s' d l' dir)
                  | _ => Err PyException
                  end
      end
  end.

(** Simulation of a level: need_sample_workspace, common_files, and what it does: from the sample id (the seed is computed from it)
    and the contents of the files in its directory it determines the files it writes there, in order, and whether it succeeds.
    Simplified: all names are plain; a simulation without workspace writes no files. *)
Record lsim := mkL
  { need : bool; common : option (list fpath); run : pystr -> (pystr -> option entry) -> list (pystr * C) * bool }.

(** [handle_sim_files], sampling_pool.py:150-163. *)
Definition handle_sim_files (w : world) (work : path) (id : pystr) (ls : lsim) : res world :=
  if need ls then
    bind (change_to_sample_directory (files w) work id) (fun s =>
    bind (match common ls with None => Ok s | Some l => copy_sim_files s (cwd w) l (work ++ [id]) end) (fun s' =>
    Ok (mkW s' (Some (work ++ [id])))))
  else Ok w.

(** The writes of a simulation in the working directory; an error ends the simulation. *)
Fixpoint do_writes (s : fs) (d : option path) (l : list (pystr * C)) : fs * bool :=
  match l with
  | [] => (s, true)
  | (n, c) :: l' =>
      match d with
      | None => (s, false)
      | Some p => match write_file s p n c with Ok s' => do_writes s' d l' | Err _ => (s, false) end
      end
  end.

(** Contents of the working directory. *)
Definition view (s : fs) (d : option path) : pystr -> option entry :=
  fun n => match d with Some p => s (p ++ [n]) | None => None end.

(** [calculate_sample], sampling_pool.py:86-126: the files and whether err_msg is empty. handle_sim_files is outside of try. *)
Definition calculate_sample (w : world) (work : option path) (id : pystr) (ls : lsim) : res (world * bool) :=
  bind (if need ls then match work with Some p => handle_sim_files w p id ls | None => Err TypeError end else Ok w) (fun w1 =>
  let (wr, ok) := run ls id (view (files w1) (cwd w1)) in
  if need ls then let (s, done) := do_writes (files w1) (cwd w1) wr in Ok (mkW s (cwd w1), ok && done)
  else Ok (w1, ok)).

(** [move_dir], sampling_pool.py:176-191; [dest]: the path of the destination (os.path.join with the output directory). *)
Definition move_dir (w : world) (nd : bool) (work dest : option path) (id : pystr) : res world :=
  match nd, work, dest with
  | true, Some p, Some d =>
      bind (change_to_sample_directory (files w) p id) (fun s =>
      let w1 := mkW s (cwd w) in
      let w2 := if exists_ s (d ++ [id]) then rmtree w1 (d ++ [id]) else w1 in
      bind (copytree (files w2) (p ++ [id]) (d ++ [id])) (fun s' => Ok (mkW s' (cwd w2))))
  | _, _, _ => Ok w
  end.

(** [remove_sample_dir], sampling_pool.py:193-204. *)
Definition remove_sample_dir (w : world) (nd : bool) (work : option path) (id : pystr) : res world :=
  match nd, work with
  | true, Some p => bind (change_to_sample_directory (files w) p id) (fun s => Ok (rmtree (mkW s (cwd w)) (p ++ [id])))
  | _, _ => Ok w
  end.

(** [move_failed_rm], sampling_pool.py:171-174, and [move_successful_rm], 165-169. *)
Definition move_failed_rm (w : world) (nd : bool) (work dest : option path) (id : pystr) : res world :=
  bind (move_dir w nd work dest id) (fun w1 => remove_sample_dir w1 nd work id).
Definition move_successful_rm (w : world) (nd : bool) (work dest : option path) (id : pystr) : res world :=
  bind (keep_dir id) (fun k =>
  bind (if k then move_dir w nd work dest id else Ok w) (fun w1 => remove_sample_dir w1 nd work id)).

Definition s_output := str "output".
Definition s_failed := str "failed".
Definition s_successful := str "several_successful".

(** Attributes of a pool: _output_dir, _successful_dir, _debug. *)
Record pool := mkP { output_dir : option path; successful_dir : option path; debug : bool }.

(** [_create_dir], sampling_pool.py:41-51; [sub] = []: the output directory itself. rmtree of a file is an error. *)
Definition create_dir (w : world) (dbg : bool) (out : option path) (sub : path) : res world :=
  match out with
  | None => Ok w
  | Some o =>
      bind (if exists_ (files w) (o ++ sub) && negb dbg
            then if is_dir (files w) (o ++ sub) then Ok (rmtree w (o ++ sub)) else Err PyException
            else Ok w) (fun w1 =>
      bind (makedirs (files w1) (o ++ sub)) (fun s => Ok (mkW s (cwd w1))))
  end.

(** [__init__], sampling_pool.py:26-39; os.path.abspath of a relative name needs the working directory. *)
Definition new_pool (w : world) (work_dir : option fpath) (dbg : bool) : res (world * pool) :=
  bind (match work_dir with
        | None => Ok None
        | Some f => match resolve (cwd w) f with Some p => Ok (Some (p ++ [s_output])) | None => Err PyException end
        end) (fun out =>
  bind (create_dir w dbg out []) (fun w1 =>
  bind (create_dir w1 dbg out [s_failed]) (fun w2 =>
  bind (create_dir w2 dbg out [s_successful]) (fun w3 =>
  Ok (w3, mkP out (option_map (fun o => o ++ [s_successful]) out) dbg))))).

(** [_process_result], sampling_pool.py:230-252. *)
Definition process_result (w : world) (p : pool) (id : pystr) (ls : lsim) (ok : bool) : res world :=
  if ok then
    if debug p then Ok w else move_successful_rm w (need ls) (output_dir p) (successful_dir p) id
  else if need ls then move_failed_rm w (need ls) (output_dir p) (option_map (fun o => o ++ [s_failed]) (output_dir p)) id
  else Ok w.

(** [schedule_sample] of OneProcessPool, sampling_pool.py:219-228; os.getcwd() of a removed directory raises. *)
Definition schedule_sample (w : world) (p : pool) (id : pystr) (ls : lsim) : res (world * pool * bool) :=
  bind (match output_dir p with
        | None => if need ls then match cwd w with Some d => Ok (mkP (Some d) (successful_dir p) (debug p)) | None => Err PyException end
                  else Ok p
        | Some _ => Ok p
        end) (fun p1 =>
  bind (calculate_sample w (output_dir p1) id ls) (fun '(w1, ok) =>
  bind (process_result w1 p1 id ls ok) (fun w2 => Ok (w2, p1, ok)))).

Fixpoint schedule_all (w : world) (p : pool) (l : list (pystr * lsim)) : res (world * pool * list bool) :=
  match l with
  | [] => Ok (w, p, [])
  | (id, ls) :: l' =>
      bind (schedule_sample w p id ls) (fun '(w1, p1, b) =>
      bind (schedule_all w1 p1 l') (fun '(w2, p2, bs) => Ok (w2, p2, b :: bs)))
  end.
End Work.
