(** Files of the flow simulation: common directories of the levels, mlmc/tool/flow_mc.py:77-88 and 153-221, and the directory of one
    sample, 223-277 and 302-319. *)
From Verif Require Import Base.

(** A directory: contents by names, in the order of os.listdir. Subdirectories are left out. *)
Section Files.
Context {C : Type}.
Definition dir := list (pystr * C).
(** Look up, os.path.isdir and open, mlmc/tool/flow_mc.py:86, 422. *)
Fixpoint fget (d : dir) (n : pystr) : option C :=
  match d with [] => None | (m, c) :: d' => if pystr_eq_dec n m then Some c else fget d' n end.
(** Writing of a file, mlmc/tool/flow_mc.py:313. *)
Fixpoint fset (d : dir) (n : pystr) (c : C) : dir :=
  match d with [] => [(n, c)] | (m, c') :: d' => if pystr_eq_dec n m then (m, c) :: d' else (m, c') :: fset d' n c end.
(** Removal of a file or of a directory, os and shutil, as used in mlmc/tool/flow_mc.py:85-87 and 267-269. *)
Definition fdel (d : dir) (n : pystr) : dir := filter (fun e => if pystr_eq_dec n (fst e) then false else true) d.
(** The files written by a program, mlmc/tool/flow_mc.py:314-317. *)
Definition write_all (d : dir) (l : dir) : dir := fold_left (fun d e => fset d (fst e) (snd e)) l d.
(** shutil.move of a file onto a name, which is overwritten, mlmc/tool/flow_mc.py:269. *)
Definition move (d : dir) (n m : pystr) : dir := match fget d n with Some c => fset (fdel d n) m c | None => d end.
End Files.
Arguments dir : clear implicits.

(** str.startswith, mlmc/tool/flow_mc.py:268. *)
Fixpoint starts_with (p s : pystr) : bool :=
  match p, s with [], _ => true | a :: p', b :: s' => if ascii_dec a b then starts_with p' s' else false | _, [] => false end.
(** mlmc/tool/flow_mc.py:268. *)
Definition fine_prefix : pystr := str "fine".
(** mlmc/tool/flow_mc.py:420. *)
Definition balance_file : pystr := str "water_balance.yaml".
(** FIELDS_FILE, mlmc/tool/flow_mc.py:105. *)
Definition fields_file : pystr := str "fields_sample.msh".

(** One sample. [C]: contents of files, [D]: common directories, [R]: results. [flow123d common d]: the files the program writes when
    it is run in the directory [d]; a missing file is PyException; its return code is ignored, a program that fails writes what it pleases. [extract]: the rest of
    _extract_result, mlmc/tool/flow_mc.py:424-445, as in FlowModel.v. [zeros]: np.zeros(len(fine_res)). *)
Section Sample.
Context {C D R : Type}.
Variable flow123d : D -> dir C -> dir C.
Variable extract : C -> res R.
Variable zeros : R -> R.

(** [_run_sample], mlmc/tool/flow_mc.py:302-319, with [_extract_result], 412-423. *)
Definition run_sample (d : dir C) (fields : C) (common : D) : dir C * res R :=
  let d1 := fset d fields_file fields in
  let d2 := write_all d1 (flow123d common d1) in
  (d2, match fget d2 balance_file with None => Err PyException | Some b => extract b end).
(** The loop of [calculate], mlmc/tool/flow_mc.py:267-269. *)
Definition rename_fine (d : dir C) : dir C :=
  fold_left (fun d n => if starts_with fine_prefix n then d else move d n (str "fine_" ++ n)) (map fst d) d.
(** The end of [calculate], mlmc/tool/flow_mc.py:261-277: values of the fields for the fine mesh and, with a coarse step, for the coarse mesh. Fields
    without outer names, for which a dictionary is empty, are left out. *)
Definition calculate_runs (d : dir C) (fine : C) (coarse : option C) (fine_common coarse_common : D) : dir C * res (R * R) :=
  match run_sample d fine fine_common with
  | (d1, Err e) => (d1, Err e)
  | (d1, Ok rf) =>
      let d2 := rename_fine d1 in
      match coarse with
      | None => (d2, Ok (rf, zeros rf))
      | Some cf =>
          match run_sample d2 cf coarse_common with
          | (d3, Err e) => (d3, Err e)
          | (d3, Ok rc) => (d3, Ok (rf, rc))
          end
      end
  end.
End Sample.

(** Common directories. [S]: steps; [fmt]: "{}".format(step); [zero]: step == 0; [M]: contents of mesh files; [Y]: contents of
    flow_input.yaml. [gmsh step]: the mesh file that gmsh writes, None if it fails (the return code is ignored); [points]: number of
    points extracted from a mesh, an error for an unusable file; [subst step]: names of the parameters used and the text,
    _substitute_yaml, mlmc/tool/flow_mc.py:396-410. Copies of the geometry and of the template are left out. *)
Section Levels.
Context {S M Y : Type}.
Variable fmt : S -> pystr.
Variable zero : S -> bool.
Variable gmsh : S -> option M.
Variable points : M -> res nat.
Variable subst : S -> list pystr * Y.
(** Files of a common directory, mlmc/tool/flow_mc.py:178-190. *)
Record cdir := mkC { c_mesh : option M; c_yaml : option Y }.
(** _fields_used_params of the FlowSim object, mlmc/tool/flow_mc.py:139 and 410; the work directory. *)
Record flowsim := mkFS { used : option (list pystr); dirs : dir cdir }.
(** The configuration of a level, mlmc/tool/flow_mc.py:196-211, with the number of points for task_size, 217. *)
Record config := mkCfg { fine_step : S; coarse_step : option S; fine_dir : pystr; coarse_dir : option pystr; cfg_used : option (list pystr); n_points : nat }.
(** mlmc/tool/flow_mc.py:170. *)
Definition dir_name (s : S) : pystr := str "l_step_" ++ fmt s ++ str "_common_files".
(** [force_mkdir], mlmc/tool/flow_mc.py:77-88. *)
Definition force_mkdir (d : dir cdir) (n : pystr) (force : bool) : dir cdir :=
  let d1 := if force then fdel d n else d in
  match fget d1 n with Some _ => d1 | None => fset d1 n (mkC None None) end.
(** [level_instance], mlmc/tool/flow_mc.py:153-221; [coarse] None: the parameter 0 of the lowest level. The weight of jobs and the time steps are left out. *)
Definition level_instance (clean : bool) (st : flowsim) (fine : S) (coarse : option S) : flowsim * res config :=
  let n := dir_name fine in
  let d1 := force_mkdir (dirs st) n clean in
  let st1 := if clean then mkFS (Some (fst (subst fine))) (fset d1 n (mkC (gmsh fine) (Some (snd (subst fine))))) else mkFS (used st) d1 in
  let nonzero := match coarse with Some s => if zero s then None else Some s | None => None end in
  (st1,
   match fget (dirs st1) n with
   | Some c =>
       match c_mesh c with
       | None => Err PyException
       | Some m => bind (points m) (fun k => Ok (mkCfg fine coarse n (option_map dir_name nonzero) (used st1) k))
       end
   | None => Err PyException
   end).
(** [Sampler._create_level_sim_objects], mlmc/sampler.py:62-80. *)
Fixpoint level_instances (clean : bool) (st : flowsim) (steps : list S) (coarse : option S) : flowsim * res (list config) :=
  match steps with
  | [] => (st, Ok [])
  | s :: steps' =>
      match level_instance clean st s coarse with
      | (st1, Err e) => (st1, Err e)
      | (st1, Ok c) =>
          match level_instances clean st1 steps' (Some s) with
          | (st2, Err e) => (st2, Err e)
          | (st2, Ok cs) => (st2, Ok (c :: cs))
          end
      end
  end.
(** mlmc/tool/flow_mc.py:241 and 249. *)
Definition read_dir (d : dir cdir) (n : pystr) : res (M * option Y) :=
  match fget d n with
  | Some c => match c_mesh c with Some m => bind (points m) (fun _ => Ok (m, c_yaml c)) | None => Err PyException end
  | None => Err PyException
  end.
(** The beginning of [calculate], mlmc/tool/flow_mc.py:232-252: names of the outer fields (set(None) raises TypeError in set_outer_fields,
    mlmc/random/correlated_field.py:182), meshes and the yaml files of the runs. *)
Definition calculate_inputs (d : dir cdir) (c : config) : res (list pystr * (M * option Y) * option (M * option Y)) :=
  match cfg_used c with
  | None => Err TypeError
  | Some names =>
      bind (read_dir d (fine_dir c)) (fun f =>
      match coarse_dir c with
      | None => Ok (names, f, None)
      | Some n => bind (read_dir d n) (fun g => Ok (names, f, Some g))
      end)
  end.
End Levels.
