(** ProcessBase: choice of the environment and of the work for a command, mlmc/tool/process_base.py:12-66, 105-138. *)
From Verif Require Import Base.

Definition slash : ascii := "/"%char.
Definition is_slash (c : ascii) : bool := Ascii.eqb c slash.
(** str.rstrip('/'). *)
Fixpoint drop_slashes (l : pystr) : pystr := match l with c :: l' => if is_slash c then drop_slashes l' else l | [] => [] end.
Definition rstrip (p : pystr) : pystr := rev (drop_slashes (rev p)).
(** The characters after the last '/'. *)
Fixpoint before_slash (l : pystr) : pystr := match l with c :: l' => if is_slash c then [] else c :: before_slash l' | [] => [] end.
(** os.path.split for POSIX (standard library, used at process_base.py:112): the head loses its trailing slashes unless it has only slashes. *)
Definition path_split (p : pystr) : pystr * pystr :=
  let tail := rev (before_slash (rev p)) in
  let head := firstn (length p - length tail) p in
  (if forallb is_slash head then head else rstrip head, tail).

(** The loop process_base.py:111-112; [tail]: None while unbound. The number of iterations is bounded by [fuel]; None: not finished. *)
Fixpoint root_loop (fuel : nat) (root_dir : pystr) (tail : option pystr) : option (option pystr) :=
  if list_eq_dec ascii_dec root_dir [slash] then Some tail else
  match fuel with
  | O => None
  | S fuel => let '(h, t) := path_split root_dir in root_loop fuel h (Some t)
  end.

(** Attributes set, process_base.py:123-138; [e_qsub]: entry 'qsub' of pbs_config. The constant entries of pbs_config are left out. *)
Record env := mkEnv { e_sleep : nat; e_init_timeout : nat; e_timeout : nat; e_qsub : option pystr; e_flow : pystr; e_gmsh : pystr }.
Definition metacentrum : env :=
  mkEnv 30 600 0 (Some (str "/usr/bin/qsub")) (str "flow123d") (str "/storage/liberec3-tul/home/martin_spetlik/astra/gmsh/bin/gmsh").
Definition local : env :=
  mkEnv 1 60 60 None (str "/home/jb/workspace/flow123d/bin/fterm flow123d dbg") (str "/home/jb/local/gmsh-3.0.5-git-Linux/bin/gmsh").
(** [set_environment_variables], process_base.py:105-138. Simplified: the argument is the value of os.path.abspath(self.work_dir). *)
Definition set_environment_variables (fuel : nat) (abs_dir : pystr) : option (res env) :=
  match root_loop fuel abs_dir None with
  | None => None
  | Some None => Some (Err UnboundLocalError)
  | Some (Some tail) => Some (Ok (if list_eq_dec ascii_dec tail (str "storage") then metacentrum else local))
  end.

(** Commands of [get_arguments], process_base.py:39-42. *)
Inductive command := Crun | Ccollect | Crenew | Cprocess.
(** What the object does: directories, setup_config(n_levels, clean), generate_jobs, all_collect. *)
Inductive action := Makedirs | Setup (n_levels : nat) (clean : bool) | Generate | CollectAll.
Section Process.
(** The overriding class: does setup_config succeed (not overridden: NotImplementedError, PyException here); does it set sample_sleep and
    sample_timeout; does generate_jobs take these two arguments (not overridden: it does not, process_base.py:177). *)
Variables (setup_ok sets_sleep takes_sleep : bool).
(** [run], process_base.py:53-66, for the list [1] of numbers of levels; the argument renew is not used. The calls made and the outcome. *)
Definition pb_run (clean renew : bool) : list action * res unit :=
  let t := [Makedirs; Setup 1 clean] in
  if setup_ok then
    if sets_sleep then
      if takes_sleep then (t ++ [Generate; CollectAll], Ok tt) else (t, Err TypeError)
    else (t, Err AttributeError)
  else (t, Err PyException).
(** [__init__], process_base.py:12-27: the attribute append, the calls and the outcome. *)
Definition pb_init (cmd : command) (clean : bool) : bool * (list action * res unit) :=
  match cmd with
  | Crun => (false, pb_run clean true)
  | Crenew => (true, pb_run false true)
  | _ => (true, pb_run false true)
  end.
End Process.
