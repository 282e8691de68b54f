(** Scripts of PBS jobs: mlmc/sampling_pool_pbs.py:119-167, 247-258 and the command line read in mlmc/tool/pbs_job.py:101-110. *)
From Verif Require Import Base TagModel.

(** Values of the configuration: texts (numbers are given as their texts) and lists of texts. *)
Inductive cval := VS (s : pystr) | VL (l : list pystr).
(** The keyword arguments, mlmc/sampling_pool_pbs.py:119: a dictionary in the order of insertion. *)
Definition config := list (pystr * cval).
(** dict.get, mlmc/sampling_pool_pbs.py:136. *)
Fixpoint cget (c : config) (k : pystr) : option cval :=
  match c with [] => None | (n, v) :: c' => if pystr_eq_dec k n then Some v else cget c' k end.
(** Assignment to a key, mlmc/sampling_pool_pbs.py:138-147, 253-256. *)
Fixpoint cset (c : config) (k : pystr) (v : cval) : config :=
  match c with [] => [(k, v)] | (n, w) :: c' => if pystr_eq_dec k n then (n, v) :: c' else (n, w) :: cset c' k v end.
(** A list, or a text taken as the list of its characters, as python's join and extend do, mlmc/sampling_pool_pbs.py:138, 161-164. *)
Definition items (v : cval) : list pystr := match v with VL l => l | VS s => map (fun c => [c]) s end.

(** str.format with keyword arguments, mlmc/sampling_pool_pbs.py:258: {{ and }} stand for braces, {name} for the value of the name.
    Simplified: a field with a conversion, format, attribute or index (characters ! : . and [) raises a PyException here; in python it
    raises a KeyError unless the name before that character is known. Lists as values are not printed either. *)
Inductive mode := Lit | Open | Name (rev_name : pystr) | Close.
Definition special (c : ascii) : bool := existsb (Ascii.eqb c) ["!"; ":"; "."; "["]%char.
Definition look_up (c : config) (name : pystr) : res pystr :=
  if forallb (fun a => match char_digit a with Some _ => true | None => false end) name then Err IndexError else
  if existsb special name then Err PyException else
  match cget c name with Some (VS s) => Ok s | Some (VL _) => Err PyException | None => Err KeyError end.
Fixpoint format_ (c : config) (m : mode) (s : pystr) : res pystr :=
  match s with
  | [] => match m with Lit => Ok [] | _ => Err ValueError end
  | a :: s' =>
      match m with
      | Lit => if Ascii.eqb a "{" then format_ c Open s' else if Ascii.eqb a "}" then format_ c Close s'
               else bind (format_ c Lit s') (fun r => Ok (a :: r))
      | Open => if Ascii.eqb a "{" then bind (format_ c Lit s') (fun r => Ok ("{"%char :: r)) else if Ascii.eqb a "}" then Err IndexError
                else format_ c (Name [a]) s'
      | Name n => if Ascii.eqb a "}" then bind (look_up c (rev n)) (fun v => bind (format_ c Lit s') (fun r => Ok (v ++ r)))
                  else if Ascii.eqb a "{" then Err ValueError else format_ c (Name (a :: n)) s'
      | Close => if Ascii.eqb a "}" then bind (format_ c Lit s') (fun r => Ok ("}"%char :: r)) else Err ValueError
      end
  end.
Definition format (c : config) (s : pystr) : res pystr := format_ c Lit s.

(** sep.join(l), mlmc/sampling_pool_pbs.py:138. *)
Fixpoint join (sep : pystr) (l : list pystr) : pystr :=
  match l with [] => [] | [x] => x | x :: l' => x ++ sep ++ join sep l' end.
(** The character of double quotes in mlmc/sampling_pool_pbs.py:163. *)
Definition quote : pystr := ["034"%char].

(** The defaults of [pbs_common_setting], mlmc/sampling_pool_pbs.py:135-147. *)
Definition with_flags (kw : config) : config :=
  let flags := match cget kw (str "select_flags") with Some v => items v | None => [] end in
  cset kw (str "select_flags") (VS (match flags with [] => [] | _ => str ":" ++ join (str ":") flags end)).
Definition with_default (kw : config) (k d : pystr) : config := match cget kw k with Some _ => kw | None => cset kw k (VS d) end.
Definition complete (kw : config) : config :=
  with_default (with_default (with_flags kw) (str "python") (str "python3")) (str "std_out_err") (str "oe").
(** The fixed lines of the template, mlmc/sampling_pool_pbs.py:149-159, 165-166. *)
Definition head_template : list pystr :=
  [str "#!/bin/bash"; str "#PBS -S /bin/bash"; str "#PBS -l select={n_nodes}:ncpus={n_cores}:mem={mem}{select_flags}";
   str "#PBS -l walltime={walltime}"; str "#PBS -q {queue}"; str "#PBS -N {pbs_name}"; str "#PBS -j {std_out_err}";
   str "#PBS -o {pbs_output_dir}/{job_name}.OU"; str "#PBS -e {pbs_output_dir}/{job_name}.ER"].
Definition command_template : pystr :=
  str "{python} -m mlmc.tool.pbs_job {output_dir} {job_name} >" ++ str "{pbs_output_dir}/{job_name}_STDOUT 2>&1".
(** The line with the working directory, mlmc/sampling_pool_pbs.py:163. *)
Definition work_dir_line (work_dir : pystr) : pystr := str "MLMC_WORKDIR=" ++ quote ++ work_dir ++ quote.
(** [pbs_common_setting], mlmc/sampling_pool_pbs.py:119-167: the template and the configuration. *)
Definition pbs_common_setting (work_dir : pystr) (kw : config) : res (list pystr * config) :=
  match cget (complete kw) (str "optional_pbs_requests"), cget (complete kw) (str "env_setting") with
  | Some requests, Some env =>
      Ok (head_template ++ items requests ++ [work_dir_line work_dir] ++ items env ++ [command_template], complete kw)
  | _, _ => Err KeyError
  end.

(** The number of a job, "{:04d}".format(job_count), mlmc/sampling_pool_pbs.py:204, 253. *)
Definition job_name (count : N) : pystr := map digit_char (pad_dec 4 count).
(** The lines of the script, mlmc/sampling_pool_pbs.py:258. *)
Fixpoint format_all (c : config) (l : list pystr) : res (list pystr) :=
  match l with [] => Ok [] | s :: l' => bind (format c s) (fun t => bind (format_all c l') (fun ts => Ok (t :: ts))) end.
(** The values of one job, mlmc/sampling_pool_pbs.py:253-256. *)
Definition job_config (jobs_dir output_dir work_dir : pystr) (count : N) (c : config) : config :=
  cset (cset (cset (cset c (str "job_name") (VS (job_name count))) (str "pbs_output_dir") (VS jobs_dir))
         (str "output_dir") (VS output_dir)) (str "work_dir") (VS work_dir).
(** [_create_script], mlmc/sampling_pool_pbs.py:247-258; without a previous pbs_common_setting both attributes are None. *)
Definition create_script (jobs_dir output_dir work_dir : pystr) (count : N) (st : option (list pystr * config)) : res (list pystr) :=
  match st with
  | None => Err TypeError
  | Some (template, c) =>
      format_all (job_config jobs_dir output_dir work_dir count c) template
  end.

(** The words of a command line of the shell: split at blanks. Simplified: quotes, variables and other special characters of the shell
    are not treated. *)
Fixpoint words_ (acc : pystr) (s : pystr) : list pystr :=
  match s with
  | [] => match acc with [] => [] | _ => [rev acc] end
  | c :: s' => if Ascii.eqb c " " then (match acc with [] => words_ [] s' | _ => rev acc :: words_ [] s' end) else words_ (c :: acc) s'
  end.
Definition words (s : pystr) : list pystr := words_ [] s.
(** sys.argv of python -m module a b ...: the module (its path), then the words up to the redirection. Simplified: a redirection is a
    word that starts with >. *)
Fixpoint until_redirection (l : list pystr) : list pystr :=
  match l with
  | [] => []
  | w :: l' => match w with
               | c :: _ => if Ascii.eqb c ">" then [] else w :: until_redirection l'
               | [] => w :: until_redirection l'
               end
  end.
Fixpoint argv_ (l : list pystr) : list pystr :=
  match l with [] => [] | w :: l' => if pystr_eq_dec w (str "-m") then until_redirection l' else argv_ l' end.
Definition argv (line : pystr) : list pystr := argv_ (words line).
(** [PbsJob.command_params], mlmc/tool/pbs_job.py:101-110: the job and the output directory. *)
Definition command_params (line : pystr) : res (pystr * pystr) :=
  match argv line with _ :: output_dir :: job :: _ => Ok (job, output_dir) | _ => Err IndexError end.
