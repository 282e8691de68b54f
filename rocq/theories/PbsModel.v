(** The pool for a batch system: mlmc/sampling_pool_pbs.py and mlmc/tool/pbs_job.py.
    Job numbers and the ids given by the batch system are decimal numbers, file names are identified with the numbers in
    them; yaml and json files are identified with the values written (appending a dumped list to a yaml file
    concatenates the lists; a file without records is an absent file). Answers of qsub and qstat are inputs. *)
From Verif Require Import Base PoolModel.

Section Pbs.
Context {A : Type}.  (* pairs of fine and coarse results *)

(** Entries of self._scheduled: level, sample id, seed (sampling_pool_pbs.py:179). *)
Definition samp : Type := nat * pystr * Z.
Definition s_level (s : samp) : nat := fst (fst s).
Definition s_id (s : samp) : pystr := snd (fst s).

(** Files of one job, pbs_job.py:15-22: scheduled, successful, failed, times; a time record is
    (level, elapsed time, number of samples), floats are replaced by integers. *)
Record jobfiles := mkJ { f_sched : list samp; f_succ : list (nat * pystr * A); f_fail : list (nat * pystr * pystr);
                         f_times : list (nat * Z * nat) }.
Definition no_files : jobfiles := mkJ [] [] [] [].

(** The jobs directory: files of the jobs, JobID_PbsId files in listing order, the sample id to job file (first
    entry for an id counts), job scripts. pbs_job.py:23-29, sampling_pool_pbs.py:56. *)
Record fs := mkF { jobs : dict jobfiles; pbs_files : list (nat * nat); id_job : list (pystr * nat); scripts : list nat }.

(** Attributes of SamplingPoolPBS, sampling_pool_pbs.py:60-92; the set of unfinished ids is a list in its iteration order. *)
Record pbs := mkP { scheduled : list samp; weight : Q; n_in_job : nat; job_count : nat; pbs_ids : list nat;
                    unfinished_ids : list pystr; qsub_failed : nat; qstat_failed : nat }.

(** sampling_pool_pbs.py:94-105; [files]: job numbers of the scripts in the order of glob (any order). *)
Definition get_job_count (files : list nat) : nat :=
  match rev files with [] => 0 | j :: _ => j + 1 end.

(** sampling_pool_pbs.py:60-92. *)
Definition new_pbs (files : list nat) : pbs := mkP [] 0 0 (get_job_count files) [] [] 0 0.

(** [save_sample_id_job_id] 230-248 and [save_scheduled] 362-372 of pbs_job.py. *)
Definition save_job (f : fs) (j : nat) (ss : list samp) : fs :=
  let old := match dget (jobs f) j with Some x => x | None => no_files end in
  mkF (dset (jobs f) j (mkJ ss (f_succ old) (f_fail old) (f_times old))) (pbs_files f)
      (map (fun s => (s_id s, j)) ss ++ id_job f) (scripts f).
(** [write_script], sampling_pool_pbs.py:260-269. *)
Definition add_script (f : fs) (j : nat) : fs :=
  mkF (jobs f) (pbs_files f) (id_job f) (if in_dec Nat.eq_dec j (scripts f) then scripts f else scripts f ++ [j]).
(** [write_pbs_id], pbs_job.py:351-360. *)
Definition write_pbs_id (f : fs) (j id : nat) : fs :=
  mkF (jobs f) (pbs_files f ++ [(j, id)]) (id_job f) (scripts f).

(** [execute], sampling_pool_pbs.py:198-245; [q]: the id printed by qsub, None when it returns an error. An output of
    qsub that cannot be decoded or is not a number is left out. *)
Definition execute (p : pbs) (f : fs) (q : option nat) : pbs * fs * option exn :=
  match scheduled p with
  | [] => (p, f, None)
  | _ =>
      let j := job_count p in
      let f1 := save_job f j (scheduled p) in
      if Nat.eqb (n_in_job p) 0 then (p, f1, None)
      else
        let f2 := add_script f1 j in
        match q with
        | Some id =>
            (mkP [] 0 0 (j + 1) (pbs_ids p ++ [id]) (unfinished_ids p) 0 (qstat_failed p), write_pbs_id f2 j id, None)
        | None =>
            (mkP (scheduled p) (weight p) (n_in_job p) j (pbs_ids p) (unfinished_ids p) (S (qsub_failed p)) (qstat_failed p), f2,
             if Nat.ltb 10 (S (qsub_failed p)) then Some PyException else None)
        end
  end.

(** [schedule_sample], sampling_pool_pbs.py:169-184; the pickled level simulation is left out, the sum of the task sizes
    is exact. *)
Definition schedule_sample (p : pbs) (f : fs) (s : samp) (size : Q) (q : option nat) : pbs * fs * option exn :=
  let p1 := mkP (scheduled p ++ [s]) (weight p + size) (S (n_in_job p)) (job_count p) (pbs_ids p) (unfinished_ids p)
                (qsub_failed p) (qstat_failed p) in
  if (negb (Qle_bool (weight p1) 1) || Nat.ltb 1000 (n_in_job p1))%bool then execute p1 f q else (p1, f, None).

(** list.remove: first occurrence. *)
Fixpoint remove_first (x : nat) (l : list nat) : list nat :=
  match l with [] => [] | y :: l' => if Nat.eqb x y then l' else y :: remove_first x l' end.
(** The loop of [_qstat_pbs_job], sampling_pool_pbs.py:307-318: python iterates by position over the list from which it
    removes. [fuel] only bounds the number of iterations (the length is enough). *)
Fixpoint qloop (fuel i : nat) (ids finished unf : list nat) : list nat * list nat :=
  match fuel with
  | 0 => (ids, unf)
  | S fuel' =>
      match nth_error ids i with
      | None => (ids, unf)
      | Some x => if existsb (Nat.eqb x) finished then qloop fuel' (S i) (remove_first x ids) finished unf
                  else qloop fuel' (S i) ids finished (unf ++ [x])
      end
  end.
(** [_qstat_pbs_job] 280-320; [answer]: the ids reported finished, None when qstat returns an error. *)
Definition qstat_job (p : pbs) (answer : option (list nat)) : pbs * res (list nat * list nat) :=
  let set_ids p ids n := mkP (scheduled p) (weight p) (n_in_job p) (job_count p) ids (unfinished_ids p) (qsub_failed p) n in
  match pbs_ids p with
  | [] => (p, Ok ([], []))
  | _ =>
      match answer with
      | Some fin =>
          let (ids, unf) := qloop (length (pbs_ids p)) 0 (pbs_ids p) fin [] in (set_ids p ids 0, Ok (fin, unf))
      | None =>
          let n := S (qstat_failed p) in
          if Nat.ltb 10 n then (set_ids p (pbs_ids p) n, Err PyException)
          else let (ids, unf) := qloop (length (pbs_ids p)) 0 (pbs_ids p) [] [] in (set_ids p ids n, Ok ([], unf))
      end
  end.

(** glob "*_PbsId" 338, 349: the first matching file. *)
Definition find_job (f : fs) (id : nat) : option nat :=
  match find (fun e => Nat.eqb (snd e) id) (pbs_files f) with Some e => Some (fst e) | None => None end.
(** [get_job_n_running], pbs_job.py:374-384; a missing file raises. *)
Definition job_n_running (f : fs) (j : nat) : res nat :=
  match dget (jobs f) j with Some x => Ok (length (f_sched x)) | None => Err PyException end.
(** Lines 336-342 of sampling_pool_pbs.py. *)
Fixpoint count_running (f : fs) (unf : list nat) : res nat :=
  match unf with
  | [] => Ok 0
  | id :: unf' =>
      match find_job f id with
      | None => count_running f unf'
      | Some j => bind (job_n_running f j) (fun n => bind (count_running f unf') (fun m => Ok (n + m)))
      end
  end.

Definition pys_in (x : pystr) (l : list pystr) : bool := if in_dec pystr_eq_dec x l then true else false.
(** [read_results], pbs_job.py:285-336. *)
Definition group {B} (l : list (nat * pystr * B)) : dict (list (pystr * B)) :=
  fold_left (fun d r => put d (fst (fst r)) (snd (fst r), snd r)) l [].
Definition job_failed : pystr := str "job failed".
Definition add_missing (succ : dict (list (pystr * A))) (fail : dict (list (pystr * pystr))) (ss : list samp) : dict (list (pystr * pystr)) :=
  fold_left (fun d s => if (pys_in (s_id s) (map fst (dlist d (s_level s)))
                            || pys_in (s_id s) (map fst (dlist succ (s_level s))))%bool then d
                        else put d (s_level s) (s_id s, job_failed)) ss fail.
Definition read_results (x : jobfiles) : dict (list (pystr * A)) * dict (list (pystr * pystr)) * dict (list (Z * nat)) :=
  let succ := group (f_succ x) in
  (succ, add_missing succ (group (f_fail x)) (f_sched x),
   fold_left (fun d r => put d (fst (fst r)) (snd (fst r), snd r)) (f_times x) []).

(** Merging of one job, sampling_pool_pbs.py:357-367. *)
Definition extend {B} (d e : dict (list B)) : dict (list B) :=
  fold_left (fun d kv => dset d (fst kv) (dlist d (fst kv) ++ snd kv)) e d.
Definition add_time (d : dict (Z * nat)) (kv : nat * list (Z * nat)) : dict (Z * nat) :=
  match rev (snd kv) with
  | [] => d  (* results[-1] of an empty list: read_results has none *)
  | (t, n) :: _ => match dget d (fst kv) with
                   | Some (t0, n0) => dset d (fst kv) ((t0 + t)%Z, n0 + n)
                   | None => dset d (fst kv) (t, n)
                   end
  end.
Definition answer : Type := dict (list (pystr * A)) * dict (list (pystr * pystr)) * dict (Z * nat).
(** Lines 346-370: the JobID_PbsId file of a collected job is deleted. *)
Fixpoint collect (f : fs) (fin : list nat) (acc : answer) : fs * res answer :=
  match fin with
  | [] => (f, Ok acc)
  | id :: fin' =>
      match find_job f id with
      | None => collect f fin' acc
      | Some j =>
          match dget (jobs f) j with
          | None => (f, Err PyException)
          | Some x =>
              let '(s, e, t) := read_results x in
              let '(s0, e0, t0) := acc in
              collect (mkF (jobs f) (filter (fun p => negb (Nat.eqb (fst p) j && Nat.eqb (snd p) id)) (pbs_files f)) (id_job f) (scripts f))
                      fin' (extend s0 s, extend e0 e, fold_left add_time t t0)
          end
      end
  end.

(** Outcome of [_collect_unfinished] 378-418: besides exceptions, the loop 401-405 may append to the list it iterates. *)
Inductive outcome (B : Type) := Done (b : B) | Raised (e : exn) | Hangs.
Arguments Done {B} b. Arguments Raised {B} e. Arguments Hangs {B}.
Definition sget (l : list (pystr * nat)) (k : pystr) : option nat :=
  match find (fun e => if pystr_eq_dec k (fst e) then true else false) l with Some e => Some (snd e) | None => None end.
(** Lines 395-399: the successful samples of the job that belong to the set. *)
Definition wanted (ids : list pystr) (s : dict (list (pystr * A))) : dict (list (pystr * A)) :=
  map (fun kv => (fst kv, filter (fun r => pys_in (fst r) ids) (snd kv))) s.
Definition append_wanted (ids : list pystr) (d s : dict (list (pystr * A))) : dict (list (pystr * A)) :=
  fold_left (fun d kv => fold_left (fun d r => if pys_in (fst r) ids then put d (fst kv) r else d) (snd kv) d) s d.
Fixpoint collect_loop (f : fs) (ids order already : list pystr) (acc : answer) : outcome answer :=
  match order with
  | [] => Done acc
  | sid :: order' =>
      if pys_in sid already then collect_loop f ids order' already acc
      else
        match sget (id_job f) sid with
        | None => Raised KeyError
        | Some j =>
            match dget (jobs f) j with
            | None => Raised PyException
            | Some x =>
                let '(s, _, _) := read_results x in
                let '(s0, e0, t0) := acc in
                let s1 := append_wanted ids s0 s in
                let already1 := already ++ map fst (flat_map snd (wanted ids s)) in
                if existsb (fun kv => existsb (fun r => pys_in (fst r) ids) (snd kv)) e0 then Hangs
                else match t0 with
                     | _ :: _ => Raised TypeError (* 407-411: res[0] of a number *)
                     | [] => collect_loop f ids order' already1 (s1, e0, t0)
                     end
            end
        end
  end.
(** [_get_result_files] 322-376 after the counting, with [_collect_unfinished]. *)
Definition get_finished (p : pbs) (f : fs) (q : option nat) (ans : option (list nat)) :
  pbs * fs * outcome (answer * nat) :=
  let '(p1, f1, e) := execute p f q in
  match e with
  | Some e => (p1, f1, Raised e)
  | None =>
      match qstat_job p1 ans with
      | (p2, Err e) => (p2, f1, Raised e)
      | (p2, Ok (fin, unf)) =>
          match count_running f1 unf with
          | Err e => (p2, f1, Raised e)
          | Ok n =>
              match collect f1 fin ([], [], []) with
              | (f3, Err e) => (p2, f3, Raised e)
              | (f3, Ok acc) =>
                  match unfinished_ids p2 with
                  | [] => (p2, f3, Done (acc, n))
                  | ids =>
                      match collect_loop f3 ids ids [] acc with
                      | Done acc' =>
                          (mkP (scheduled p2) (weight p2) (n_in_job p2) (job_count p2) (pbs_ids p2) [] (qsub_failed p2) (qstat_failed p2),
                           f3, Done (acc', n))
                      | Raised e => (p2, f3, Raised e)
                      | Hangs => (p2, f3, Hangs)
                      end
                  end
              end
          end
      end
  end.
(** [have_permanent_samples] 420-424; [ids] in the iteration order of the set. *)
Definition have_permanent (p : pbs) (ids : list pystr) : pbs :=
  mkP (scheduled p) (weight p) (n_in_job p) (job_count p) (pbs_ids p) ids (qsub_failed p) (qstat_failed p).

(** The job process. [out]: what calculate_sample gives for a sample; [clock]: successive readings of time.time(). *)
Section Worker.
Variable out : samp -> A + pystr.
Variable clock : nat -> Z.

(** [_get_level_id_sample_id_seed], pbs_job.py:121-130: stable sort by level. *)
Fixpoint insert (s : samp) (l : list samp) : list samp :=
  match l with [] => [s] | x :: l' => if Nat.leb (s_level s) (s_level x) then s :: l else x :: insert s l' end.
Fixpoint sort_level (l : list samp) : list samp := match l with [] => [] | s :: l' => insert s (sort_level l') end.

(** Appends to the files of the job, in order (_save_to_file 203-218, _append_file 263-271). *)
Inductive event := EvSucc (r : nat * pystr * A) | EvFail (r : nat * pystr * pystr) | EvTimes (r : list (nat * Z * nat)).
Definition do_event (x : jobfiles) (e : event) : jobfiles :=
  match e with
  | EvSucc r => mkJ (f_sched x) (f_succ x ++ [r]) (f_fail x) (f_times x)
  | EvFail r => mkJ (f_sched x) (f_succ x) (f_fail x ++ [r]) (f_times x)
  | EvTimes r => mkJ (f_sched x) (f_succ x) (f_fail x) (f_times x ++ r)
  end.
Definition do_events (x : jobfiles) (es : list event) : jobfiles := fold_left do_event es x.

(** The loop of [calculate_samples] 156-195: current level, start time, number of samples, index of the next clock
    reading. Loading the level simulations and moving sample directories are left out; an exception outside of the
    try block of calculate_sample ends the process, like a kill. *)
Fixpoint calc (ss : list samp) (cur : nat) (start : Z) (n k : nat) : list event :=
  match ss with
  | [] => []
  | s :: ss' =>
      let same := Nat.eqb cur (s_level s) in
      let pre := if same then [] else [(cur, (clock k - start)%Z, n)] in
      let n1 := if same then n else 0 in
      let start1 := if same then start else clock (S k) in
      let k1 := if same then k else S (S k) in
      (match out s with inl a => EvSucc (s_level s, s_id s, a) | inr m => EvFail (s_level s, s_id s, m) end)
      :: EvTimes (pre ++ [(s_level s, (clock k1 - start1)%Z, S n1)])
      :: calc ss' (s_level s) start1 (S n1) (S k1)
  end.
(** [calculate_samples] 132-197. *)
Definition calculate_samples (ss : list samp) : list event := calc (sort_level ss) 0 (clock 0) 0 1.
End Worker.
End Pbs.

Arguments jobfiles : clear implicits. Arguments fs : clear implicits. Arguments event : clear implicits.
Arguments answer : clear implicits. Arguments outcome : clear implicits.
Arguments Done {B} b. Arguments Raised {B} e. Arguments Hangs {B}.

(** The class file, pbs_job.py:76-99. [old]: content of an existing file. *)
Definition semi : ascii := ";".
Definition serialize (old : option pystr) (jobs_dir level_file : pystr) (debug : bool) : pystr :=
  match old with
  | Some c => c
  | None => jobs_dir ++ [semi] ++ level_file ++ [semi] ++ str (if debug then "True" else "False") ++ [semi]
  end.
Definition newline (c : ascii) : bool := (Ascii.eqb c "010" || Ascii.eqb c "013")%bool.
(** readline of a file opened in text mode, a final line end included. *)
Fixpoint readline (s : pystr) : pystr :=
  match s with [] => [] | c :: s' => if newline c then ["010"%char] else c :: readline s' end.
(** str.split of one character. *)
Fixpoint split (sep : ascii) (s : pystr) : list pystr :=
  match s with
  | [] => [[]]
  | c :: s' =>
      if Ascii.eqb c sep then [] :: split sep s'
      else match split sep s' with w :: ws => (c :: w) :: ws | [] => [[c]] end
  end.
Definition deserialize (content : pystr) : res (pystr * pystr * bool) :=
  match split semi (readline content) with
  | d :: l :: b :: _ => Ok (d, l, if pystr_eq_dec b (str "True") then true else false)
  | _ => Err IndexError
  end.
