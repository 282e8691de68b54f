(** What the batch system pool is meant to do. *)
From Verif Require Import Base PoolModel PbsModel.

(** All entries of a dictionary of lists with their keys. *)
Definition entries {B} (d : dict (list B)) : list (nat * B) := flat_map (fun kv => map (pair (fst kv)) (snd kv)) d.
(** Level and id of a reported sample and of a scheduled one. *)
Definition lid {B} (e : nat * (pystr * B)) : nat * pystr := (fst e, fst (snd e)).
Definition slid (s : samp) : nat * pystr := (s_level s, s_id s).

(** Samples whose outcome has been recorded. *)
Definition done {A} (es : list (event A)) : list (nat * pystr) :=
  flat_map (fun e => match e with EvSucc r => [fst r] | EvFail r => [fst r] | EvTimes _ => [] end) es.

(** Readings of the clock made while samples are computed in the given order, starting with level [cur]: a reading
    opens a level or closes an interval of it. *)
Inductive tag := Open (level : nat) | Close (level : nat).
Fixpoint tags (ss : list samp) (cur : nat) : list tag :=
  match ss with
  | [] => []
  | s :: ss' => (if Nat.eqb cur (s_level s) then [] else [Close cur; Open (s_level s)]) ++ Close (s_level s) :: tags ss' (s_level s)
  end.
Definition readings (ss : list samp) : list tag := Open 0 :: tags ss 0.
Fixpoint sorted (ss : list samp) : Prop :=
  match ss with [] => True | s :: ss' => Forall (fun x => s_level s <= s_level x) ss' /\ sorted ss' end.

(** Requests to the pool with the answer of qsub, used if a job is submitted. *)
Inductive op := Add (s : samp) (size : Q) (q : option nat) | Flush (q : option nat).
Definition added (ops : list op) : list samp := flat_map (fun o => match o with Add s _ _ => [s] | Flush _ => [] end) ops.
Definition sizes (ops : list op) : list Q := flat_map (fun o => match o with Add _ z _ => [z] | Flush _ => [] end) ops.
Fixpoint qsum (l : list Q) : Q := match l with [] => 0 | x :: l' => x + qsum l' end.
Definition lastn {B} (n : nat) (l : list B) : list B := skipn (length l - n) l.
(** Samples of the submitted jobs, in the order of submission. *)
Definition submitted {A} (f : fs A) : list (list samp) :=
  map (fun e => match dget (jobs f) (fst e) with Some x => f_sched x | None => [] end) (pbs_files f).

(** Batching as intended: submitted jobs, pending samples with their sizes, consecutive rejections. *)
Record batch := mkB { b_jobs : list (list samp); b_pend : list (samp * Q); b_rej : nat }.
Definition b_submit (b : batch) (q : option nat) : batch * option exn :=
  match b_pend b, q with
  | [], _ => (b, None)
  | pend, Some _ => (mkB (b_jobs b ++ [map fst pend]) [] 0, None)
  | pend, None => (mkB (b_jobs b) pend (S (b_rej b)), if Nat.leb (b_rej b) 9 then None else Some PyException)
  end.
Definition b_step (b : batch) (o : op) : batch * option exn :=
  match o with
  | Add s z q =>
      let b1 := mkB (b_jobs b) (b_pend b ++ [(s, z)]) (b_rej b) in
      if (Qle_bool (qsum (map snd (b_pend b1))) 1 && Nat.leb (length (b_pend b1)) 1000)%bool then (b1, None) else b_submit b1 q
  | Flush q => b_submit b q
  end.
Fixpoint b_run (b : batch) (ops : list op) : batch * list (option exn) :=
  match ops with
  | [] => (b, [])
  | o :: ops' => let '(b1, e) := b_step b o in let '(b2, es) := b_run b1 ops' in (b2, e :: es)
  end.
(** The pool on the same requests. *)
Definition p_step {A} (p : pbs) (f : fs A) (o : op) : pbs * fs A * option exn :=
  match o with Add s z q => schedule_sample p f s z q | Flush q => execute p f q end.
Fixpoint p_run {A} (p : pbs) (f : fs A) (ops : list op) : pbs * fs A * list (option exn) :=
  match ops with
  | [] => (p, f, [])
  | o :: ops' => let '(p1, f1, e) := p_step p f o in let '(p2, f2, es) := p_run p1 f1 ops' in (p2, f2, e :: es)
  end.

(** The whole system: requests, polls with the answers of qsub and qstat, and progress of the processes of the
    submitted jobs (the next [k] appends to the files of job [j]; a killed process makes no more progress). *)
Inductive sop := SAdd (s : samp) (size : Q) (q : option nat) | SPoll (q : option nat) (ans : option (list nat)) | SWork (j k : nat).
Section System.
Context {A : Type}.
Variable out : samp -> A + pystr.
Variable clock : nat -> nat -> Z.
Record sys := mkS { y_pool : pbs; y_fs : fs A; y_prog : nat -> nat; y_reports : list (answer A * nat) }.
Definition work (y : sys) (j k : nat) : sys :=
  match dget (jobs (y_fs y)) j with
  | Some x =>
      if Nat.ltb j (job_count (y_pool y)) then
        mkS (y_pool y)
            (mkF (dset (jobs (y_fs y)) j (do_events x (firstn k (skipn (y_prog y j) (calculate_samples out (clock j) (f_sched x))))))
                 (pbs_files (y_fs y)) (id_job (y_fs y)) (scripts (y_fs y)))
            (fun i => if Nat.eqb i j then y_prog y j + k else y_prog y i) (y_reports y)
      else y
  | None => y
  end.
Definition y_step (y : sys) (o : sop) : sys :=
  match o with
  | SAdd s z q => let '(p, f, _) := schedule_sample (y_pool y) (y_fs y) s z q in mkS p f (y_prog y) (y_reports y)
  | SPoll q ans =>
      let '(p, f, r) := get_finished (y_pool y) (y_fs y) q ans in
      mkS p f (y_prog y) (match r with Done a => y_reports y ++ [a] | _ => y_reports y end)
  | SWork j k => work y j k
  end.
Definition y_init : sys := mkS (new_pbs []) (mkF [] [] [] []) (fun _ => 0) [].
Definition y_run (ops : list sop) : sys := fold_left y_step ops y_init.
Definition y_added (ops : list sop) : list samp := flat_map (fun o => match o with SAdd s _ _ => [s] | _ => [] end) ops.
(** Ids handed out by qsub, where a job is submitted or not. *)
Definition y_qsub (ops : list sop) : list nat :=
  flat_map (fun o => match o with SAdd _ _ (Some i) => [i] | SPoll (Some i) _ => [i] | _ => [] end) ops.
(** Level and id of all samples of an answer. *)
Definition report_lids (a : answer A * nat) : list (nat * pystr) :=
  let '(s, e, _) := fst a in map lid (entries s) ++ map lid (entries e).
End System.

(** Recovery: the recorded job of a sample and its files; the records of successful samples. *)
Section Recovery.
Context {A : Type}.
Implicit Types f : fs A.
Definition rid (e : nat * (pystr * A)) : pystr := fst (snd e).
Definition home f (i : pystr) (j : nat) (x : jobfiles A) : Prop := sget (id_job f) i = Some j /\ dget (jobs f) j = Some x.
Definition recorded (x : jobfiles A) : list (nat * (pystr * A)) := map (fun r => (fst (fst r), (snd (fst r), snd r))) (f_succ x).
Definition consistent f (ids : list pystr) : Prop :=
  (forall i, In i ids -> exists j x, home f i j x)
  /\ (forall i j x, In i ids -> home f i j x ->
        NoDup (map rid (recorded x)) /\ forall e, In e (recorded x) -> In (rid e) ids -> sget (id_job f) (rid e) = Some j).
Definition succeeded f (i : pystr) (e : nat * (pystr * A)) : Prop := exists j x, home f i j x /\ In e (recorded x) /\ rid e = i.

End Recovery.

(** Names without separators and line ends. *)
Definition plain (s : pystr) : Prop := forall c, In c s -> c <> semi /\ newline c = false.
