(** Restart of the pool for a batch system, mlmc/sampling_pool_pbs.py:60-105 with mlmc/sampling_pool.py:26-51, and the files with the
    simulations of the levels, sampling_pool_pbs.py:186-196 and mlmc/tool/pbs_job.py:112-119. *)
From Verif Require Import Base PoolModel PbsModel.

(** A new SamplingPoolPBS on a work directory: without debug the output directory, which holds the directory of jobs, is erased.
    [files]: the scripts in the order of glob. Failures to remove files are left out. *)
Definition restart_pool {A} (debug : bool) (f : fs A) (files : list nat) : pbs * fs A :=
  if debug then (new_pbs files, f) else (new_pbs [], mkF [] [] [] []).

(** The files level_{}_simulation_config, by level; [S]: level simulations. *)
Section LevelSims.
Context {S : Type}.
(** [serialize_level_sim], sampling_pool_pbs.py:186-196. *)
Definition serialize_level_sim (files : dict S) (level : nat) (sim : S) : dict S :=
  match dget files level with Some _ => files | None => dset files level sim end.
(** The calls made by [schedule_sample], line 176. *)
Definition serialize_all (files : dict S) (l : list (nat * S)) : dict S :=
  fold_left (fun d x => serialize_level_sim d (fst x) (snd x)) l files.
(** [_get_level_sim], pbs_job.py:112-119, in a job started later: a missing file raises. *)
Definition get_level_sim (files : dict S) (level : nat) : res S :=
  match dget files level with Some s => Ok s | None => Err PyException end.
(** The files a new pool starts with. *)
Definition restart_sims (debug : bool) (files : dict S) : dict S := if debug then files else [].
End LevelSims.
