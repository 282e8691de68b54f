(** Directories of samples computed at the same time: ProcessPool and ThreadPool, mlmc/sampling_pool.py:297-337 with 86-204 and 230-252.
    Processes have a working directory each; the threads of one process share it. The queue of tasks and the delivery of results are
    in ConcModel.v. *)
From Verif Require Import Base TagModel WorkModel.

Section WorkConc.
Context {C : Type}.

(** What a worker does: nothing, about to call the simulation, or within it with these writes left. *)
Inductive status :=
| Idle
| Prepared (id : pystr) (ls : @lsim C)
| Writing (id : pystr) (ls : @lsim C) (rest : list (pystr * C)) (ok : bool).

(** Files; working directory and activity of each worker; results not yet delivered; results processed, the first one first. *)
Record cstate := mkC
  { cfiles_ : @fs C; cdir : nat -> option path; work : nat -> status;
    pending : list (pystr * @lsim C * bool); delivered : list (pystr * @lsim C * bool) }.

Definition upd_at {A} (f : nat -> A) (k : nat) (v : A) : nat -> A := fun j => if Nat.eqb j k then v else f j.

(** Events: a worker takes a sample (handle_sim_files); calls the simulation; writes its next file; returns; the result handler
    of the pool processes a result (_process_result). *)
Inductive event :=
| Start (k : nat) (id : pystr) (ls : @lsim C)
| Call (k : nat)
| Write (k : nat)
| Return (k : nat)
| Deliver (i : nat).

Fixpoint remove_nth {A} (i : nat) (l : list A) : list A :=
  match i, l with
  | _, [] => []
  | 0, _ :: l' => l'
  | S i', x :: l' => x :: remove_nth i' l'
  end.

(** The directory a worker is in: that of the process for threads. *)
Definition place (threads : bool) (k : nat) : nat := if threads then 0 else k.

(** One event; None when it cannot happen, also when handle_sim_files or _process_result raises (the task is then lost). *)
Definition cstep (threads : bool) (p : pool) (e : event) (s : cstate) : option cstate :=
  match e with
  | Start k id ls =>
      match work s k, output_dir p with
      | Idle, Some out =>
          match handle_sim_files (mkW (cfiles_ s) (cdir s (place threads k))) out id ls with
          | Ok w => Some (mkC (files w) (upd_at (cdir s) (place threads k) (cwd w)) (upd_at (work s) k (Prepared id ls))
                            (pending s) (delivered s))
          | Err _ => None
          end
      | _, _ => None
      end
  | Call k =>
      match work s k with
      | Prepared id ls =>
          let (wr, ok) := run ls id (view (cfiles_ s) (cdir s (place threads k))) in
          Some (mkC (cfiles_ s) (cdir s) (upd_at (work s) k (Writing id ls (if need ls then wr else []) ok)) (pending s) (delivered s))
      | _ => None
      end
  | Write k =>
      match work s k with
      | Writing id ls ((n, c) :: rest) ok =>
          match do_writes (cfiles_ s) (cdir s (place threads k)) [(n, c)] with
          | (f, true) => Some (mkC f (cdir s) (upd_at (work s) k (Writing id ls rest ok)) (pending s) (delivered s))
          | (f, false) => Some (mkC f (cdir s) (upd_at (work s) k (Writing id ls [] false)) (pending s) (delivered s))
          end
      | _ => None
      end
  | Return k =>
      match work s k with
      | Writing id ls [] ok => Some (mkC (cfiles_ s) (cdir s) (upd_at (work s) k Idle) (pending s ++ [(id, ls, ok)]) (delivered s))
      | _ => None
      end
  | Deliver i =>
      match nth_error (pending s) i with
      | Some (id, ls, ok) =>
          match process_result (mkW (cfiles_ s) None) p id ls ok with
          | Ok w => Some (mkC (files w)
                            (fun k => match cdir s k with
                                      | Some d => if exists_ (files w) d then Some d else None
                                      | None => None
                                      end)
                            (work s) (remove_nth i (pending s)) (delivered s ++ [(id, ls, ok)]))
          | Err _ => None
          end
      | None => None
      end
  end.

Fixpoint csteps (threads : bool) (p : pool) (l : list event) (s : cstate) : option cstate :=
  match l with
  | [] => Some s
  | e :: l' => match cstep threads p e s with Some s' => csteps threads p l' s' | None => None end
  end.

(** A new pool; workers start in the working directory of the process. *)
Definition cstart (w : @world C) : cstate := mkC (files w) (fun _ => cwd w) (fun _ => Idle) [] [].
End WorkConc.
