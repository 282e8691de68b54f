(** Process and thread pools, with results delivered by another thread. Models mlmc/sampling_pool.py:86-126, 230-252
    and 272-337 at the granularity of the steps between which python may switch threads. *)
From Verif Require Import Base PoolModel.

Section Conc.
Context {A : Type}.

(** What calculate_sample (86-126) does with a sample in the worker: it returns a result, it returns an error text, or
    an exception escapes, raised by handle_sim_files before the try block (104-105) or by the transport of the result. *)
Inductive work := Done (a : A) | Failed (msg : pystr) | Escaped.
(** An entry of a queue (sampling_pool.py:243, 250): the id with the result or the error text. *)
Definition item : Type := pystr * (A + pystr).

(** Where the main thread is in sampling_pool.py: outside of get_finished (272-279), at the head of the loop 283 over the success
    queues (false) or failure queues (true), or between the copy 284 and the clear 289-290 of a queue. *)
Inductive at_ :=
| Idle
| Loop (failed : bool) (todo : list nat) (acc : list item)
| Copied (failed : bool) (level : nat) (copy : list item) (todo : list nat) (acc : list item).

(** Attributes of the pool (sampling_pool.py:207-217, 297-304); [tasks]: samples handed to the worker processes and not yet delivered; [alive]: the thread
    of multiprocessing that calls the callbacks; [answers]: what get_finished has returned so far (all levels together),
    with the number of running samples. Times and sample directories are left out. *)
Record cst := mkC { running : Z; good : dict (list item); bad : dict (list item); tasks : list (nat * pystr);
                    alive : bool; main : at_; answers : list (list item * Z) }.
(** __init__, sampling_pool.py:209-217. *)
Definition init : cst := mkC 0 [] [] [] true Idle [].

Inductive label :=
| Schedule (level : nat) (id : pystr)           (* main thread, 315-323 *)
| Deliver (level : nat) (id : pystr) (w : work) (* callback thread, 306-313 and 230-252 *)
| Main.                                         (* next step of get_finished, starting it if outside *)

(** Takes a sample out of the outstanding ones (apply_async, sampling_pool.py:321). *)
Fixpoint remove_task (t : nat * pystr) (l : list (nat * pystr)) : option (list (nat * pystr)) :=
  match l with
  | [] => None
  | x :: l' => if (Nat.eqb (fst t) (fst x) && if pystr_eq_dec (snd t) (snd x) then true else false)%bool then Some l'
               else match remove_task t l' with Some r => Some (x :: r) | None => None end
  end.
(** self._queues or self._failed_queues (sampling_pool.py:276-277). *)
Definition queue_of (s : cst) (failed : bool) : dict (list item) := if failed then bad s else good s.
Definition set_queue (s : cst) (failed : bool) (d : dict (list item)) (n : Z) (m : at_) (ans : list (list item * Z)) : cst :=
  if failed then mkC n (good s) d (tasks s) (alive s) m ans else mkC n d (bad s) (tasks s) (alive s) m ans.

(** One step (sampling_pool.py:230-252, 272-323); None when it cannot happen in this state. The callback unpacks its argument (313): for an exception that
    raises TypeError, which ends the callback thread (multiprocessing does not catch exceptions of callbacks). The counter is
    decremented (292) together with the clear: no other thread uses it. Errors of the file moves (244, 249) are left out. *)
Definition cstep (s : cst) (l : label) : option cst :=
  match l with
  | Schedule level id =>
      match main s with
      | Idle => Some (mkC (running s + 1) (good s) (bad s) (tasks s ++ [(level, id)]) (alive s) Idle (answers s))
      | _ => None
      end
  | Deliver level id w =>
      if alive s then
        match remove_task (level, id) (tasks s) with
        | None => None
        | Some ts =>
            match w with
            | Done a => Some (mkC (running s) (put (good s) level (id, inl a)) (bad s) ts true (main s) (answers s))
            | Failed m => Some (mkC (running s) (good s) (put (bad s) level (id, inr m)) ts true (main s) (answers s))
            | Escaped => Some (mkC (running s) (good s) (bad s) ts false (main s) (answers s))
            end
        end
      else None
  | Main =>
      match main s with
      | Idle => Some (mkC (running s) (good s) (bad s) (tasks s) (alive s) (Loop false (dkeys (good s)) []) (answers s))
      | Loop f todo acc =>
          Some match todo with
          | level :: todo' =>
              mkC (running s) (good s) (bad s) (tasks s) (alive s)
                  (match dlist (queue_of s f) level with
                   | [] => Loop f todo' acc
                   | q => Copied f level q todo' acc
                   end) (answers s)
          | [] =>
              if f then mkC (running s) (good s) (bad s) (tasks s) (alive s) Idle (answers s ++ [(acc, running s)])
              else mkC (running s) (good s) (bad s) (tasks s) (alive s) (Loop true (dkeys (bad s)) acc) (answers s)
          end
      | Copied f level q todo acc =>
          Some (set_queue s f (dset (queue_of s f) level []) (running s - Z.of_nat (length q)) (Loop f todo (acc ++ q)) (answers s))
      end
  end.
Fixpoint crun (s : cst) (ls : list label) : option cst :=
  match ls with [] => Some s | l :: ls' => match cstep s l with Some s' => crun s' ls' | None => None end end.
End Conc.
Arguments item : clear implicits.
Arguments cst : clear implicits.
Arguments label : clear implicits.
Arguments work : clear implicits.
