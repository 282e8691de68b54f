(** The whole adaptive campaign of the examples: initial samples, then the loop that estimates the numbers of samples
    and schedules more. Models examples/shooting/shooting_1D.py:95-160; shooting_2D.py:139-204 has the same body. *)
From Verif Require Import Base PoolModel HdfModel SamplerModel.

Section Adapt.
Context (E : env) (ps : list (param E)) (fuel : nat).
(** What ends a campaign: the loop is left with the last estimate, or an operation stops it (an exception, or the
    bound on the number of rounds). *)
Inductive campaign := Finished (s : sampler E) (ns : list Z) | Stopped (s : sampler E) (o : out).

(** shooting_1D.py:150-160 [all_collect]; the printed line is left out. [clk k] is the clock of the k-th request. *)
Fixpoint all_collect (clk : nat -> nat -> Q) (rounds k : nat) (s : sampler E) : sampler E * out :=
  match rounds with
  | 0 => (s, ORunning)
  | S r => match step E ps fuel s (Ask (clk k) None) with
           | (s1, OInt n) => if (0 <? n)%Z then all_collect clk r (S k) s1 else (s1, ONone)
           | x => x
           end
  end.

(** shooting_1D.py:139-144, the loop. [estimate] is any function of the state: the variances of
    estimate_diff_vars_regression followed by estimate_n_samples_for_target_variance. *)
Fixpoint adding_loop (clk : nat -> nat -> nat -> Q) (t : option Q) (c : Q) (estimate : sampler E -> res (list Z))
    (rounds k : nat) (ns : list Z) (s : sampler E) : campaign :=
  match rounds with
  | 0 => Stopped s ORunning
  | S r => match step E ps fuel s (Adding (clk k) t c (map inject_Z ns)) with
           | (s1, OBool true) => Finished s1 ns
           | (s1, OBool false) => match estimate s1 with
                                  | Ok ns1 => adding_loop clk t c estimate r (S k) ns1 s1
                                  | Err e => Stopped s1 (OErr e)
                                  end
           | (s1, o) => Stopped s1 o
           end
  end.

(** shooting_1D.py:95-144 [generate_samples] with a target variance, on the file storage instead of the one in memory;
    the preparation of the moment functions (116-127) is part of [estimate]. *)
Definition generate (clk : nat -> nat -> nat -> Q) (t : option Q) (c : Q) (estimate : sampler E -> res (list Z))
    (rounds : nat) (arg : option nums) (s : sampler E) : campaign :=
  let s0 := fst (step E ps fuel s (SetInitial arg)) in
  match step E ps fuel s0 (Schedule (clk 0 0) None) with
  | (s1, ONone) =>
      match step E ps fuel s1 (Ask (clk 0 1) t) with
      | (s2, OInt _) =>
          match all_collect (clk 1) rounds 0 s2 with
          | (s3, ONone) => match estimate s3 with
                           | Ok ns => adding_loop clk t c estimate rounds 2 ns s3
                           | Err e => Stopped s3 (OErr e)
                           end
          | (s3, o) => Stopped s3 o
          end
      | (s2, o) => Stopped s2 o
      end
  | (s1, o) => Stopped s1 o
  end.

End Adapt.
Arguments Finished {E}.
Arguments Stopped {E}.
