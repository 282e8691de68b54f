(** Crashes inside schedule_samples. The loops of sampler.py:135-150 are unrolled into their
    single effects; a crash keeps a prefix of them. Only the file survives. *)
From Verif Require Import Base TagModel PoolModel HdfModel SamplerModel.

(** sampler.py:137-147 is [Hand]: one sample handed to the pool and counted, its id appended to
    the list [samples]. sampler.py:150 with 136 of the next level is [Record]: the list is stored
    and emptied. *)
Inductive act := Hand (level : nat) | Record (level : nat).

Fixpoint acts (level : nat) (plan : list Q) : list act :=
  match plan with
  | [] => []
  | q :: plan' => repeat (Hand level) (Z.to_nat (Qtrunc q)) ++ Record level :: acts (S level) plan'
  end.

Section Crash.
Context (E : env).

Definition do_act (a : act) (x : sampler E * list pystr) : (sampler E * list pystr) * res unit :=
  let (s, samples) := x in
  match a with
  | Hand level => match schedule_one E level s with
                  | (s', Ok id) => ((s', samples ++ [id]), Ok tt)
                  | (s', Err e) => ((s', samples), Err e)
                  end
  | Record level => match save_sched E level samples s with
                    | (s', Ok _) => ((s', []), Ok tt)
                    | (s', Err e) => ((s', samples), Err e)
                    end
  end.
Definition do_acts (l : list act) : st (sampler E * list pystr) unit := sfor l do_act.

(** The process dies in schedule_samples after the first [k] effects of the scheduling loops, and a
    new process opens the same file with the same level parameters. *)
Definition crash_schedule (ps : list (param E)) (clk : nat -> Q) (timeout : option Q) (fuel k : nat)
    (s : sampler E) : sampler E * out :=
  let s1 := fst (ask_pool E clk timeout fuel s) in
  match plan_samples E s1 with
  | Err e => (s1, OErr e)
  | Ok plan => restart E ps (fst (fst (do_acts (firstn k (acts 0 plan)) (s1, []))))
  end.

End Crash.
