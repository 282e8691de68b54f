(** Properties of the initial numbers of samples: C140. *)
From Verif Require Import Base BaseFacts TagModel PoolModel HdfModel HdfProofs SamplerModel SamplerSpec SamplerProofs SamplerFacts SamplerProps SamplerDemo.

(** The two numbers meant by an argument of set_initial_n_samples: none, one or two numbers. *)
Inductive two_numbers : option nums -> Q -> Q -> Prop :=
| No_number : two_numbers None 100 10
| One_int n : two_numbers (Some (Ints [n])) (inject_Z n) 10
| One_float x : two_numbers (Some (Floats [x])) x 10
| Two_ints a b : two_numbers (Some (Ints [a; b])) (inject_Z a) (inject_Z b)
| Two_floats x y : two_numbers (Some (Floats [x; y])) x y.

(** The numbers of an argument. *)
Definition numbers (v : nums) : list Q := match v with Ints l => map inject_Z l | Floats l => l end.

Lemma reached_shape E ps fuel ops (s : sampler E) : reached E ps fuel ops s ->
  length (s_sims s) = length ps /\ forall l g, level s l g -> l < length ps.
Proof.
  intros H. destruct (reached_BInv E ps _ _ _ H) as [gs [lost [HI _]]]. split.
  - rewrite (iv_sims _ _ _ _ _ _ _ HI). apply level_sims_length.
  - intros l g Hl. destruct (iv_full _ _ _ _ _ _ _ HI) as [_ [Hf Hn]]. unfold level in Hl. rewrite Hf in Hl. cbn [f_groups] in Hl.
    rewrite <- Hn. rewrite <- (map_length GFull). apply nth_error_Some. now rewrite Hl.
Qed.

(** ** C140 *)
Theorem C140_two_numbers : forall E ps fuel ops (s : sampler E) arg n0 nL clk t,
  reached E ps (S fuel) ops s -> two_numbers arg n0 nL ->
  exists s1 s', step E ps (S fuel) s (SetInitial arg) = (s1, ONone) /\ step E ps (S fuel) s1 (Schedule clk t) = (s', ONone)
    /\ forall l g, level s l g -> exists g' more, level s' l g' /\ g_sched g' = g_sched g ++ more
       /\ length (g_sched g') = Nat.max (length (g_sched g)) (Z.to_nat (range_item E n0 nL (length ps) l)).
Proof.
  intros E ps fuel ops s arg n0 nL clk t H Ha.
  assert (T : s_targets (set_initial E s arg) = map inject_Z (map (range_item E n0 nL (length ps)) (seq 0 (length ps)))).
  { rewrite <- (proj1 (reached_shape _ _ _ _ _ H)). destruct Ha; reflexivity. }
  exists (set_initial E s arg).
  destruct (C03_schedule_to_target E ps fuel (ops ++ [SetInitial arg]) (set_initial E s arg) clk t) as [s' [E1 [_ E2]]].
  { exact (reached_step E ps (S fuel) ops s (SetInitial arg) H). }
  { rewrite T, !map_length. apply seq_length. }
  exists s'. split; [reflexivity|]. split; [exact E1|]. intros l g Hl.
  assert (Hf : s_file (set_initial E s arg) = s_file s) by (destruct Ha; reflexivity).
  pose proof (proj2 (reached_shape _ _ _ _ _ H) l g Hl) as Hn.
  destruct (E2 l g (inject_Z (range_item E n0 nL (length ps) l))) as [g' [more [L1 [L2 L3]]]].
  - unfold level. now rewrite Hf.
  - rewrite T. rewrite nth_error_map, nth_error_map, nth_error_seq. destruct (Nat.ltb_spec l (length ps)); [reflexivity|lia].
  - exists g', more. split; [exact L1|]. split; [exact L2|]. rewrite L3. f_equal. f_equal. apply Qfloor_Z.
Qed.

(** Three numbers or more are the targets of the levels. *)
Theorem C140_more_numbers : forall E ps fuel ops (s : sampler E) v clk t,
  reached E ps (S fuel) ops s -> 3 <= length (numbers v) ->
  exists s1, step E ps (S fuel) s (SetInitial (Some v)) = (s1, ONone)
  /\ (length (numbers v) = length ps ->
      exists s', step E ps (S fuel) s1 (Schedule clk t) = (s', ONone)
      /\ forall l g q, level s l g -> nth_error (numbers v) l = Some q ->
         exists g' more, level s' l g' /\ g_sched g' = g_sched g ++ more
         /\ length (g_sched g') = Nat.max (length (g_sched g)) (Z.to_nat (Qfloor q)))
  /\ (length (numbers v) <> length ps -> length ps <> 1 ->
      exists s', step E ps (S fuel) s1 (Schedule clk t) = (s', OErr ValueError) /\ s_handed s' = s_handed s).
Proof.
  intros E ps fuel ops s v clk t H Hv. exists (set_initial E s (Some v)). split; [reflexivity|].
  assert (T : s_targets (set_initial E s (Some v)) = numbers v /\ s_file (set_initial E s (Some v)) = s_file s
              /\ s_handed (set_initial E s (Some v)) = s_handed s).
  { destruct v as [[|a [|b [|c l]]]|[|a [|b [|c l]]]]; cbn in Hv; try lia; repeat apply conj; reflexivity. }
  destruct T as [T [Hf Hh]]. pose proof (reached_step E ps (S fuel) ops s (SetInitial (Some v)) H) as R. split.
  - intros Hl. destruct (C03_schedule_to_target E ps fuel _ _ clk t R) as [s' [E1 [_ E2]]].
    { cbn [step fst]. now rewrite T. }
    exists s'. split; [exact E1|]. intros l g q Hg Hq. cbn [step fst] in E2. apply E2; [unfold level; now rewrite Hf|]. now rewrite T.
  - intros Hl H1. destruct (C03_wrong_length_rejected E ps fuel _ _ clk t R) as [s' [E1 [E2 _]]]; cbn [step fst]; rewrite ?T; try assumption; [lia|].
    exists s'. split; [exact E1|]. rewrite E2. exact Hh.
Qed.

Example C140_example :
  counts (demo_run [SetInitial (Some (Ints [12%Z])); Schedule no_clock None]) = Ok ([(12, 0, 0, 12); (2, 0, 0, 2)], 14)
  /\ two_numbers (Some (Ints [12%Z])) (inject_Z 12) 10.
Proof. split; [vm_compute; reflexivity|constructor]. Qed.

Print Assumptions C140_two_numbers.
Print Assumptions C140_more_numbers.
