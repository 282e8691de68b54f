(** Properties C157, C158, C159: the adaptive campaign from the first samples to the last estimate. *)
From Coq Require Import Lra.
From Verif Require Import Base BaseFacts TagModel PoolModel HdfModel HdfProofs SamplerModel SamplerSpec SamplerProofs SamplerFacts SamplerDemo
  InitProps AllocModel AllocSpec AllocProofs AllocProps AddingProofs AddingFacts AdaptModel AdaptFacts.

(** An argument of generate_samples that gives one initial number per level: none, one or two numbers, or one for each
    of three or more levels. *)
Definition initial_for (L : nat) (arg : option nums) : Prop :=
  (exists n0 nL, two_numbers arg n0 nL) \/ exists v, arg = Some v /\ 3 <= length (numbers v) /\ length (numbers v) = L.
(** The samples of a level that are collected, and that failed, according to the file. *)
Definition n_collected {E} (s : sampler E) (l : nat) : nat :=
  match nth_error (f_groups (s_file s)) l with Some (GFull g) => length (g_cids g) | _ => 0 end.
Definition n_failed {E} (s : sampler E) (l : nat) : nat :=
  match nth_error (f_groups (s_file s)) l with Some (GFull g) => length (g_failed g) | _ => 0 end.

Lemma initial_targets E ps fuel ops (s : sampler E) arg : reached E ps fuel ops s -> initial_for (length ps) arg ->
  length (s_targets (set_initial E s arg)) = length ps.
Proof.
  intros Hr [(n0 & nL & H)|(v & -> & H3 & HL)].
  - pose proof (proj1 (reached_shape _ _ _ _ _ Hr)) as Hs. rewrite <- Hs.
    destruct H; unfold set_initial; cbn [nums_Q map s_targets set_targets]; unfold SamplerModel.sample_range; now rewrite !map_length, seq_length.
  - rewrite <- HL. destruct v as [[|a [|b [|d l]]]|[|a [|b [|d l]]]]; cbn in H3; try lia; reflexivity.
Qed.

(** The numbers of the estimate as estimate_n_samples_for_target_variance makes them from variances and costs of a state. *)
Definition estimator {E} (target : R) (V : sampler E -> list (list R)) (C : sampler E -> list R) (L : nat) (s : sampler E) : res (list Z) :=
  estimate_n target (V s) (C s) L.

Lemma variance_le L V (n n' : nat -> R) : (forall l, (l < L)%nat -> (0 <= V l)%R /\ (0 < n l)%R /\ (n l <= n' l)%R) ->
  (variance L V n' <= variance L V n)%R.
Proof.
  intros H. unfold variance. apply sumn_le. intros l Hl. destruct (H l Hl) as (A & B & C). unfold Rdiv.
  apply Rmult_le_compat_l; auto. now apply Rinv_le_contravar.
Qed.

Lemma estimator_length E (target : R) (V : sampler E -> list (list R)) C L M s ns : data_ok L M target (V s) (C s) -> L <> 0 ->
  estimator target V C L s = Ok ns -> length ns = L.
Proof.
  intros Hd HL He. destruct (C75_samples_bound _ _ _ _ _ Hd HL) as (ns' & E' & El & _). unfold estimator in He. congruence.
Qed.

(** ** C157: when the campaign ends, the scheduled numbers are at least those of the last estimate and so meet its
    variances up to the factor 3. *)
Theorem C157_target : forall E ps f ops (s : sampler E) clk t c target V C M arg rounds s' ns,
  reached E ps (S f) ops s -> ps <> [] -> initial_for (length ps) arg -> positive t -> (0 < c <= 1)%Q ->
  (forall s1, follows E ps f s s1 -> data_ok (length ps) M target (V s1) (C s1)) ->
  generate E ps (S f) clk t c (estimator target V C (length ps)) rounds arg s = Finished s' ns ->
  follows E ps f s s' /\ length ns = length ps
  /\ (forall l n, nth_error ns l = Some n -> (2 <= n <= Z.of_nat (n_sched E s' l))%Z)
  /\ exists s1, follows E ps f s s1 /\ estimator target V C (length ps) s1 = Ok ns
     /\ forall m, m < M -> let var l := nth m (nth l (V s1) []) 0%R in
        (variance (length ps) var (fun l => INR (n_sched E s' l)) <= 3 * target)%R
        /\ (variance (length ps) var (fun l => INR (S (n_sched E s' l))) <= (2 - / INR (length ps)) * target)%R.
Proof.
  intros E ps f ops s clk t c target V C M arg rounds s' ns Hr Hps Harg Ht Hc Hd HG.
  assert (HL : length ps <> 0) by (destruct ps; [congruence|discriminate]).
  destruct rounds as [|rounds].
  { exfalso. unfold generate in HG. cbn [all_collect] in HG. destruct (step E ps (S f) _ (Schedule (clk 0 0) None)) as [s1 []]; try discriminate.
    destruct (step E ps (S f) s1 (Ask (clk 0 1) t)) as [s2 []]; discriminate. }
  destruct (generate_begins E ps f clk t c (estimator target V C (length ps)) rounds arg ops s Hr (initial_targets _ _ _ _ _ _ Hr Harg))
    as (s3 & F3 & T3 & EG). rewrite EG in HG. clear EG.
  destruct (estimator target V C (length ps) s3) as [ns3|e] eqn:E3; [|discriminate].
  destruct (follows_reached _ _ _ _ _ _ Hr F3) as (m3 & Hr3 & _).
  assert (HE : forall s2 ns2, follows E ps f s3 s2 -> estimator target V C (length ps) s2 = Ok ns2 -> length ns2 = length ps).
  { intros s2 ns2 F2. apply (estimator_length _ _ _ _ _ M); auto. apply Hd. eapply follows_trans; eauto. }
  destruct (loop_finished E ps f clk t c _ Ht (S rounds) 2 ns3 _ s3 Hr3 T3 (HE s3 ns3 (follows_refl _ _ _ _) E3) HE Hc s' ns HG)
    as (F' & Hns & Hlen & _ & Hge).
  assert (K : exists s1, follows E ps f s s1 /\ estimator target V C (length ps) s1 = Ok ns).
  { destruct Hns as [->|(s1 & F1 & K)]; [eauto|]. exists s1. split; auto. eapply follows_trans; eauto. }
  destruct K as (s1 & F1 & K). destruct (C75_samples_bound _ _ _ _ _ (Hd s1 F1) HL) as (ns' & E' & _ & H2 & HV).
  unfold estimator in K. rewrite K in E'. injection E' as <-.
  assert (B : forall l, l < length ps -> (2 <= nth l ns 0%Z <= Z.of_nat (n_sched E s' l))%Z).
  { intros l Hl. split; [now apply H2|]. apply (Hge l (nth l ns 0%Z)). apply nth_error_nth'. lia. }
  split; [exact (follows_trans _ _ _ _ _ _ F3 F')|]. split; [exact Hlen|]. split.
  { intros l n Hn. assert (l < length ps) by (rewrite <- Hlen; apply nth_error_Some; congruence).
    specialize (B l H). erewrite nth_error_nth in B by exact Hn. exact B. }
  exists s1. split; [exact F1|]. split; [exact K|]. intros m Hm var. destruct (HV m Hm) as (A1 & A2 & _).
  assert (B' : forall l, l < length ps -> (0 <= var l)%R /\ (2 <= IZR (nth l ns 0%Z))%R /\ (IZR (nth l ns 0%Z) <= INR (n_sched E s' l))%R).
  { intros l Hl. destruct (B l Hl) as [B1 B2]. ands; [now apply (ok_vars _ _ _ _ _ (Hd s1 F1))|now apply (IZR_le 2)|].
    rewrite INR_IZR_INZ. now apply IZR_le. }
  split.
  - eapply Rle_trans; [|exact A2]. apply variance_le. intros l Hl. destruct (B' l Hl) as (P & Q' & T). ands; auto; lra.
  - eapply Rle_trans; [|exact A1]. apply variance_le. intros l Hl. destruct (B' l Hl) as (P & Q' & T). rewrite S_INR. ands; auto; lra.
Qed.

(** ** C158: with estimates that never exceed B the campaign ends after at most L B + 1 rounds, whatever the estimates,
    clocks and durations are. *)
Theorem C158_ends : forall E ps f ops (s : sampler E) clk t c estimate B arg rounds,
  reached E ps (S f) ops s -> (forall o, In o ops -> o <> Restart) -> initial_for (length ps) arg -> positive t -> (0 < c <= 1)%Q ->
  (forall s1, follows E ps f s s1 -> exists ns, estimate s1 = Ok ns /\ length ns = length ps /\ forall n, In n ns -> (n <= Z.of_nat B)%Z) ->
  length ps * B < rounds ->
  exists s' ns, generate E ps (S f) clk t c estimate rounds arg s = Finished s' ns.
Proof.
  intros E ps f ops s clk t c estimate B arg rounds Hr Hno Harg Ht Hc He Hn.
  destruct rounds as [|rounds]; [lia|].
  destruct (generate_begins E ps f clk t c estimate rounds arg ops s Hr (initial_targets _ _ _ _ _ _ Hr Harg)) as (s3 & F3 & T3 & ->).
  destruct (He s3 F3) as (ns & -> & Hl & Hb). destruct (follows_reached _ _ _ _ _ _ Hr F3) as (m3 & Hr3 & Hm3).
  apply (loop_ends E ps f clk t c estimate B Ht Hc (S rounds) 2 ns _ s3 Hr3); auto.
  - intros o Ho. apply in_app_or in Ho as [Ho|Ho]; auto.
  - intros s' F'. destruct (He s') as (ns' & A1 & A2 & A3); [eapply follows_trans; eauto|]. exists ns'. auto.
  - pose proof (lack_le E ps B s3). lia.
Qed.

(** ** C159 *)
(** Full statement: once the samples of the finished campaign are collected, every level has as many collected samples as
    the last estimate asks for, so their numbers meet the variances of the estimate. False (below): failed samples are
    counted as scheduled and never replaced. Proved: collected and failed samples together are enough; without failures the
    bound of C157 holds for the collected numbers. *)
Theorem C159_partial : forall E ps f ops (s : sampler E) clk t c target V C M arg rounds s' ns clk' more,
  reached E ps (S f) ops s -> (forall o, In o ops -> o <> Restart) ->
  ps <> [] -> initial_for (length ps) arg -> positive t -> (0 < c <= 1)%Q ->
  (forall s1, follows E ps f s s1 -> data_ok (length ps) M target (V s1) (C s1)) ->
  generate E ps (S f) clk t c (estimator target V C (length ps)) rounds arg s = Finished s' ns ->
  exists s'', all_collect E ps (S f) clk' (S more) 0 s' = (s'', ONone)
    /\ (forall l n, nth_error ns l = Some n -> (n <= Z.of_nat (n_collected s'' l + n_failed s'' l))%Z)
    /\ ((forall l, n_failed s'' l = 0) -> exists s1, follows E ps f s s1 /\ estimator target V C (length ps) s1 = Ok ns
        /\ forall m, m < M ->
           (variance (length ps) (fun l => nth m (nth l (V s1) []) 0) (fun l => INR (n_collected s'' l)) <= 3 * target)%R).
Proof.
  intros E ps f ops s clk t c target V C M arg rounds s' ns clk' more Hr Hno Hps Harg Ht Hc Hd HG.
  destruct (C157_target E ps f ops s clk t c target V C M arg rounds s' ns Hr Hps Harg Ht Hc Hd HG) as (F' & Hlen & Hge & s1 & F1 & K & HV).
  destruct (follows_reached _ _ _ _ _ _ Hr F') as (m' & Hr' & Hm').
  assert (Hno' : forall o, In o (ops ++ m') -> o <> Restart) by (intros o Ho; apply in_app_or in Ho as [Ho|Ho]; auto).
  destruct (collect_once E ps f clk' more 0 _ s' Hr') as (s'' & E1 & E2 & _).
  destruct (ask_all E ps f _ s' (clk' 0) Hr') as (s2 & E2' & _ & Hs & Hall). rewrite E2 in E2'. apply (f_equal fst) in E2'. cbn [fst] in E2'. subst s2.
  destruct (Hall Hno') as (Hperm & _).
  assert (Q : forall l, l < length ps -> n_collected s'' l + n_failed s'' l = n_sched E s' l).
  { intros l Hl. destruct (has_level E ps f _ _ _ Hr' Hl) as (g & Hg). destruct (Hs l g Hg) as (g' & Hg' & Eg).
    rewrite (n_sched_level _ _ _ _ Hg). specialize (Hperm l g' Hg'). apply Permutation_length in Hperm. rewrite app_length, map_length, Eg in Hperm.
    unfold level in Hg'. unfold n_collected, n_failed. rewrite Hg'. lia. }
  exists s''. split; [exact E1|]. split.
  - intros l n Hn. assert (l < length ps) by (rewrite <- Hlen; apply nth_error_Some; congruence). rewrite Q by auto. now apply Hge.
  - intros Hf. exists s1. split; [exact F1|]. split; [exact K|]. intros m Hm. destruct (HV m Hm) as (A & _). eapply Rle_trans; [|exact A].
    apply Req_le. unfold variance, sumn. f_equal. apply map_ext_in. intros l Hl. apply in_seq in Hl. specialize (Q l). rewrite (Hf l) in Q.
    cbv beta. f_equal. f_equal. lia.
Qed.

(** A simulation that fails for all samples but the first of a level. *)
Definition fragile : env := {|
  param := nat; config := nat * nat; value := Z; zero_param := 0;
  level_instance := fun fine coarse => (fine, coarse);
  calculate := fun _ cfg seed => if N.eqb seed 0 then Returned (NdArray [1%Z]) (NdArray [0%Z]) else Raised (str "singular matrix");
  seed_of := fun id => if existsb (fun l => if pystr_eq_dec id (tag l 0) then true else false) [0; 1] then 0%N else 1%N;
  expected_len := 1; duration := fun _ => 1%Q; range_item := fun n0 nL levels i => Qfloor n0 |}.
Definition fragile_ps : list (param fragile) := [10; 20].
Definition two_arg : option nums := Some (Ints [1%Z; 1%Z]).
Lemma two_initial : initial_for 2 two_arg.
Proof. left. exists (inject_Z 1), (inject_Z 1). constructor. Qed.

(** Two levels of variance 1 and costs 1 and 100, target 1/2: 4 and 2 samples. *)
Lemma half_value : estimate_n (/ 2) demo_vars demo_ops 2 = Ok [4; 2]%Z.
Proof.
  assert (S1 : (sqrt (1 * 1) = 1)%R) by (rewrite Rmult_1_l; apply sqrt_1).
  assert (S2 : (sqrt (1 * 100) = 10)%R) by (replace (1 * 100)%R with (10 * 10)%R by lra; apply sqrt_square; lra).
  unfold estimate_n. cbn -[half_even to_int sqrt Rmax Rmin INR IZR]. rewrite S1, S2.
  replace (1 / 1 * (1 + (10 + 0)) / / 2)%R with (IZR 22) by lra.
  assert (X : half_even (10 / 100 * (1 + (10 + 0)) / / 2) = 2%Z).
  { assert (I1 : Int_part (10 / 100 * (1 + (10 + 0)) / / 2) = 2%Z).
    { unfold Int_part. rewrite <- (tech_up (10 / 100 * (1 + (10 + 0)) / / 2) 3); [reflexivity|lra|lra]. }
    unfold half_even. rewrite I1. destruct (Rlt_dec _ _) as [_|N]; [reflexivity|]. exfalso. apply N. lra. }
  rewrite X. rewrite half_even_Z, !to_int_Z. replace (1 * INR 2 / / 2)%R with 4%R by (cbn; lra).
  rewrite (Rmin_right 22) by lra. rewrite (Rmin_left 2) by lra. rewrite !Rmax_left by lra.
  now rewrite (to_int_Z 4), (to_int_Z 2).
Qed.
Lemma half_ok : data_ok 2 1 (/ 2) demo_vars demo_ops.
Proof. destruct demo_ok as [A B C D F G H]. constructor; auto. lra. Qed.

Definition quick : nat -> nat -> nat -> Q := fun _ _ _ => 0%Q.
Definition half_estimate (E : env) : sampler E -> res (list Z) := estimator (/ 2) (fun _ => demo_vars) (fun _ => demo_ops) 2.
Lemma half_estimate_eq E s : half_estimate E s = Ok [4; 2]%Z.
Proof. exact half_value. Qed.

(** What a campaign leaves: the estimate, and per level scheduled, collected and failed after all_collect. *)
Definition outcome_of (E : env) (ps : list (param E)) (r : campaign E) : option (list Z * list (nat * nat * nat)) :=
  match r with
  | Finished s ns => match all_collect E ps 3 (fun _ _ => 0%Q) 1 0 s with
                     | (s2, ONone) => Some (ns, map (fun l => (n_sched E s l, n_collected s2 l, n_failed s2 l)) (seq 0 (length ps)))
                     | _ => None
                     end
  | _ => None
  end.
Lemma outcome_finished E ps r ns v : outcome_of E ps r = Some (ns, v) ->
  exists s s2, r = Finished s ns /\ all_collect E ps 3 (fun _ _ => 0%Q) 1 0 s = (s2, ONone)
    /\ map (fun l => (n_sched E s l, n_collected s2 l, n_failed s2 l)) (seq 0 (length ps)) = v.
Proof.
  unfold outcome_of. destruct r as [s ns0|s o]; [|discriminate]. destruct (all_collect E ps 3 (fun _ _ => 0%Q) 1 0 s) as [s2 []] eqn:Ea; try discriminate.
  intros K. exists s, s2. apply (f_equal (fun x => match x with Some (a, b) => (a, b) | None => ([], []) end)) in K.
  pose proof (f_equal fst K) as K1. pose proof (f_equal snd K) as K2. cbn [fst snd] in K1, K2. subst ns0. ands; auto.
Qed.

Theorem C159_refuted : exists E ps f ops (s : sampler E) clk t c target V C M arg rounds s' ns s'',
  reached E ps (S f) ops s /\ (forall o, In o ops -> o <> Restart) /\ initial_for (length ps) arg /\ positive t /\ (0 < c <= 1)%Q
  /\ (forall s1, data_ok (length ps) M target (V s1) (C s1))
  /\ generate E ps (S f) clk t c (estimator target V C (length ps)) rounds arg s = Finished s' ns
  /\ all_collect E ps (S f) (fun _ _ => 0%Q) 1 0 s' = (s'', ONone)
  /\ (forall l n, nth_error ns l = Some n -> (0 < Z.of_nat (n_collected s'' l) < n)%Z)
  /\ forall s1, (3 * target < variance (length ps) (fun l => nth 0 (nth l (V s1) []) 0) (fun l => INR (n_collected s'' l)))%R.
Proof.
  destruct (start fragile fragile_ps) as [s0|e] eqn:E0; [|vm_compute in E0; discriminate].
  assert (X : outcome_of fragile fragile_ps (generate fragile fragile_ps 3 quick (Some 1%Q) (1 # 2) (fun _ => Ok [4; 2]%Z) 9 two_arg s0)
              = Some ([4; 2]%Z, [(4, 1, 3); (2, 1, 1)])).
  { assert (Y : match start fragile fragile_ps with
                | Ok s0 => outcome_of fragile fragile_ps (generate fragile fragile_ps 3 quick (Some 1%Q) (1 # 2) (fun _ => Ok [4; 2]%Z) 9 two_arg s0)
                | Err _ => None end = Some ([4; 2]%Z, [(4, 1, 3); (2, 1, 1)])) by (vm_compute; reflexivity).
    now rewrite E0 in Y. }
  destruct (outcome_finished _ _ _ _ _ X) as (s' & s'' & G & Ha & Hv).
  assert (H0 : n_collected s'' 0 = 1 /\ n_collected s'' 1 = 1).
  { cbn [fragile_ps length seq map] in Hv. split; congruence. }
  destruct H0 as [H0 H1].
  exists fragile, fragile_ps, 2, [], s0, quick, (Some 1%Q), (1 # 2)%Q, (/ 2)%R, (fun _ => demo_vars), (fun _ => demo_ops), 1, two_arg, 9, s', [4; 2]%Z, s''.
  split; [exists s0; auto|]. split; [intros o []|]. split; [apply two_initial|]. split; [intros q [= <-]; reflexivity|].
  split; [split; [reflexivity|discriminate]|]. split; [intros _; apply half_ok|].
  split. { rewrite <- G. apply generate_ext. intros s1. apply (half_estimate_eq fragile s1). }
  split; [exact Ha|]. split.
  - intros [|[|l]] n Hn; cbn in Hn; [injection Hn as <-; rewrite H0|injection Hn as <-; rewrite H1|destruct l; discriminate]; split; reflexivity.
  - intros _. change (length fragile_ps) with 2. unfold variance, sumn. cbn [seq map fold_right]. rewrite H0, H1. cbn. lra.
Qed.

(** The hypotheses of C157 and C158 hold for the demonstration simulation, which loops three times. *)
Example C157_example : exists s0 s' ns, start demo demo_ps = Ok s0
  /\ (forall s1 : sampler demo, data_ok (length demo_ps) 1 (/ 2) demo_vars demo_ops)
  /\ generate demo demo_ps 3 quick (Some 1%Q) (1 # 2) (half_estimate demo) 9 two_arg s0 = Finished s' ns
  /\ ns = [4; 2]%Z /\ n_sched demo s' 0 = 4 /\ n_sched demo s' 1 = 2.
Proof.
  destruct (start demo demo_ps) as [s0|e] eqn:E0; [|vm_compute in E0; discriminate].
  assert (X : outcome_of demo demo_ps (generate demo demo_ps 3 quick (Some 1%Q) (1 # 2) (fun _ => Ok [4; 2]%Z) 9 two_arg s0)
              = Some ([4; 2]%Z, [(4, 2, 2); (2, 1, 1)])).
  { assert (Y : match start demo demo_ps with
                | Ok s0 => outcome_of demo demo_ps (generate demo demo_ps 3 quick (Some 1%Q) (1 # 2) (fun _ => Ok [4; 2]%Z) 9 two_arg s0)
                | Err _ => None end = Some ([4; 2]%Z, [(4, 2, 2); (2, 1, 1)])) by (vm_compute; reflexivity).
    now rewrite E0 in Y. }
  destruct (outcome_finished _ _ _ _ _ X) as (s' & s'' & G & Ha & Hv). cbn [demo_ps length seq map] in Hv.
  exists s0, s', [4; 2]%Z. split; [reflexivity|]. split; [intros _; apply half_ok|]. split.
  - rewrite <- G. apply generate_ext. apply half_estimate_eq.
  - split; [reflexivity|]. split; congruence.
Qed.
Example C158_example : forall s0, start demo demo_ps = Ok s0 -> forall clk rounds, 8 < rounds ->
  exists s' ns, generate demo demo_ps 3 clk (Some 1%Q) (1 # 2) (half_estimate demo) rounds two_arg s0 = Finished s' ns.
Proof.
  intros s0 E0 clk rounds Hr. apply (C158_ends demo demo_ps 2 [] s0 clk (Some 1%Q) (1 # 2) (half_estimate demo) 4).
  - exists s0. auto.
  - intros o [].
  - apply two_initial.
  - intros q [= <-]. reflexivity.
  - split; [reflexivity|discriminate].
  - intros s1 _. exists [4; 2]%Z. split; [apply half_estimate_eq|]. split; [reflexivity|]. intros n [<-|[<-|[]]]; lia.
  - exact Hr.
Qed.

Print Assumptions C157_target.
Print Assumptions C158_ends.
Print Assumptions C159_partial.
Print Assumptions C159_refuted.
