(** Properties C50, C51, C75, C76: numbers of samples and level parameters. *)
From Coq Require Import Lra.
From Verif Require Import Base BaseFacts AllocModel AllocSpec AllocProofs AllocFacts.
Local Open Scope R_scope.

(** * C50 *)
(** Full statement: the variance of each moment with the returned numbers is at most the target, up to rounding.
    It fails (below) because the numbers are limited by var * n_levels / target. Proved: at most (2 - 1/L) times the
    target when one sample is added per level to make up for rounding down, at most 3 times without; the target itself
    when all levels have the same product of variance and cost, in particular for one level. *)
Theorem C50_target_partial : forall L M target vars n_ops, data_ok L M target vars n_ops -> L <> 0%nat ->
  exists ns, estimate_n target vars n_ops L = Ok ns /\ length ns = L /\ (forall l, (l < L)%nat -> (2 <= nth l ns 0%Z)%Z)
  /\ forall m, (m < M)%nat -> let V l := nth m (nth l vars []) 0 in let n l := IZR (nth l ns 0%Z) in
     variance L V (fun l => n l + 1) <= (2 - / INR L) * target
     /\ variance L V n <= 3 * target
     /\ ((forall l k, (l < L)%nat -> (k < L)%nat -> V l * nth l n_ops 0 = V k * nth k n_ops 0) -> variance L V (fun l => n l + 1) <= target).
Proof.
  intros L M target vars n_ops Hd HL. destruct (estimate_n_ok L M target vars n_ops Hd) as (ns & E & El & H). exists ns. ands; auto; [apply H|].
  intros m Hm V n. destruct Hd as [_ _ _ Hpos Hvars Ht _]. assert (HV : forall l, (l < L)%nat -> 0 <= V l) by (intros; now apply Hvars).
  assert (Hn : forall l, (l < L)%nat -> 2 <= n l) by (intros l Hl; apply (IZR_le 2); now apply H).
  assert (Hc : forall l, (l < L)%nat -> Rmin (optimal L V (fun l => nth l n_ops 0) target l) (V l * INR L / target) <= n l + 1).
  { intros l Hl. destruct (H l Hl) as (_ & A & _). apply Rlt_le. exact (A m Hm). }
  assert (V1 : variance L V (fun l => n l + 1) <= (2 - / INR L) * target).
  { apply (capped_variance L V (fun l => nth l n_ops 0)); auto. intros l Hl. specialize (Hn l Hl). lra. }
  ands; auto.
  - apply Rle_trans with (3 / 2 * variance L V (fun l => n l + 1)).
    + unfold variance. rewrite <- sumn_scal. apply sumn_le. intros l Hl. specialize (Hn l Hl). specialize (HV l Hl).
      apply Rmult_le_reg_r with (n l * (n l + 1)); [nra|]. replace (V l / n l * (n l * (n l + 1))) with (V l * (n l + 1)) by (field; lra).
      replace (3 / 2 * (V l / (n l + 1)) * (n l * (n l + 1))) with (V l * (3 / 2 * n l)) by (field; lra). apply Rmult_le_compat_l; lra.
    + assert (P : 0 < / INR L) by (apply Rinv_0_lt_compat, lt_0_INR; lia). nra.
  - intros He. apply (balanced_variance L V (fun l => nth l n_ops 0)); auto. intros l Hl. specialize (Hn l Hl). lra.
Qed.
(** The allocation before limiting and rounding meets the target with the least cost among all real allocations. *)
Theorem C50_optimal : forall L V c target, (forall l, (l < L)%nat -> 0 <= V l) -> (forall l, (l < L)%nat -> 0 < c l) -> 0 < target ->
  (forall n, (forall l, (l < L)%nat -> 0 < n l) -> variance L V n <= target -> cost L c (optimal L V c target) <= cost L c n)
  /\ ((forall l, (l < L)%nat -> 0 < V l) -> L <> 0%nat -> variance L V (optimal L V c target) = target).
Proof. intros. split; [intros; now apply optimal_least|intros; now apply optimal_variance]. Qed.
(** The code's numbers are that allocation, limited and rounded, for the most demanding moment of each level. *)
Theorem C50_follows_optimal : forall L M target vars n_ops, data_ok L M target vars n_ops ->
  exists ns, estimate_n target vars n_ops L = Ok ns /\ length ns = L /\ forall l, (l < L)%nat ->
    let V m l := nth m (nth l vars []) 0 in let c l := nth l n_ops 0 in let N := nth l ns 0%Z in
    (2 <= N)%Z
    /\ (forall m, (m < M)%nat -> Rmin (optimal L (V m) c target l) (V m l * INR L / target) < IZR N + 1)
    /\ (N = 2%Z \/ exists m, (m < M)%nat /\ IZR N <= optimal L (V m) c target l + / 2 /\ IZR N <= V m l * INR L / target).
Proof. exact estimate_n_ok. Qed.
Theorem C75_samples_bound : forall L M target vars n_ops, data_ok L M target vars n_ops -> L <> 0%nat ->
  exists ns, estimate_n target vars n_ops L = Ok ns /\ length ns = L /\ (forall l, (l < L)%nat -> (2 <= nth l ns 0%Z)%Z)
  /\ forall m, (m < M)%nat -> let V l := nth m (nth l vars []) 0 in let n l := IZR (nth l ns 0%Z) in
     variance L V (fun l => n l + 1) <= (2 - / INR L) * target
     /\ variance L V n <= 3 * target
     /\ ((forall l k, (l < L)%nat -> (k < L)%nat -> V l * nth l n_ops 0 = V k * nth k n_ops 0) -> variance L V (fun l => n l + 1) <= target).
Proof. exact C50_target_partial. Qed.

Definition demo_vars : list (list R) := [[1]; [1]].
Definition demo_ops : list R := [1; 100].
Lemma demo_ok : data_ok 2 1 (/ 1000) demo_vars demo_ops.
Proof.
  constructor; try reflexivity; try discriminate; try lra.
  - intros [|[|l]] Hl; try lia; reflexivity.
  - intros [|[|l]] Hl; try lia; cbn; lra.
  - intros [|[|l]] [|m] Hl Hm; try lia; cbn; lra.
Qed.
Lemma demo_value : estimate_n (/ 1000) demo_vars demo_ops 2 = Ok [2000; 1100]%Z.
Proof.
  assert (S1 : sqrt (1 * 1) = 1) by (rewrite Rmult_1_l; apply sqrt_1).
  assert (S2 : sqrt (1 * 100) = 10) by (replace (1 * 100) with (10 * 10) by lra; apply sqrt_square; lra).
  unfold estimate_n. cbn -[half_even to_int sqrt Rmax Rmin INR IZR]. rewrite S1, S2.
  replace (1 / 1 * (1 + (10 + 0)) / / 1000) with (IZR 11000) by lra. replace (10 / 100 * (1 + (10 + 0)) / / 1000) with (IZR 1100) by lra.
  rewrite !half_even_Z, !to_int_Z. replace (1 * INR 2 / / 1000) with 2000 by (cbn; lra).
  rewrite (Rmin_right 11000) by lra. rewrite (Rmin_left 1100) by lra. rewrite !Rmax_left by lra.
  now rewrite (to_int_Z 2000), (to_int_Z 1100).
Qed.
(** Two levels with variance 1 each and costs 1 and 100: the variance is 1.4 times the target. *)
Theorem C50_target_refuted : exists L M target vars n_ops ns, data_ok L M target vars n_ops /\ estimate_n target vars n_ops L = Ok ns
  /\ exists m, (m < M)%nat /\ 14 / 10 * target < variance L (fun l => nth m (nth l vars []) 0) (fun l => IZR (nth l ns 0%Z) + 1).
Proof.
  exists 2%nat, 1%nat, (/ 1000), demo_vars, demo_ops, [2000; 1100]%Z. ands; [apply demo_ok|apply demo_value|]. exists 0%nat. split; [lia|].
  unfold variance, sumn. cbn -[IZR]. lra.
Qed.

(** * C51 *)
Theorem C51_level_params : forall s0 s1 n, 0 < s1 < s0 -> exists ps, level_params (s0, s1) n = Ok ps /\ length ps = n
  /\ (forall i, (i < n)%nat -> length (nth i ps []) = 1%nat)
  /\ let h i := nth 0 (nth i ps []) 0 in
     (n = 1%nat -> h 0%nat = s1)
     /\ ((1 < n)%nat -> h 0%nat = s0 /\ h (n - 1)%nat = s1 /\ exists q, 0 < q < 1 /\ forall i, (S i < n)%nat -> h (S i) = q * h i)
     /\ forall i, (i < n)%nat -> 0 < h i.
Proof.
  intros s0 s1 n H. eexists. split; [apply level_params_ok; auto|]. split; [now rewrite map_length, seq_length|].
  set (f := fun i => [Rpower s0 (1 - level_param i n) * Rpower s1 (level_param i n)]).
  assert (N : forall i, (i < n)%nat -> nth i (map f (seq 0 n)) [] = f i) by (intros; now apply nth_seq_map).
  split; [intros i Hi; now rewrite N|]. cbv zeta.
  assert (P : forall a p, 0 < Rpower a p) by (intros; apply exp_pos).
  ands.
  - intros ->. rewrite N by lia. unfold f. cbn [nth]. unfold level_param. cbn [Nat.eqb]. replace (1 - 1) with 0 by ring.
    rewrite Rpower_0, Rpower_1 by lra. ring.
  - intros Hn. assert (LP : forall i, level_param i n = INR i / INR (n - 1)) by (intros i; unfold level_param; destruct (Nat.eqb_spec n 1); [lia|reflexivity]).
    assert (D : 0 < INR (n - 1)) by (apply lt_0_INR; lia). ands.
    + rewrite N by lia. unfold f. cbn [nth]. rewrite LP. replace (INR 0 / INR (n - 1)) with 0 by (cbn; field; lra).
      rewrite Rminus_0_r, Rpower_0, Rpower_1 by lra. ring.
    + rewrite N by lia. unfold f. cbn [nth]. rewrite LP. replace (INR (n - 1) / INR (n - 1)) with 1 by (field; lra).
      replace (1 - 1) with 0 by ring. rewrite Rpower_0, Rpower_1 by lra. ring.
    + exists (Rpower (s1 / s0) (/ INR (n - 1))). split.
      * split; [apply P|]. unfold Rpower. rewrite <- exp_0. apply exp_increasing.
        assert (ln (s1 / s0) < 0). { rewrite <- ln_1. apply ln_increasing; [apply Rdiv_lt_0_compat; lra|]. apply Rmult_lt_reg_r with s0; [lra|]. field_simplify; lra. }
        assert (0 < / INR (n - 1)) by now apply Rinv_0_lt_compat. nra.
      * intros i Hi. rewrite !N by lia. unfold f. cbn [nth]. rewrite !LP. rewrite (S_INR i). unfold Rpower. rewrite <- !exp_plus. f_equal.
        unfold Rdiv at 3. rewrite ln_mult, ln_Rinv by (try apply Rinv_0_lt_compat; lra). field. lra.
  - intros i Hi. rewrite N by auto. unfold f. cbn [nth]. apply Rmult_lt_0_compat; apply P.
Qed.
Theorem C51_wrong_range : forall s0 s1 n, s0 <= s1 -> level_params (s0, s1) n = Err AssertionError.
Proof. intros s0 s1 n H. unfold level_params. cbn. destruct (Rlt_dec s1 s0); [lra|reflexivity]. Qed.
Theorem C51_sample_range_partial : forall n0 nL n, 0 < n0 -> 0 < nL -> exists l, sample_range n0 nL n = Ok l /\ length l = n
  /\ (forall z, n0 = IZR z -> (0 < n)%nat -> nth 0 l 0%Z = z) /\ (forall z, nL = IZR z -> (1 < n)%nat -> nth (n - 1) l 0%Z = z)
  /\ (forall i j, (i <= j)%nat -> (j < n)%nat -> (n0 <= nL -> (nth i l 0 <= nth j l 0)%Z) /\ (nL <= n0 -> (nth j l 0 <= nth i l 0)%Z)).
Proof.
  intros n0 nL n H0 HL. eexists. split; [now apply sample_range_ok|]. split; [now rewrite map_length, seq_length|]. ands.
  - intros z -> Hn. rewrite nth_seq_map by auto. rewrite rng_first by auto. apply half_even_Z.
  - intros z -> Hn. rewrite nth_seq_map by lia. rewrite rng_last by auto. apply half_even_Z.
  - intros i j Hij Hj. rewrite !nth_seq_map by lia. now apply rng_mono.
Qed.
(** Full statement: determine_n_samples returns one number per level, from n0 to nL. It returns other arrays unchanged
    (below), whatever their length; proved for none, one or two numbers. *)
Theorem C51_n_samples_partial : forall n arg n0 nL, (arg = None /\ n0 = 100%Z /\ nL = 3%Z) \/ (arg = Some [IZR n0] /\ nL = 3%Z) \/ arg = Some [IZR n0; IZR nL] ->
  (0 < n0)%Z -> (0 < nL)%Z -> exists l, determine_n_samples n arg = Ok l /\ length l = n
  /\ ((0 < n)%nat -> nth 0 l 0 = IZR n0) /\ ((1 < n)%nat -> nth (n - 1) l 0 = IZR nL)
  /\ (forall i j, (i <= j)%nat -> (j < n)%nat -> ((n0 <= nL)%Z -> nth i l 0 <= nth j l 0) /\ ((nL <= n0)%Z -> nth j l 0 <= nth i l 0)).
Proof.
  intros n arg n0 nL Ha H0 HL. destruct (C51_sample_range_partial (IZR n0) (IZR nL) n) as (l & E & El & F & G & M); try now apply IZR_lt.
  exists (map IZR l). ands.
  - destruct Ha as [(-> & -> & ->)|[(-> & ->)| ->]]; unfold determine_n_samples; cbn; now rewrite E.
  - now rewrite map_length.
  - intros Hn. rewrite (map_nth IZR l 0%Z). now rewrite (F n0).
  - intros Hn. rewrite (map_nth IZR l 0%Z). now rewrite (G nL).
  - intros i j Hij Hj. rewrite !(map_nth IZR l 0%Z).
    destruct (M i j Hij Hj) as [A B]. split; intros H; apply IZR_le; [apply A|apply B]; now apply IZR_le.
Qed.
Theorem C76_initial_numbers : forall n arg n0 nL, (arg = None /\ n0 = 100%Z /\ nL = 3%Z) \/ (arg = Some [IZR n0] /\ nL = 3%Z) \/ arg = Some [IZR n0; IZR nL] ->
  (0 < n0)%Z -> (0 < nL)%Z -> exists l, determine_n_samples n arg = Ok l /\ length l = n
  /\ ((0 < n)%nat -> nth 0 l 0 = IZR n0) /\ ((1 < n)%nat -> nth (n - 1) l 0 = IZR nL)
  /\ (forall i j, (i <= j)%nat -> (j < n)%nat -> ((n0 <= nL)%Z -> nth i l 0 <= nth j l 0) /\ ((nL <= n0)%Z -> nth j l 0 <= nth i l 0)).
Proof. exact C51_n_samples_partial. Qed.
(** Three numbers for two levels are returned as they are. *)
Theorem C51_n_samples_refuted : exists n l r, determine_n_samples n (Some l) = Ok r /\ length r <> n.
Proof. exists 2%nat, [5; 4; 3], [5; 4; 3]. split; [reflexivity|discriminate]. Qed.
(** With one level the sequence has only the first number. *)
Theorem C51_one_level_refuted : exists n0 nL l, sample_range (IZR n0) (IZR nL) 1 = Ok l /\ nth (length l - 1) l 0%Z <> nL.
Proof.
  exists 100%Z, 3%Z. destruct (C51_sample_range_partial (IZR 100) (IZR 3) 1) as (l & E & El & F & _); try lra. exists l. split; auto.
  rewrite El. cbn [Nat.sub]. rewrite (F 100%Z eq_refl) by lia. lia.
Qed.

(** * Examples *)
Example C50_example : data_ok 2 1 (/ 1000) demo_vars demo_ops /\ estimate_n (/ 1000) demo_vars demo_ops 2 = Ok [2000; 1100]%Z.
Proof. split; [apply demo_ok|apply demo_value]. Qed.
Example C51_example : exists l, sample_range (IZR 100) (IZR 3) 4 = Ok l /\ length l = 4%nat /\ nth 0 l 0%Z = 100%Z /\ nth 3 l 0%Z = 3%Z.
Proof.
  destruct (C51_sample_range_partial (IZR 100) (IZR 3) 4) as (l & E & El & F & G & _); try lra. exists l. ands; [exact E|exact El|apply F; [reflexivity|lia]|apply (G 3%Z); [reflexivity|lia]].
Qed.

Print Assumptions C50_target_partial.
Print Assumptions C50_optimal.
Print Assumptions C50_follows_optimal.
Print Assumptions C50_target_refuted.
Print Assumptions C51_level_params.
Print Assumptions C51_wrong_range.
Print Assumptions C51_sample_range_partial.
Print Assumptions C51_n_samples_partial.
Print Assumptions C51_n_samples_refuted.
Print Assumptions C51_one_level_refuted.
Print Assumptions C75_samples_bound.
Print Assumptions C76_initial_numbers.
