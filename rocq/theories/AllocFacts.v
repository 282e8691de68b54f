(** Level parameters and initial numbers of samples. *)
From Coq Require Import Lra.
From Verif Require Import Base BaseFacts AllocModel AllocSpec AllocProofs.
Local Open Scope R_scope.

Lemma nth_seq_map {A} (f : nat -> A) n i d : (i < n)%nat -> nth i (map f (seq 0 n)) d = f i.
Proof. intros H. rewrite nth_indep with (d' := f 0%nat) by (now rewrite map_length, seq_length). rewrite map_nth. now rewrite seq_nth. Qed.
Lemma py_pow_pos a p : 0 < a -> py_pow a p = Ok (Rpower a p).
Proof. intros H. unfold py_pow. destruct (Rlt_dec 0 a); [reflexivity|lra]. Qed.
Lemma level_params_ok s0 s1 n : 0 < s1 < s0 ->
  level_params (s0, s1) n = Ok (map (fun i => [Rpower s0 (1 - level_param i n) * Rpower s1 (level_param i n)]) (seq 0 n)).
Proof.
  intros H. unfold level_params. cbn [fst snd]. destruct (Rlt_dec s1 s0); [|lra]. apply all_ok_map. intros i _. now rewrite !py_pow_pos by lra.
Qed.
Lemma Rpower_0 a : 0 < a -> Rpower a 0 = 1.
Proof. apply Rpower_O. Qed.

Lemma linspace_nth a b n i d : (i < n)%nat -> (1 < n)%nat -> nth i (linspace a b n) d = a + INR i * ((b - a) / INR (n - 1)).
Proof.
  intros Hi Hn. unfold linspace. rewrite nth_seq_map by auto. destruct (Nat.ltb_spec 1 n); [|lia]. cbn [andb].
  destruct (Nat.eqb_spec i (n - 1)) as [->|]; auto. assert (0 < INR (n - 1)) by (apply lt_0_INR; lia). field. lra.
Qed.
Lemma linspace_length a b n : length (linspace a b n) = n.
Proof. unfold linspace. now rewrite map_length, seq_length. Qed.
Lemma linspace_first a b n d : (0 < n)%nat -> nth 0 (linspace a b n) d = a.
Proof.
  intros Hn. destruct (Nat.eq_dec n 1) as [->|]; [cbn; ring|]. rewrite linspace_nth by lia. cbn. ring.
Qed.
Lemma linspace_last a b n d : (1 < n)%nat -> nth (n - 1) (linspace a b n) d = b.
Proof. intros Hn. rewrite linspace_nth by lia. assert (0 < INR (n - 1)) by (apply lt_0_INR; lia). field. lra. Qed.
Lemma linspace_mono a b n i j d : (i <= j)%nat -> (j < n)%nat -> (a <= b -> nth i (linspace a b n) d <= nth j (linspace a b n) d)
  /\ (b <= a -> nth j (linspace a b n) d <= nth i (linspace a b n) d).
Proof.
  intros Hij Hj. destruct (Nat.le_gt_cases n 1) as [H1|H1]; [replace i with j by lia; split; intros; lra|].
  rewrite !linspace_nth by lia. assert (P : 0 < / INR (n - 1)) by (apply Rinv_0_lt_compat, lt_0_INR; lia). pose proof (le_INR i j Hij) as Q.
  split; intros H; apply Rplus_le_compat_l; unfold Rdiv.
  - apply Rmult_le_compat_r; [apply Rmult_le_pos; lra|auto].
  - assert (0 <= (INR j - INR i) * ((a - b) * / INR (n - 1))) by (apply Rmult_le_pos; [lra|apply Rmult_le_pos; lra]). lra.
Qed.
Lemma exp2_log2 x : 0 < x -> exp2 (log2 x) = x.
Proof. intros H. unfold exp2, log2, Rpower. replace (ln x / ln 2 * ln 2) with (ln x); [now apply exp_ln|]. field. pose proof ln_lt_2. lra. Qed.
Lemma exp2_mono x y : x <= y -> exp2 x <= exp2 y.
Proof.
  intros H. unfold exp2. destruct H as [H|H]; [|subst; lra]. apply Rlt_le, Rpower_lt; lra.
Qed.
Lemma log2_mono x y : 0 < x -> x <= y -> log2 x <= log2 y.
Proof.
  intros Hx H. unfold log2. pose proof ln_lt_2. apply Rmult_le_compat_r; [apply Rlt_le, Rinv_0_lt_compat; lra|].
  destruct H as [H|H]; [|subst; lra]. apply Rlt_le, ln_increasing; auto.
Qed.
Definition rng (n0 nL : R) (n i : nat) : Z := half_even (exp2 (nth i (linspace (log2 n0) (log2 nL) n) 0)).
Lemma map_seq_nth {A} (f : R -> A) l : map f l = map (fun i => f (nth i l 0)) (seq 0 (length l)).
Proof. induction l as [|x l IH]; [reflexivity|]. cbn [length seq map nth]. f_equal. rewrite <- seq_shift, map_map. exact IH. Qed.
Lemma sample_range_ok n0 nL n : 0 < n0 -> 0 < nL -> sample_range n0 nL n = Ok (map (rng n0 nL n) (seq 0 n)).
Proof.
  intros H0 HL. unfold sample_range. destruct (Rlt_dec 0 n0); [|lra]. destruct (Rlt_dec 0 nL); [|lra]. f_equal.
  rewrite map_seq_nth, linspace_length. apply map_ext. intros i. apply to_int_Z.
Qed.
Lemma rng_first n0 nL n : 0 < n0 -> (0 < n)%nat -> rng n0 nL n 0 = half_even n0.
Proof. intros. unfold rng. now rewrite linspace_first, exp2_log2. Qed.
Lemma rng_last n0 nL n : 0 < nL -> (1 < n)%nat -> rng n0 nL n (n - 1) = half_even nL.
Proof. intros. unfold rng. now rewrite linspace_last, exp2_log2. Qed.
Lemma rng_mono n0 nL n i j : 0 < n0 -> 0 < nL -> (i <= j)%nat -> (j < n)%nat ->
  (n0 <= nL -> (rng n0 nL n i <= rng n0 nL n j)%Z) /\ (nL <= n0 -> (rng n0 nL n j <= rng n0 nL n i)%Z).
Proof.
  intros H0 HL Hij Hj. destruct (linspace_mono (log2 n0) (log2 nL) n i j 0 Hij Hj) as [A B]. unfold rng.
  split; intros H; apply half_even_mono, exp2_mono; [apply A|apply B]; now apply log2_mono.
Qed.
