(** Estimates of moments and covariances. *)
From Coq Require Import Lra.
From Verif Require Import Base BaseFacts QTypeModel QTypeProofs QuantityModel QuantitySpec NumModel NumFacts EstimateModel EstimateSpec
  EstimateProofs EstimateFacts EstimateLinear MomentsModel MomentsSpec MomentsProofs MomentsValues MomentsEstimate.

Lemma rsum_swap {A B} (f : A -> B -> R) la lb :
  rsum (map (fun a => rsum (map (fun b => f a b) lb)) la) = rsum (map (fun b => rsum (map (fun a => f a b) la)) lb).
Proof.
  induction la as [|a la IH]; cbn [map].
  - transitivity (rsum (map (fun _ : B => 0%R) lb)); [rewrite rsum_const; cbn; lra|reflexivity].
  - rewrite rsum_cons, IH, <- rsum_map_add. apply rsum_ext. intros b _. now rewrite rsum_cons.
Qed.

Section Gen.
Context {K : Type}.
Variables (r : nat) (ev : num -> list num) (ok : num -> bool) (bottom : bool).
Hypothesis Hr : r <> 0.
Hypothesis Hgood : forall w j, ok w = true -> j < r -> finite (nth j (ev w) NaN).
Hypothesis Hbad : forall w, ok w = false -> exists j, j < r /\ nth j (ev w) NaN = NaN.
Variables (t : qtype K) (M L : nat) (cs : list (nat * arr num)) (q : qmean K).
Hypotheses (HM : M <> 0) (Hsz : size t = r * M) (Hc : chunks_ok M L cs).
Hypothesis He : estimate_mean t L (read (mchunks r ev bottom cs)) = Ok q.
Notation goods := (good ok cs).

Lemma place_lt c j : c < M -> j < r -> place bottom M r c j < size t.
Proof using Hsz. intros H1 H2. clear - Hsz H1 H2. rewrite Hsz. unfold place. destruct bottom; nia. Qed.
Lemma gen_ref : reference t L (mchunks r ev bottom cs) = Ok q.
Proof. rewrite <- estimate_reference; auto; [nia|]. rewrite Hsz. now apply mchunks_ok. Qed.
Lemma gen_used l : length (used (mchunks r ev bottom cs) l) = length (goods l).
Proof. rewrite (used_mchunks r ev ok bottom Hr Hgood Hbad M L) by auto. now rewrite map_length. Qed.
Lemma gen_counts : q_n q = map (fun l => length (goods l)) (seq 0 L)
  /\ q_rm q = map (fun l => length (filter (fun s => negb (forallb (forallb ok) s)) (level_samples cs l))) (seq 0 L).
Proof.
  destruct (reference_ok _ _ _ _ gen_ref) as (_ & _ & _ & -> & ->). split; apply map_ext; intros l; [apply gen_used|].
  rewrite (level_mchunks r ev bottom Hr M L) by auto. rewrite filter_map, map_length. f_equal. apply filter_ext_in'. intros s _. f_equal. now apply usable_mom.
Qed.
Lemma gen_diff l c j : c < M -> j < r ->
  differences (mchunks r ev bottom cs) l (place bottom M r c j) = map Fin (map (rdiff (val ev j) l c) (goods l)).
Proof using Hr Hgood Hbad HM Hc. intros. rewrite (differences_mchunks r ev ok bottom Hr Hgood Hbad M L) by auto. now rewrite map_map. Qed.
Lemma gen_cells l c j : l < L -> c < M -> j < r ->
  cell (q_means q) l (place bottom M r c j) = ndivn (Fin (rsum (map (rdiff (val ev j) l c) (goods l)))) (length (goods l))
  /\ (1 < length (goods l) -> cell (q_vars q) l (place bottom M r c j) = Fin (rvar (map (rdiff (val ev j) l c) (goods l)))).
Proof.
  intros Hl Hcm Hj. destruct (reference_ok _ _ _ _ gen_ref) as (_ & -> & -> & _ & _). pose proof (place_lt c j Hcm Hj) as Hp.
  rewrite !cell_table by auto. rewrite gen_diff, nsum_fin, gen_used by auto. split; auto. intros Hn. apply ref_var_fin. now rewrite map_length.
Qed.
Lemma gen_mean c j : c < M -> j < r ->
  nth (place bottom M r c j) (mean q) NaN = nsum (map (fun l => ndivn (Fin (rsum (map (rdiff (val ev j) l c) (goods l)))) (length (goods l))) (seq 0 L)).
Proof.
  intros Hcm Hj. destruct (reference_ok _ _ _ _ gen_ref) as (Et & Em & _). unfold mean. rewrite Et, Em, sum_levels_table.
  pose proof (place_lt c j Hcm Hj) as Hp. rewrite seq_cell by auto. f_equal. apply map_ext. intros l. now rewrite gen_diff, nsum_fin, gen_used.
Qed.
Lemma gen_some : exists l, l < L /\ goods l <> [].
Proof.
  pose proof gen_ref as H. unfold reference in H. destruct (none_used L (mchunks r ev bottom cs)) eqn:E; [discriminate|].
  unfold none_used in E. apply not_true_iff_false in E.
  destruct (existsb (fun l => negb (length (goods l) =? 0)) (seq 0 L)) eqn:X.
  - apply existsb_exists in X as (l & Hl & X). apply in_seq in Hl. exists l. split; [lia|]. intros Z. now rewrite Z in X.
  - exfalso. apply E. apply forallb_forall. intros l Hl. rewrite gen_used. 
    destruct (length (goods l) =? 0) eqn:Z; auto. rewrite <- X. apply existsb_exists. exists l. split; auto. now rewrite Z.
Qed.
End Gen.

Section Moments.
Context {K : Type}.
Variables (m : mfn) (bottom : bool) (t : qtype K) (L : nat) (cs : list (nat * arr num)).
Hypotheses (Hm : made m) (Ht : size t <> 0) (Hc : chunks_ok (size t) L cs).
Definition okm (w : num) : bool := match transform (bottom_of m) w with Fin _ => true | _ => false end.
Lemma okm_fin w : okm w = true -> exists x, transform (bottom_of m) w = Fin x.
Proof. unfold okm. destruct (transform (bottom_of m) w); try discriminate. eauto. Qed.
Lemma okm_bad w : okm w = false -> forall x, transform (bottom_of m) w <> Fin x.
Proof. unfold okm. intros H x E. now rewrite E in H. Qed.
Lemma evals_val w x j : transform (bottom_of m) w = Fin x -> j < msize m -> nth j (evals m w) NaN = Fin (mval m j x).
Proof using Hm.
  intros E Hj. pose proof (evals_fin m w x Hm E) as H. unfold evals. rewrite H. now rewrite seq_cell.
Qed.
Lemma m_good w j : okm w = true -> j < msize m -> finite (nth j (evals m w) NaN).
Proof using Hm. intros H Hj. destruct (okm_fin w H) as [x E]. rewrite (evals_val w x) by auto. eexists; reflexivity. Qed.
Lemma in_nth {A} (l : list A) x d : In x l -> exists j, j < length l /\ nth j l d = x.
Proof. intros H. apply In_nth; auto. Qed.
Lemma m_bad w : kind_of m <> Fourier -> okm w = false -> exists j, j < msize m /\ nth j (evals m w) NaN = NaN.
Proof using Hm.
  intros Hk H. pose proof (evals_nan m w Hm Hk (okm_bad w H)) as Hn. destruct (in_nth _ _ NaN Hn) as (j & Hj & E).
  rewrite (proj2 (evals_length m w Hm)) in Hj. eauto.
Qed.
Lemma products_nth l i j : i < length l -> j < length l -> nth (i * length l + j) (products l) NaN = nmul (nth i l NaN) (nth j l NaN).
Proof using Type.
  intros Hi Hj. unfold products. rewrite (flat_map_nth _ (length l) l i j NaN NaN) by (auto; intros; now rewrite map_length).
  now rewrite (nth_map0 _ l NaN NaN).
Qed.
Lemma p_val w x i j : transform (bottom_of m) w = Fin x -> i < msize m -> j < msize m ->
  nth (i * msize m + j) (products (evals m w)) NaN = Fin (mval m i x * mval m j x).
Proof using Hm.
  intros E Hi Hj. pose proof (proj2 (evals_length m w Hm)) as El. rewrite <- El at 1. rewrite products_nth by (rewrite El; auto).
  rewrite !(evals_val w x) by auto. apply nmul_fin.
Qed.
Lemma split_index k : k < msize m * msize m -> exists i j, i < msize m /\ j < msize m /\ k = i * msize m + j.
Proof using Hm.
  intros Hk. pose proof (made_size m Hm). clear - Hm Hk H. exists (k / msize m), (k mod msize m). ands.
  - apply Nat.div_lt_upper_bound; auto.
  - now apply Nat.mod_upper_bound.
  - rewrite (Nat.div_mod k (msize m)) at 1 by auto. lia.
Qed.
Lemma p_good w k : okm w = true -> k < msize m * msize m -> finite (nth k (products (evals m w)) NaN).
Proof using Hm.
  intros H Hk. destruct (okm_fin w H) as [x E]. destruct (split_index k Hk) as (i & j & Hi & Hj & ->). rewrite (p_val w x) by auto. eexists; reflexivity.
Qed.
Lemma p_bad w : kind_of m <> Fourier -> okm w = false -> exists k, k < msize m * msize m /\ nth k (products (evals m w)) NaN = NaN.
Proof using Hm.
  intros Hk H. destruct (m_bad w Hk H) as (j & Hj & E). exists (j * msize m + j). split; [clear - Hj; nia|].
  pose proof (proj2 (evals_length m w Hm)) as El. rewrite <- El at 1. rewrite products_nth by (rewrite El; auto). now rewrite E.
Qed.

Lemma moments_size : size (moments_type (msize m) bottom t) = msize m * size t.
Proof using Type. clear. unfold moments_type. destruct bottom; [rewrite replace_size|]; cbn [size prod fold_right]; lia. Qed.
Lemma covariance_size : size (covariance_type (msize m) bottom t) = msize m * msize m * size t.
Proof using Type. clear. unfold covariance_type. destruct bottom; [rewrite replace_size|]; cbn [size prod fold_right]; lia. Qed.
Lemma moments_read q : estimate_moments m bottom t L cs = Ok q -> kind_of m <> Fourier
  /\ estimate_mean (moments_type (msize m) bottom t) L (read (mchunks (msize m) (evals m) bottom cs)) = Ok q.
Proof using Type.
  unfold estimate_moments. intros H. assert (Hk : kind_of m <> Fourier).
  { intros E. clear Hc. destruct cs as [|[l x] cs']; [discriminate|]. unfold estimate_mean in H. cbn [map est_loop] in H. unfold est_step in H.
    unfold moments_samples in H. cbn [snd] in H. rewrite E in H. discriminate. }
  split; auto. rewrite <- H. f_equal. unfold read, mchunks. rewrite map_map. apply map_ext. intros [l x]. cbn [fst snd]. unfold moments_samples.
  destruct (kind_of m); [reflexivity|easy|reflexivity].
Qed.
Lemma covariance_read q : estimate_covariance m bottom t L cs = Ok q -> kind_of m <> Fourier
  /\ estimate_mean (covariance_type (msize m) bottom t) L (read (mchunks (msize m * msize m) (fun v => products (evals m v)) bottom cs)) = Ok q.
Proof using Type.
  unfold estimate_covariance. intros H. assert (Hk : kind_of m <> Fourier).
  { intros E. clear Hc. destruct cs as [|[l x] cs']; [discriminate|]. unfold estimate_mean in H. cbn [map est_loop] in H. unfold est_step in H.
    unfold covariance_samples in H. cbn [snd] in H. rewrite E in H. discriminate. }
  split; auto. rewrite <- H. f_equal. unfold read, mchunks. rewrite map_map. apply map_ext. intros [l x]. cbn [fst snd]. unfold covariance_samples.
  destruct (kind_of m); [reflexivity|easy|reflexivity].
Qed.
(** The same samples are good for every j. *)
Definition tval (w : num) : R := match transform (bottom_of m) w with Fin x => x | _ => 0%R end.
Lemma rdiff_ext f g l c s : (forall w, In w (nth c s []) -> f w = g w) -> length (nth c s []) = parts l -> rdiff f l c s = rdiff g l c s.
Proof.
  intros H Hp. unfold rdiff. unfold parts in Hp. destruct (l =? 0).
  - apply H, nth_In. lia.
  - rewrite !H by (apply nth_In; lia). reflexivity.
Qed.
Lemma val_m w j : okm w = true -> j < msize m -> val (evals m) j w = mval m j (tval w).
Proof. intros H Hj. destruct (okm_fin w H) as [x E]. unfold val, tval. rewrite (evals_val w x) by auto. now rewrite E. Qed.
Lemma val_p w i j : okm w = true -> i < msize m -> j < msize m ->
  val (fun v => products (evals m v)) (i * msize m + j) w = (mval m i (tval w) * mval m j (tval w))%R.
Proof. intros H Hi Hj. destruct (okm_fin w H) as [x E]. unfold val, tval. rewrite (p_val w x) by auto. now rewrite E. Qed.
Lemma rdiff_m l c j s : c < size t -> j < msize m -> In s (good okm cs l) ->
  rdiff (val (evals m) j) l c s = rdiff (fun w => mval m j (tval w)) l c s.
Proof.
  intros Hcm Hj Hs. destruct (good_sample (msize m) okm (made_size m Hm) (size t) L cs l s c Ht Hc Hs Hcm) as (_ & Ep & Hw).
  apply rdiff_ext; auto. intros w H. apply val_m; auto.
Qed.
Lemma rdiff_p l c i j s : c < size t -> i < msize m -> j < msize m -> In s (good okm cs l) ->
  rdiff (val (fun v => products (evals m v)) (i * msize m + j)) l c s = rdiff (fun w => mval m i (tval w) * mval m j (tval w))%R l c s.
Proof.
  intros Hcm Hi Hj Hs. destruct (good_sample (msize m) okm (made_size m Hm) (size t) L cs l s c Ht Hc Hs Hcm) as (_ & Ep & Hw).
  apply rdiff_ext; auto. intros w H. apply val_p; auto.
Qed.
End Moments.
