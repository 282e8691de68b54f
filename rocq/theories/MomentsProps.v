(** Properties C44-C49 and C71-C74: moment functions and the estimates of moments and covariances. *)
From Coq Require Import Lra.
From Coquelicot Require Import Coquelicot.
From Verif Require Import Base BaseFacts QTypeModel QTypeProofs QuantityModel QuantitySpec NumModel NumFacts EstimateModel EstimateSpec
  EstimateProofs EstimateFacts EstimateLinear MomentsModel MomentsSpec LegendreFacts MomentsProofs MomentsValues MomentsEstimate MomentsFacts.

(** * C44 *)
(** Full statement: for every family the estimate of moment 0 is 1 with level variance 0. It fails for Fourier
    (below). Proved: every family that can be estimated, and linear transformations keeping the first function. *)
Theorem C44_zeroth_moment_partial : forall K m bottom (t : qtype K) L cs q, made m -> unit_first m -> size t <> 0 -> chunks_ok (size t) L cs ->
  estimate_moments m bottom t L cs = Ok q -> forall c, c < size t -> let p := place bottom (size t) (msize m) c 0 in
  (forall l, l < L -> nth l (q_n q) 0 <> 0 -> cell (q_means q) l p = Fin (if l =? 0 then 1 else 0))
  /\ (forall l, l < L -> 1 < nth l (q_n q) 0 -> cell (q_vars q) l p = Fin 0)
  /\ ((forall l, l < L -> nth l (q_n q) 0 <> 0) -> nth p (mean q) NaN = Fin 1).
Proof.
  intros K m bottom t L cs q Hm Hu Ht Hc He c Hcm. cbv zeta. destruct (moments_read m bottom t L cs q He) as [Hk Hr].
  pose proof (made_size m Hm) as Hs. assert (H0 : 0 < msize m) by lia.
  pose proof (gen_counts (msize m) (evals m) (okm m) bottom Hs (m_good m Hm) (fun w => m_bad m Hm w Hk) _ (size t) L cs q Ht (moments_size m bottom t) Hc Hr) as [En _].
  pose proof (fun l c => gen_cells (msize m) (evals m) (okm m) bottom Hs (m_good m Hm) (fun w => m_bad m Hm w Hk) _ (size t) L cs q Ht (moments_size m bottom t) Hc Hr l c 0) as Cl.
  pose proof (gen_mean (msize m) (evals m) (okm m) bottom Hs (m_good m Hm) (fun w => m_bad m Hm w Hk) _ (size t) L cs q Ht (moments_size m bottom t) Hc Hr c 0 Hcm H0) as Em.
  pose proof (gen_some (msize m) (evals m) (okm m) bottom Hs (m_good m Hm) (fun w => m_bad m Hm w Hk) _ (size t) L cs q Ht (moments_size m bottom t) Hc Hr) as (l0 & Hl0 & _).
  assert (One : forall l s, In s (good (okm m) cs l) -> rdiff (val (evals m) 0) l c s = if l =? 0 then 1%R else 0%R).
  { intros l s Hin. rewrite (rdiff_m m t L cs Hm Ht Hc l c 0 s Hcm H0 Hin). unfold rdiff. rewrite !unit_value by auto. destruct (l =? 0); lra. }
  assert (Sum : forall l, map (rdiff (val (evals m) 0) l c) (good (okm m) cs l) = map (fun _ => if l =? 0 then 1%R else 0%R) (good (okm m) cs l)).
  { intros l. apply map_ext_in. intros s Hin. now apply One. }
  assert (Mean : forall l, length (good (okm m) cs l) <> 0 ->
     ndivn (Fin (rsum (map (rdiff (val (evals m) 0) l c) (good (okm m) cs l)))) (length (good (okm m) cs l)) = Fin (if l =? 0 then 1 else 0)).
  { intros l Hn. rewrite ndivn_fin by auto. f_equal. rewrite Sum, rsum_const. field. now apply not_0_INR. }
  ands.
  - intros l Hl Hn. rewrite En, seq_cell in Hn by auto. destruct (Cl l c Hl Hcm H0) as [-> _]. now apply Mean.
  - intros l Hl Hn. rewrite En, seq_cell in Hn by auto. destruct (Cl l c Hl Hcm H0) as [_ ->]; auto. f_equal.
    apply rvar_zero; [now rewrite map_length|]. rewrite Sum. intros x y Hx Hy. apply in_map_iff in Hx as (? & <- & _). now apply in_map_iff in Hy as (? & <- & _).
  - intros Hn. rewrite Em. destruct L as [|L]; [lia|].
    replace (map _ (seq 0 (S L))) with (map Fin (map (fun l => if l =? 0 then 1%R else 0%R) (seq 0 (S L)))).
    + rewrite nsum_fin. f_equal. cbn [seq map Nat.eqb]. rewrite rsum_cons.
      replace (map (fun l => if l =? 0 then 1%R else 0%R) (seq 1 L)) with (map (fun _ : nat => 0%R) (seq 1 L)); [rewrite rsum_const; lra|].
      apply map_ext_in. intros l Hl. apply in_seq in Hl. destruct (Nat.eqb_spec l 0); [lia|reflexivity].
    + rewrite map_map. apply map_ext_in. intros l Hl. apply in_seq in Hl. symmetry. apply Mean. specialize (Hn l ltac:(lia)).
      now rewrite En, seq_cell in Hn by lia.
Qed.
(** The estimate exists as soon as some sample can be evaluated. *)
Theorem C44_estimated_partial : forall K m bottom (t : qtype K) L cs, made m -> kind_of m <> Fourier -> size t <> 0 -> chunks_ok (size t) L cs ->
  (exists l s, l < L /\ In s (level_samples cs l) /\ everywhere (fun w => finite (transform (bottom_of m) w)) s) ->
  exists q, estimate_moments m bottom t L cs = Ok q.
Proof.
  intros K m bottom t L cs Hm Hk Ht Hc (l & s & Hl & Hs & Hw). unfold estimate_moments.
  replace (map _ cs) with (read (mchunks (msize m) (evals m) bottom cs)).
  2:{ unfold read, mchunks. rewrite map_map. apply map_ext. intros [l' x]. cbn [fst snd]. unfold moments_samples. destruct (kind_of m); [reflexivity|easy|reflexivity]. }
  pose proof (made_size m Hm) as Hsz. pose proof (moments_size m bottom t) as Es.
  rewrite estimate_reference; [|nia|rewrite Es; now apply mchunks_ok]. unfold reference.
  destruct (none_used L _) eqn:E; [|eexists; reflexivity]. exfalso. unfold none_used in E. rewrite forallb_forall in E.
  specialize (E l ltac:(apply in_seq; lia)).
  rewrite (used_mchunks (msize m) (evals m) (okm m) bottom Hsz (m_good m Hm) (fun w => m_bad m Hm w Hk) (size t) L cs l Ht Hc) in E.
  rewrite map_length in E. apply Nat.eqb_eq, length_zero_iff_nil in E.
  assert (In s (good (okm m) cs l)); [|now rewrite E in H]. apply filter_In. split; auto. apply forallb_forall. intros v Hv. apply forallb_forall. intros w Hww.
  destruct (Hw v w Hv Hww) as [x Hx]. unfold okm. now rewrite Hx.
Qed.
Theorem C74_zeroth_moment : forall K m bottom (t : qtype K) L cs q, made m -> unit_first m -> size t <> 0 -> chunks_ok (size t) L cs ->
  estimate_moments m bottom t L cs = Ok q -> forall c, c < size t -> let p := place bottom (size t) (msize m) c 0 in
  (forall l, l < L -> nth l (q_n q) 0 <> 0 -> cell (q_means q) l p = Fin (if l =? 0 then 1 else 0))
  /\ (forall l, l < L -> 1 < nth l (q_n q) 0 -> cell (q_vars q) l p = Fin 0)
  /\ ((forall l, l < L -> nth l (q_n q) 0 <> 0) -> nth p (mean q) NaN = Fin 1).
Proof. exact C44_zeroth_moment_partial. Qed.
Definition fourier2 : mfn := Basis (mkBasis Fourier 2 (0, 1)%R (0, 2 * PI)%R false true ((2 * PI - 0) / Rmax (1 - 0) tiny) 0).
Lemma fourier2_made : made fourier2.
Proof.
  apply (made_basis Fourier 2 (0, 1)%R RNone false true). unfold init. cbn. destruct (Rlt_dec 0 (1 - 0)); [reflexivity|lra].
Qed.
Lemma fourier2_zero : transform (bottom_of fourier2) (Fin 0) = Fin 0.
Proof.
  unfold transform, fourier2, clip, linear. cbn [bottom_of b_log b_safe b_shift b_scale b_ref fst snd nsub nneg nadd nmul]. pose proof PI_RGT_0.
  rewrite Rmin_left, (Rmax_right 0) by lra. replace ((0 + - 0) * ((2 * PI - 0) / Rmax (1 - 0) tiny) + 0)%R with 0%R by ring. cbn.
  destruct (Rlt_dec 0 0); [lra|]. destruct (Rlt_dec _ 0); [lra|]. reflexivity.
Qed.
Theorem C44_fourier_refuted : exists m (t : qtype nat) L cs, made m /\ unit_first m /\ size t <> 0 /\ chunks_ok (size t) L cs
  /\ (forall l s, In s (level_samples cs l) -> everywhere (fun w => finite (transform (bottom_of m) w)) s)
  /\ 1 < length (level_samples cs 0) /\ forall bottom, estimate_moments m bottom t L cs = Err ValueError.
Proof.
  exists fourier2, QScalar, 1, [(0, [[[Fin 0]; [Fin 0]]])]. ands; [apply fourier2_made|exact I|discriminate| | | |].
  - intros l x [H|[]]. injection H as <- <-. split; [lia|]. exists 2. split; [reflexivity|]. intros row [<-|[]]. split; [reflexivity|]. intros s [<-|[<-|[]]]; reflexivity.
  - intros l s Hs. cbn in Hs. destruct l; [|destruct Hs]. cbn in Hs.
    assert (F : finite (transform (bottom_of fourier2) (Fin 0))).
    { rewrite fourier2_zero. eexists; reflexivity. }
    destruct Hs as [<-|[<-|[]]]; intros v w [<-|[]] [<-|[]]; exact F.
  - cbn. lia.
  - reflexivity.
Qed.

(** * C45 *)
Theorem C45_symmetric : forall K m bottom (t : qtype K) L cs q, made m -> size t <> 0 -> chunks_ok (size t) L cs ->
  estimate_covariance m bottom t L cs = Ok q -> forall c i j, c < size t -> i < msize m -> j < msize m ->
  let p := fun i j => place bottom (size t) (msize m * msize m) c (i * msize m + j) in
  (forall l, l < L -> cell (q_means q) l (p i j) = cell (q_means q) l (p j i) /\ cell (q_vars q) l (p i j) = cell (q_vars q) l (p j i))
  /\ nth (p i j) (mean q) NaN = nth (p j i) (mean q) NaN.
Proof.
  intros K m bottom t L cs q Hm Ht Hc He c i j Hcm Hi Hj p. destruct (covariance_read m bottom t L cs q He) as [Hk Hr].
  pose proof (made_size m Hm) as Hs. set (r := msize m) in *. set (ev := fun v => products (evals m v)) in *.
  assert (HR : r * r <> 0) by nia.
  assert (Ix : forall a b, a < r -> b < r -> a * r + b < r * r) by (intros; nia).
  assert (Sz : size (covariance_type r bottom t) = r * r * size t) by apply covariance_size.
  assert (Sym : forall l, differences (mchunks (r * r) ev bottom cs) l (p i j) = differences (mchunks (r * r) ev bottom cs) l (p j i)).
  { intros l. unfold p.
    rewrite !(gen_diff (r * r) ev (okm m) bottom HR (p_good m Hm) (fun w => p_bad m Hm w Hk) (size t) L cs Ht Hc l c) by auto.
    f_equal. apply map_ext_in. intros s Hin. unfold ev, r. rewrite !(rdiff_p m t L cs Hm Ht Hc l c) by auto.
    unfold rdiff. destruct (l =? 0); ring. }
  assert (Pl : forall a b, a < r -> b < r -> p a b < size (covariance_type r bottom t)).
  { intros a b Ha Hb. unfold p. apply (place_lt (r * r) bottom (covariance_type r bottom t) (size t) Sz); auto. }
  assert (Er : reference (covariance_type r bottom t) L (mchunks (r * r) ev bottom cs) = Ok q).
  { rewrite <- estimate_reference; auto; [nia|]. rewrite Sz. now apply mchunks_ok. }
  destruct (reference_ok _ _ _ _ Er) as (Et & Em & Ev & _ & _). split.
  - intros l Hl. rewrite Em, Ev. rewrite !cell_table by auto. now rewrite Sym.
  - unfold mean. rewrite Et, Em, sum_levels_table. rewrite !seq_cell by auto. f_equal. apply map_ext. intros l. now rewrite Sym.
Qed.
Theorem C45_estimated : forall K m bottom (t : qtype K) L cs, made m -> kind_of m <> Fourier -> size t <> 0 -> chunks_ok (size t) L cs ->
  (exists l s, l < L /\ In s (level_samples cs l) /\ everywhere (fun w => finite (transform (bottom_of m) w)) s) ->
  exists q, estimate_covariance m bottom t L cs = Ok q.
Proof.
  intros K m bottom t L cs Hm Hk Ht Hc (l & s & Hl & Hs & Hw). unfold estimate_covariance.
  replace (map _ cs) with (read (mchunks (msize m * msize m) (fun v => products (evals m v)) bottom cs)).
  2:{ unfold read, mchunks. rewrite map_map. apply map_ext. intros [l' x]. cbn [fst snd]. unfold covariance_samples. destruct (kind_of m); [reflexivity|easy|reflexivity]. }
  pose proof (made_size m Hm) as Hsz. assert (HR : msize m * msize m <> 0) by (clear - Hsz; nia). pose proof (covariance_size m bottom t) as Es.
  rewrite estimate_reference; [|rewrite Es; clear - HR Ht; nia|rewrite Es; now apply mchunks_ok]. unfold reference.
  destruct (none_used L _) eqn:E; [|eexists; reflexivity]. exfalso. unfold none_used in E. rewrite forallb_forall in E.
  specialize (E l ltac:(apply in_seq; lia)).
  rewrite (used_mchunks _ _ (okm m) bottom HR (p_good m Hm) (fun w => p_bad m Hm w Hk) (size t) L cs l Ht Hc) in E.
  rewrite map_length in E. apply Nat.eqb_eq, length_zero_iff_nil in E.
  assert (In s (good (okm m) cs l)); [|now rewrite E in H]. apply filter_In. split; auto. apply forallb_forall. intros v Hv. apply forallb_forall. intros w Hww.
  destruct (Hw v w Hv Hww) as [x Hx]. unfold okm. now rewrite Hx.
Qed.
(** One level: a Gram matrix whose first row are the estimated moments. *)
Theorem C45_single_level : forall K m bottom (t : qtype K) cs q, made m -> size t <> 0 -> chunks_ok (size t) 1 cs ->
  estimate_covariance m bottom t 1 cs = Ok q -> forall c, c < size t ->
  let p := fun i j => place bottom (size t) (msize m * msize m) c (i * msize m + j) in
  exists C : nat -> nat -> R, (forall i j, i < msize m -> j < msize m -> nth (p i j) (mean q) NaN = Fin (C i j))
  /\ (forall a : nat -> R, (0 <= rsum (map (fun i => rsum (map (fun j => a i * a j * C i j) (seq 0 (msize m)))) (seq 0 (msize m))))%R)
  /\ (unit_first m -> exists q1, estimate_moments m bottom t 1 cs = Ok q1
      /\ forall j, j < msize m -> nth (place bottom (size t) (msize m) c j) (mean q1) NaN = Fin (C 0 j)).
Proof.
  intros K m bottom t cs q Hm Ht Hc He c Hcm p. destruct (covariance_read m bottom t 1 cs q He) as [Hk Hr].
  pose proof (made_size m Hm) as Hs. set (r := msize m) in *. set (ev := fun v => products (evals m v)) in *.
  assert (HR : r * r <> 0) by nia.
  assert (Ix : forall a b, a < r -> b < r -> a * r + b < r * r) by (intros; nia).
  assert (Sz : size (covariance_type r bottom t) = r * r * size t) by apply covariance_size.
  set (G := good (okm m) cs 0). set (n := length G).
  assert (Gn : n <> 0).
  { destruct (gen_some (r * r) ev (okm m) bottom HR (p_good m Hm) (fun w => p_bad m Hm w Hk) _ (size t) 1 cs q Ht Sz Hc Hr) as (l & Hl & Hg).
    replace l with 0 in Hg by lia. unfold n, G. now destruct (good (okm m) cs 0). }
  set (v := fun j (s : list (list num)) => mval m j (tval m (nth 0 (nth c s []) NaN))).
  set (C := fun i j => (rsum (map (fun s => (v i s * v j s)%R) G) / INR n)%R).
  assert (Hn : INR n <> 0%R) by now apply not_0_INR.
  exists C. ands.
  - intros i j Hi Hj. unfold p.
    rewrite (gen_mean (r * r) ev (okm m) bottom HR (p_good m Hm) (fun w => p_bad m Hm w Hk) _ (size t) 1 cs q Ht Sz Hc Hr c (i * r + j) Hcm) by auto.
    cbn [seq map]. rewrite nsum_cons. change (nsum []) with (Fin 0). rewrite nadd_0_r. fold G. fold n. rewrite ndivn_fin by auto. f_equal. unfold C. f_equal.
    apply rsum_ext. intros s Hin. unfold ev, r. rewrite (rdiff_p m t 1 cs Hm Ht Hc 0 c) by auto. reflexivity.
  - intros a. assert (E : rsum (map (fun i => rsum (map (fun j => a i * a j * C i j)%R (seq 0 r))) (seq 0 r))
      = (/ INR n * rsum (map (fun s => (rsum (map (fun i => a i * v i s)%R (seq 0 r)) * rsum (map (fun i => a i * v i s)%R (seq 0 r)))%R) G))%R).
    { transitivity (/ INR n * rsum (map (fun i => rsum (map (fun j => rsum (map (fun s => ((a i * v i s) * (a j * v j s))%R) G)) (seq 0 r))) (seq 0 r)))%R.
      - rewrite <- rsum_map_mul. apply rsum_ext. intros i _. rewrite <- rsum_map_mul. apply rsum_ext. intros j _. unfold C.
        transitivity (/ INR n * (a i * a j * rsum (map (fun s => (v i s * v j s)%R) G)))%R; [field; auto|]. f_equal.
        rewrite <- rsum_map_mul. apply rsum_ext. intros s _. ring.
      - f_equal. transitivity (rsum (map (fun i => rsum (map (fun s => rsum (map (fun j => ((a i * v i s) * (a j * v j s))%R) (seq 0 r))) G)) (seq 0 r))).
        + apply rsum_ext. intros i _. now rewrite rsum_swap.
        + rewrite rsum_swap. apply rsum_ext. intros s _. rewrite <- rsum_map_mul. apply rsum_ext. intros i _.
          rewrite (rsum_map_mul (fun j => (a j * v j s)%R) (a i * v i s)). ring. }
    rewrite E. apply Rmult_le_pos; [apply Rlt_le, Rinv_0_lt_compat, lt_0_INR; lia|]. apply rsum_nonneg. intros x Hx. apply in_map_iff in Hx as (s & <- & _). apply Rle_0_sqr.
  - intros Hu.
    destruct (C44_estimated_partial K m bottom t 1 cs Hm Hk Ht Hc) as [q1 Hq1].
    { assert (In (hd [] G) G) as Hin by (unfold n in Gn; destruct G; [easy|now left]). exists 0, (hd [] G). ands; [lia|now apply filter_In in Hin|].
      apply filter_In in Hin as [_ Hin]. intros u w Hu' Hw. rewrite forallb_forall in Hin. specialize (Hin u Hu'). rewrite forallb_forall in Hin.
      destruct (okm_fin m w (Hin w Hw)) as [x ->]. eexists; reflexivity. }
    exists q1. split; auto. intros j Hj. destruct (moments_read m bottom t 1 cs q1 Hq1) as [_ Hr1].
    rewrite (gen_mean r (evals m) (okm m) bottom Hs (m_good m Hm) (fun w => m_bad m Hm w Hk) _ (size t) 1 cs q1 Ht (moments_size m bottom t) Hc Hr1 c j Hcm Hj).
    cbn [seq map]. rewrite nsum_cons. change (nsum []) with (Fin 0). rewrite nadd_0_r. fold G. fold n. rewrite ndivn_fin by auto. f_equal. unfold C. f_equal.
    apply rsum_ext. intros s Hin. rewrite (rdiff_m m t 1 cs Hm Ht Hc 0 c j s) by auto. unfold rdiff, v. cbn [Nat.eqb]. rewrite unit_value by auto. ring.
Qed.

(** * C46 *)
Theorem C46_inverse : forall k s d r log safe b, init k s d r log safe = Ok b -> fst (b_ref b) <> snd (b_ref b) -> forall x,
  linear b (Fin (inv_linear b x)) = Fin x /\ exists y, linear b (Fin x) = Fin y /\ inv_linear b y = x.
Proof.
  intros k s d r log safe b H Hn x. split; [now apply (linear_inv k s d r log safe)|]. eexists. split; [apply linear_fin|].
  now apply (inv_linear_linear k s d r log safe).
Qed.
(** The whole transformation undoes inv_transform on the reference interval. *)
Theorem C46_inverse_transform : forall k s d r log safe b, init k s d r log safe = Ok b -> increasing b -> forall x,
  (fst (b_ref b) <= x <= snd (b_ref b))%R -> transform b (Fin (inv_transform b x)) = Fin x.
Proof. intros k s d r log safe b H Hi x Hx. now apply (transform_inv k s d r log safe). Qed.
(** Inside: mapped inside the reference interval, and evaluated to numbers. *)
Theorem C46_inside : forall m, made m -> increasing (bottom_of m) -> forall v, inside (bottom_of m) v ->
  exists t l, transform (bottom_of m) v = Fin t /\ (fst (b_ref (bottom_of m)) <= t <= snd (b_ref (bottom_of m)))%R
  /\ eval_all m v None = Ok l /\ length l = msize m /\ forall w, In w l -> finite w.
Proof.
  intros m Hm Hi v Hv. assert (H : exists t, transform (bottom_of m) v = Fin t /\ (fst (b_ref (bottom_of m)) <= t <= snd (b_ref (bottom_of m)))%R).
  { clear - Hm Hi Hv. induction Hm as [k s d r log safe b H|o mat m Ho IH Hmm E].
    - destruct (transform_inside k s d r log safe b H v Hi Hv) as (t & Et & _ & Ht). eauto.
    - apply mk_trans_ok in E as [-> _]. apply IH; auto. }
  destruct H as (t & Et & Ht). exists t, (map (fun i => Fin (mval m i t)) (seq 0 (msize m))). ands; auto; try apply Ht.
  - now apply evals_fin.
  - now rewrite map_length, seq_length.
  - intros w Hw. apply in_map_iff in Hw as (i & <- & _). eexists; reflexivity.
Qed.
(** Full statement: also the ends of the domain map to the ends of the reference interval, and values outside become
    NaN. It fails for domains narrower than 1e-15 (below). Proved: for all others. *)
Theorem C46_ends_outside_partial : forall k s d r log safe b, init k s d r log safe = Ok b -> increasing b -> wide b ->
  transform b (Fin (fst (b_domain b))) = Fin (fst (b_ref b)) /\ transform b (Fin (snd (b_domain b))) = Fin (snd (b_ref b))
  /\ (b_safe b = true -> forall v, ~ inside b v -> transform b v = NaN).
Proof.
  intros k s d r log safe b H Hi Hw. destruct (transform_ends k s d r log safe b H Hi Hw) as [E1 E2]. ands; auto.
  intros Hs v Hv. now apply (transform_outside k s d r log safe).
Qed.
(** Values outside are removed from the estimates: exactly the samples with all values inside the domain are used. *)
Theorem C46_removed_partial : forall K m bottom (t : qtype K) L cs q, made m -> increasing (bottom_of m) -> wide (bottom_of m) -> b_safe (bottom_of m) = true ->
  size t <> 0 -> chunks_ok (size t) L cs -> estimate_moments m bottom t L cs = Ok q ->
  forall keep : list (list num) -> bool, (forall s, keep s = true <-> everywhere (inside (bottom_of m)) s) ->
  q_n q = map (fun l => length (filter keep (level_samples cs l))) (seq 0 L)
  /\ q_rm q = map (fun l => length (filter (fun s => negb (keep s)) (level_samples cs l))) (seq 0 L).
Proof.
  intros K m bottom t L cs q Hm Hi Hw Hs Ht Hc He keep Hkeep. destruct (moments_read m bottom t L cs q He) as [Hk Hr].
  pose proof (made_size m Hm) as Hz.
  assert (Hok : forall w, okm m w = true <-> inside (bottom_of m) w).
  { intros w. unfold okm. clear - Hm Hi Hw Hs. induction Hm as [k s d r log safe b H|o mat m Ho IH Hmm E].
    - cbn [bottom_of] in *. split.
      + intros Hb. destruct (Classical_Prop.classic (inside b w)) as [|Hn]; auto. now rewrite (transform_outside k s d r log safe b H w) in Hb by auto.
      + intros Hb. destruct (transform_inside k s d r log safe b H w Hi Hb) as (t & -> & _). reflexivity.
    - apply mk_trans_ok in E as [-> _]. apply IH; auto. }
  assert (Eq : forall s, forallb (forallb (okm m)) s = keep s).
  { intros s. apply eq_true_iff_eq. rewrite Hkeep, forallb_forall. unfold everywhere. split.
    - intros H v w Hv Hww. specialize (H v Hv). rewrite forallb_forall in H. apply Hok. auto.
    - intros H v Hv. apply forallb_forall. intros w Hww. apply Hok. eauto. }
  destruct (gen_counts (msize m) (evals m) (okm m) bottom Hz (m_good m Hm) (fun w => m_bad m Hm w Hk) _ (size t) L cs q Ht (moments_size m bottom t) Hc Hr) as [-> ->].
  split; apply map_ext; intros l; f_equal; apply filter_ext_in'; intros s _; now rewrite Eq.
Qed.
Theorem C71_ends_outside : forall k s d r log safe b, init k s d r log safe = Ok b -> increasing b -> wide b ->
  transform b (Fin (fst (b_domain b))) = Fin (fst (b_ref b)) /\ transform b (Fin (snd (b_domain b))) = Fin (snd (b_ref b))
  /\ (b_safe b = true -> forall v, ~ inside b v -> transform b v = NaN).
Proof. exact C46_ends_outside_partial. Qed.
Theorem C71_removed : forall K m bottom (t : qtype K) L cs q, made m -> increasing (bottom_of m) -> wide (bottom_of m) -> b_safe (bottom_of m) = true ->
  size t <> 0 -> chunks_ok (size t) L cs -> estimate_moments m bottom t L cs = Ok q ->
  forall keep : list (list num) -> bool, (forall s, keep s = true <-> everywhere (inside (bottom_of m)) s) ->
  q_n q = map (fun l => length (filter keep (level_samples cs l))) (seq 0 L)
  /\ q_rm q = map (fun l => length (filter (fun s => negb (keep s)) (level_samples cs l))) (seq 0 L).
Proof. exact C46_removed_partial. Qed.
(** The domain (0, 1e-16): its end is mapped to 0.1 instead of 1, and the value 5e-16 outside of it to 0.5. *)
Theorem C46_narrow_refuted : exists b, init Monomial 2 (0, / 10 ^ 16)%R RNone false true = Ok b
  /\ transform b (Fin (snd (b_domain b))) <> Fin (snd (b_ref b)) /\ exists v, ~ inside b v /\ transform b v = Fin (1 / 2).
Proof.
  assert (T : (0 < / 10 ^ 16)%R) by (apply Rinv_0_lt_compat, pow_lt; lra).
  assert (T2 : tiny = (10 * / 10 ^ 16)%R).
  { unfold tiny. change (10 ^ 16)%R with (10 * 10 ^ 15)%R. assert (10 ^ 15 <> 0)%R by (apply pow_nonzero; lra). generalize dependent (10 ^ 15)%R. intros. field; auto. }
  unfold init. cbn [Nat.eqb andb fst snd]. destruct (Rlt_dec 0 (/ 10 ^ 16 - 0)) as [_|]; [|lra]. cbn [orb]. eexists. split; [reflexivity|].
  cbn [default_ref fst snd]. rewrite T2. set (e := (/ 10 ^ 16)%R) in *. rewrite Rmax_right by lra.
  unfold transform, clip, linear, nsub, nneg. cbn [b_log b_safe b_shift b_scale b_ref b_domain fst snd]. rewrite Rmin_left, Rmax_right by lra.
  split.
  - cbn [nadd nmul nlt_r ngt_r]. replace ((e + - 0) * ((1 - 0) / (10 * e)) + 0)%R with (1 / 10)%R by (field; lra).
    destruct (Rlt_dec (1 / 10) 0); [lra|]. destruct (Rlt_dec 1 (1 / 10)); [lra|]. cbn. intros E. injection E as E. lra.
  - exists (Fin (5 * e)). split.
    + intros (x & E & Hx). injection E as <-. cbn in Hx. lra.
    + cbn [nadd nmul nlt_r ngt_r]. replace ((5 * e + - 0) * ((1 - 0) / (10 * e)) + 0)%R with (1 / 2)%R by (field; lra).
      destruct (Rlt_dec (1 / 2) 0); [lra|]. destruct (Rlt_dec 1 (1 / 2)); [lra|]. reflexivity.
Qed.

(** * C47 *)
Theorem C47_single_partial : forall m i v, made m -> i < msize m -> exists l x, eval_all m v None = Ok l /\ eval_single_moment m i v = Ok x /\ nth_error l i = Some x.
Proof. intros m i v Hm Hi. destruct (single m i v Hm Hi) as (x & E & N). exists (evals m v), x. ands; auto. now apply evals_length. Qed.
(** Full statement: eval agrees as well. It fails for Fourier and for the zeroth monomial of an outlier (below).
    Proved: Legendre, transformed moments, and monomials of positive order or of a value that is not an outlier. *)
Theorem C47_eval_partial : forall m i v, made m -> i < msize m ->
  match m with
  | Basis b => b_kind b = Legendre \/ (b_kind b = Monomial /\ (i <> 0 \/ finite (transform b v)))
  | Trans _ _ => True
  end ->
  exists l x, eval_all m v None = Ok l /\ eval m i v = Ok x /\ nth_error l i = Some x.
Proof.
  intros m i v Hm Hi Hc. assert (H : exists x, eval m i v = Ok x /\ nth_error (evals m v) i = Some x).
  { destruct m as [b|o mat]; [|now apply eval_last]. destruct Hc as [Hk|[Hk Hc]]; [now apply eval_last|]. now apply monomial_value. }
  destruct H as (x & E & N). exists (evals m v), x. ands; auto. now apply evals_length.
Qed.
Theorem C72_one_moment : forall m i v, made m -> i < msize m ->
  exists l x, eval_all m v None = Ok l /\ eval_single_moment m i v = Ok x /\ nth_error l i = Some x
  /\ (match m with
      | Basis b => b_kind b = Legendre \/ (b_kind b = Monomial /\ (i <> 0 \/ finite (transform b v)))
      | Trans _ _ => True
      end -> eval m i v = Ok x).
Proof.
  intros m i v Hm Hi. destruct (C47_single_partial m i v Hm Hi) as (l & x & E & S & N). exists l, x. ands; auto.
  intros Hc. destruct (C47_eval_partial m i v Hm Hi Hc) as (l' & x' & E' & S' & N'). congruence.
Qed.
(** Fourier: eval(1, 0) = sin 0 = 0, the array has cos 0 = 1 there. *)
Theorem C47_fourier_refuted : exists m v l x, made m /\ 1 < msize m /\ eval_all m v None = Ok l /\ eval m 1 v = Ok x /\ nth_error l 1 <> Some x.
Proof.
  assert (E : transform (bottom_of fourier2) (Fin 0) = Fin 0).
  { exact fourier2_zero. }
  exists fourier2, (Fin 0). do 2 eexists. ands; [apply fourier2_made|cbn; lia|now apply (evals_fin fourier2 (Fin 0) 0 fourier2_made)| |].
  - cbn [eval fourier2 b_kind]. change (mkBasis _ _ _ _ _ _ _ _) with (bottom_of fourier2). rewrite E. cbn. reflexivity.
  - cbn. rewrite Rmult_0_l, cos_0. replace ((0 / 2) * 0)%R with 0%R by lra. rewrite sin_0. intros H. injection H as H. lra.
Qed.
(** The zeroth monomial of an outlier is 1 by eval, NaN in the array. *)
Definition mono2 : mfn := Basis (mkBasis Monomial 2 (0, 1)%R (0, 1)%R false true ((1 - 0) / Rmax (1 - 0) tiny) 0).
Lemma mono2_made : made mono2.
Proof. apply (made_basis Monomial 2 (0, 1)%R RNone false true). unfold init. cbn. destruct (Rlt_dec 0 (1 - 0)); [reflexivity|lra]. Qed.
Theorem C47_monomial_refuted : exists m v, made m /\ eval m 0 v = Ok (Fin 1) /\ exists l, eval_all m v None = Ok l /\ nth_error l 0 = Some NaN.
Proof.
  assert (E : transform (bottom_of mono2) PInf = NaN).
  { unfold transform, mono2, clip, linear. cbn. unfold inf_mul. destruct (Rlt_dec 0 _) as [_|Hn]; [reflexivity|]. exfalso. apply Hn.
    apply Rmult_lt_0_compat; [lra|]. apply Rinv_0_lt_compat. eapply Rlt_le_trans; [|apply Rmax_l]. lra. }
  exists mono2, PInf. ands; [apply mono2_made| |].
  - cbn [eval mono2 b_kind]. change (mkBasis _ _ _ _ _ _ _ _) with (bottom_of mono2). now rewrite E.
  - eexists. split; [unfold eval_all; cbn [eval_all_ mono2 msize b_size b_kind]; reflexivity|].
    change (mkBasis _ _ _ _ _ _ _ _) with (bottom_of mono2). rewrite E. reflexivity.
Qed.

(** * C48 *)
Theorem C48_prefix_partial : forall m v n k, made m -> k <> 0 -> k <= n ->
  exists l, eval_all m v (Some n) = Ok l /\ eval_all m v (Some k) = Ok (firstn k l).
Proof. exact prefix. Qed.
Theorem C73_prefix : forall m v n k, made m -> k <> 0 -> k <= n ->
  exists l, eval_all m v (Some n) = Ok l /\ eval_all m v (Some k) = Ok (firstn k l).
Proof. exact prefix. Qed.
(** Full statement: change_size(r) gives the first r functions. It never returns: the arguments are passed in the
    wrong positions. *)
Theorem C48_change_size_refuted : exists m r, made m /\ r < msize m /\ forall m', change_size m r <> Ok m'.
Proof. exists mono2, 1. ands; [apply mono2_made|cbn; lia|]. intros m'. apply change_size_never, mono2_made. Qed.
Theorem C48_change_size_never_refuted : forall m r m', made m -> change_size m r <> Ok m'.
Proof. intros. now apply change_size_never. Qed.

(** * C49 *)
(** The functions of all Legendre objects are restrictions of one sequence of polynomials of the reference variable. *)
Theorem C49_legendre : exists F : nat -> R -> R,
  (forall b v t n, made (Basis b) -> b_kind b = Legendre -> transform b v = Fin t -> n <> 0 ->
     eval_all (Basis b) v (Some n) = Ok (map (fun i => Fin (F i t)) (seq 0 n)))
  /\ (forall n, F n 1 = 1)%R /\ (forall n, F n (-1) = (-1) ^ n)%R /\ (forall n t, -1 <= t <= 1 -> Rabs (F n t) <= 1)%R
  /\ (forall n k, n <> k -> is_RInt (fun t => F n t * F k t)%R (-1) 1 0%R)
  /\ (forall n, is_RInt (fun t => F n t * F n t)%R (-1) 1 (2 / (2 * INR n + 1))%R).
Proof.
  exists P. ands; [|apply P_one|apply P_minus_one|apply P_bound|apply orthogonal|apply square].
  intros b v t n Hb Hk Ht Hn. unfold eval_all. cbn [eval_all_]. destruct n; [easy|]. f_equal. apply map_ext. intros i. rewrite Ht, Hk. apply (col_fin Legendre).
Qed.
(** The default reference interval is [-1, 1]. *)
Theorem C49_reference : forall s d log safe b, init Legendre s d RNone log safe = Ok b -> b_ref b = (-1, 1)%R.
Proof. intros s d log safe b H. now apply init_ok in H as (_ & _ & _ & _ & _ & _ & _ & _ & _ & _ & H & _); apply H. Qed.
(** eval_diff and eval_diff2 are the derivatives of eval_all with respect to the reference variable, also for
    transformed moments. *)
Theorem C49_derivatives : forall m, made m -> kind_of m = Legendre -> exists F F' F'' : nat -> R -> R,
  (forall v t, transform (bottom_of m) v = Fin t ->
     eval_all m v None = Ok (map (fun i => Fin (F i t)) (seq 0 (msize m)))
     /\ eval_diff m v None = Ok (map (fun i => Fin (F' i t)) (seq 0 (msize m)))
     /\ eval_diff2 m v None = Ok (map (fun i => Fin (F'' i t)) (seq 0 (msize m))))
  /\ forall i t, i < msize m -> is_derive (F i) t (F' i t) /\ is_derive (F' i) t (F'' i t).
Proof.
  intros m Hm Hk. exists (mval m), (dval D m), (dval DD m). split; [|intros; now apply mval_dval].
  intros v t Ht. ands; [now apply evals_fin| |]; apply eval_der_value; auto; intros; [apply diff_value|apply diff2_value]; auto.
Qed.

(** * Examples *)
Definition leg3 : mfn := Basis (mkBasis Legendre 3 (0, 2)%R (-1, 1)%R false true ((1 - -1) / Rmax (2 - 0) tiny) 0).
Lemma tiny_small : (tiny <= 1)%R.
Proof. unfold tiny. rewrite <- Rinv_1. apply Rinv_le_contravar; [lra|]. apply pow_R1_Rle. lra. Qed.
Lemma leg3_made : made leg3.
Proof. apply (made_basis Legendre 3 (0, 2)%R RNone false true). unfold init. cbn. destruct (Rlt_dec 0 (2 - 0)); [reflexivity|lra]. Qed.
Lemma leg3_transform x : (0 <= x <= 2)%R -> transform (bottom_of leg3) (Fin x) = Fin (x - 1).
Proof.
  intros Hx. pose proof tiny_small. unfold transform, leg3, clip, linear. cbn [bottom_of b_log b_safe b_shift b_scale b_ref fst snd nsub nneg nadd nmul nlt_r ngt_r].
  rewrite (Rmax_left (2 - 0) tiny), Rmin_left, Rmax_right by lra.
  replace ((x + - 0) * ((1 - -1) / (2 - 0)) + -1)%R with (x - 1)%R by field.
  cbn. destruct (Rlt_dec (x - 1) (-1)); [lra|]. destruct (Rlt_dec 1 (x - 1)); [lra|]. reflexivity.
Qed.
Lemma leg3_facts : increasing (bottom_of leg3) /\ wide (bottom_of leg3) /\ unit_first leg3 /\ kind_of leg3 <> Fourier.
Proof. pose proof tiny_small. unfold increasing, wide, mapped. fold tiny. cbn. ands; try discriminate; auto; lra. Qed.
(** Two levels, one sample outside the domain on level 0. *)
Definition mom_demo : list (nat * arr num) := [(0, [[[Fin 1]; [Fin 2]; [Fin 5]]]); (1, [[[Fin 1; Fin 0]; [Fin 2; Fin 2]]])].
Lemma mom_demo_ok : chunks_ok 1 2 mom_demo.
Proof.
  intros l x [H|[H|[]]]; injection H as <- <-; (split; [lia|]); [exists 3|exists 2]; (split; [reflexivity|]); intros row [<-|[]]; (split; [reflexivity|]);
    intros s Hs; cbn in Hs; repeat destruct Hs as [<-|Hs]; try destruct Hs; reflexivity.
Qed.
Example C44_example : exists q : qmean nat, estimate_moments leg3 true QScalar 2 mom_demo = Ok q /\ q_n q = [2; 2] /\ q_rm q = [1; 0] /\ nth 0 (mean q) NaN = Fin 1.
Proof.
  destruct leg3_facts as (Hi & Hw & Hu & Hk).
  destruct (C44_estimated_partial nat leg3 true QScalar 2 mom_demo leg3_made Hk ltac:(discriminate) mom_demo_ok) as [q Hq].
  { exists 0, [[Fin 1]]. ands; [lia|now left|]. intros v w [<-|[]] [<-|[]]. rewrite leg3_transform by lra. eexists; reflexivity. }
  exists q. split; auto.
  set (inb := fun w => match w with Fin x => if Rle_dec 0 x then if Rle_dec x 2 then true else false else false | _ => false end).
  assert (Hin : forall s, forallb (forallb inb) s = true <-> everywhere (inside (bottom_of leg3)) s).
  { intros s. rewrite forallb_forall. unfold everywhere. split.
    - intros H v w Hv Hww. specialize (H v Hv). rewrite forallb_forall in H. specialize (H w Hww). unfold inb in H. destruct w as [x| | |]; try discriminate.
      destruct (Rle_dec 0 x); [|discriminate]. destruct (Rle_dec x 2); [|discriminate]. exists x. split; auto.
    - intros H v Hv. apply forallb_forall. intros w Hww. destruct (H v w Hv Hww) as (x & -> & Hx). cbn in Hx. unfold inb.
      destruct (Rle_dec 0 x); [|lra]. destruct (Rle_dec x 2); [reflexivity|lra]. }
  destruct (C71_removed nat leg3 true QScalar 2 mom_demo q leg3_made Hi Hw eq_refl ltac:(discriminate) mom_demo_ok Hq _ Hin) as [En Er].
  assert (B : inb (Fin 1) = true /\ inb (Fin 2) = true /\ inb (Fin 0) = true /\ inb (Fin 5) = false).
  { unfold inb. ands; repeat (destruct (Rle_dec _ _); try lra); reflexivity. }
  destruct B as (B1 & B2 & B0 & B5). cbn -[inb] in En, Er. rewrite ?B1, ?B2, ?B0, ?B5 in En, Er. cbn in En, Er. ands; auto.
  apply (C44_zeroth_moment_partial nat leg3 true QScalar 2 mom_demo q leg3_made Hu ltac:(discriminate) mom_demo_ok Hq 0 ltac:(cbn; lia)).
  intros l Hl. rewrite En. destruct l as [|[|l]]; cbn; lia.
Qed.
Example C45_example : exists q : qmean nat, estimate_covariance leg3 false QScalar 1 [(0, [[[Fin 1]; [Fin 2]]])] = Ok q /\ chunks_ok 1 1 [(0, [[[Fin 1]; [Fin 2]]])].
Proof.
  assert (Hc : chunks_ok 1 1 [(0, [[[Fin 1]; [Fin 2]]])]).
  { intros l x [H|[]]; injection H as <- <-. split; [lia|]. exists 2. split; [reflexivity|]. intros row [<-|[]]. split; [reflexivity|]. intros s [<-|[<-|[]]]; reflexivity. }
  destruct (C45_estimated nat leg3 false QScalar 1 [(0, [[[Fin 1]; [Fin 2]]])] leg3_made ltac:(discriminate) ltac:(discriminate) Hc) as [q Hq]; [|now exists q].
  exists 0, [[Fin 1]]. ands; [lia|now left|]. intros v w [<-|[]] [<-|[]]. rewrite leg3_transform by lra. eexists; reflexivity.
Qed.
Example C46_example : inside (bottom_of leg3) (Fin 1) /\ transform (bottom_of leg3) (Fin 1) = Fin (1 - 1) /\ ~ inside (bottom_of leg3) (Fin 3) /\ transform (bottom_of leg3) (Fin 3) = NaN.
Proof.
  destruct leg3_facts as (Hi & Hw & _). ands.
  - exists 1%R. cbn. split; [reflexivity|lra].
  - apply leg3_transform; lra.
  - intros (x & E & Hx). injection E as <-. cbn in Hx. lra.
  - assert (H : init Legendre 3 (0, 2)%R RNone false true = Ok (bottom_of leg3)) by (unfold init; cbn; destruct (Rlt_dec 0 (2 - 0)); [reflexivity|lra]).
    apply (transform_outside _ _ _ _ _ _ _ H); auto. intros (x & E & Hx). injection E as <-. cbn in Hx. lra.
Qed.
Example C47_example : eval leg3 2 (Fin 2) = Ok (Fin 1) /\ eval_single_moment leg3 2 (Fin 2) = Ok (Fin 1).
Proof.
  destruct (C72_one_moment leg3 2 (Fin 2) leg3_made ltac:(cbn; lia)) as (l & x & E & S & N & H).
  rewrite (evals_fin leg3 (Fin 2) (2 - 1) leg3_made) in E by (apply leg3_transform; lra). injection E as <-. rewrite S, H by (now left).
  cbn [msize leg3 b_size seq map nth_error] in N. injection N as <-. cbn [mval fval b_kind]. replace (2 - 1)%R with 1%R by lra. now rewrite P_one.
Qed.
Example C48_example : exists m, mk_trans leg3 [[1; 0; 0]; [0; 2; 1]]%R = Ok m /\ made m /\ unit_first m /\ msize m = 2.
Proof.
  exists (Trans leg3 [[1; 0; 0]; [0; 2; 1]]%R). assert (E : mk_trans leg3 [[1; 0; 0]; [0; 2; 1]]%R = Ok (Trans leg3 [[1; 0; 0]; [0; 2; 1]]%R)) by reflexivity.
  ands; auto; try (split; [exact I|reflexivity]). refine (made_trans leg3 [[1; 0; 0]; [0; 2; 1]]%R _ leg3_made _ E). discriminate.
Qed.
Example C49_example : eval_diff leg3 (Fin 2) None = Ok [Fin 0; Fin 1; Fin 3].
Proof.
  unfold eval_diff. rewrite (eval_der_value D diff_mat leg3 (Fin 2) (2 - 1)); [|intros; now apply diff_value|apply leg3_made|reflexivity|apply leg3_transform; lra].
  cbn [msize leg3 b_size seq map dval]. unfold D. cbn. unfold P. cbn. do 3 f_equal. f_equal. f_equal. lra.
Qed.

Print Assumptions C44_zeroth_moment_partial.
Print Assumptions C44_estimated_partial.
Print Assumptions C44_fourier_refuted.
Print Assumptions C45_symmetric.
Print Assumptions C45_estimated.
Print Assumptions C45_single_level.
Print Assumptions C46_inverse.
Print Assumptions C46_inverse_transform.
Print Assumptions C46_inside.
Print Assumptions C46_ends_outside_partial.
Print Assumptions C46_removed_partial.
Print Assumptions C46_narrow_refuted.
Print Assumptions C47_single_partial.
Print Assumptions C47_eval_partial.
Print Assumptions C47_fourier_refuted.
Print Assumptions C47_monomial_refuted.
Print Assumptions C48_prefix_partial.
Print Assumptions C48_change_size_refuted.
Print Assumptions C48_change_size_never_refuted.
Print Assumptions C49_legendre.
Print Assumptions C49_reference.
Print Assumptions C49_derivatives.
Print Assumptions C71_ends_outside.
Print Assumptions C71_removed.
Print Assumptions C72_one_moment.
Print Assumptions C73_prefix.
Print Assumptions C74_zeroth_moment.
