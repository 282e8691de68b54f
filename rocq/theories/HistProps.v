(** C223: the bins of the histogram of raw samples. *)
From Coq Require Import Reals Lra Psatz.
From Verif Require Import Base PlotModel HistModel.
Open Scope R_scope.

(** *** Specification *)
(** Edges of at least one bin, increasing, from lo to hi. *)
Definition good_bins (edges : list R) (lo hi : R) : Prop :=
  (2 <= length edges)%nat /\ nth 0 edges 0 = lo /\ nth (length edges - 1) edges 0 = hi /\
  (forall i j, (i < j < length edges)%nat -> nth i edges 0 <= nth j edges 0 /\ (lo < hi -> nth i edges 0 < nth j edges 0)).
Definition covers (lo hi : R) (samples : list R) : Prop := forall x, In x samples -> lo <= x <= hi.
(** Domains the plot may have: none yet, or a non-empty interval; positive for the logarithmic axis. *)
Definition own_ok (log_x : bool) (own : option (R * R)) : Prop := forall lo hi, own = Some (lo, hi) -> lo <= hi /\ (log_x = true -> 0 < lo).

Lemma lin_length a b n : length (linspace a b n) = n.
Proof. destruct n as [|[|n]]; [reflexivity|reflexivity|]. unfold linspace. rewrite map_length, seq_length. reflexivity. Qed.
Lemma lin_nth a b n i : (2 <= n)%nat -> (i < n)%nat -> nth i (linspace a b n) 0 = a + INR i * ((b - a) / INR (n - 1)).
Proof.
  intros L I. destruct n as [|[|n]]; [lia|lia|]. unfold linspace.
  rewrite (nth_indep _ 0 (a + INR 0 * ((b - a) / INR (S (S n) - 1)))) by (rewrite map_length, seq_length; exact I).
  rewrite (map_nth (fun i => a + INR i * ((b - a) / INR (S (S n) - 1))) (seq 0 (S (S n))) 0%nat i), seq_nth by exact I. reflexivity.
Qed.
Lemma lin_good a b n : (2 <= n)%nat -> a <= b -> good_bins (linspace a b n) a b.
Proof.
  intros L H. unfold good_bins. rewrite lin_length. split; [exact L|]. rewrite !lin_nth by lia.
  assert (P : 0 < INR (n - 1)) by (apply lt_0_INR; lia). split; [cbn; lra|]. split; [field; lra|].
  intros i j IJ. rewrite !lin_nth by lia. assert (LT : INR i < INR j) by (apply lt_INR; lia).
  assert (Q : 0 <= (b - a) / INR (n - 1)) by (apply Rmult_le_pos; [lra|left; apply Rinv_0_lt_compat; exact P]). split; [nra|].
  intros S. assert (0 < (b - a) / INR (n - 1)) by (apply Rdiv_lt_0_compat; lra). nra.
Qed.
Lemma exp_good l a b : good_bins l a b -> good_bins (map exp l) (exp a) (exp b).
Proof.
  intros [L [A [B M]]]. unfold good_bins. rewrite map_length.
  assert (N : forall i, (i < length l)%nat -> nth i (map exp l) 0 = exp (nth i l 0)).
  { intros i I. rewrite (nth_indep _ 0 (exp 0)) by (rewrite map_length; exact I). apply (map_nth exp). }
  split; [exact L|]. rewrite !N by lia. split; [rewrite A; reflexivity|]. split; [rewrite B; reflexivity|].
  intros i j IJ. rewrite !N by lia. destruct (M i j IJ) as [M1 M2]. split.
  - destruct M1 as [M1|M1]; [left; apply exp_increasing; exact M1|right; rewrite M1; reflexivity].
  - intros S. apply exp_increasing, M2. apply exp_lt_inv. exact S.
Qed.

Lemma fold_min : forall l x, fold_left Rmin l x <= x /\ (forall y, In y l -> fold_left Rmin l x <= y) /\ (fold_left Rmin l x = x \/ In (fold_left Rmin l x) l).
Proof.
  induction l as [|a l IH]; intros x; cbn [fold_left]; [split; [lra|split; [contradiction|left; reflexivity]]|].
  destruct (IH (Rmin x a)) as [A [B C]]. pose proof (Rmin_l x a). pose proof (Rmin_r x a). split; [lra|]. split.
  - intros y [<-|I]; [lra|exact (B y I)].
  - destruct C as [C|C]; [|right; right; exact C]. rewrite C. unfold Rmin. destruct (Rle_dec x a); [left; reflexivity|right; left; reflexivity].
Qed.
Lemma fold_max : forall l x, x <= fold_left Rmax l x /\ (forall y, In y l -> y <= fold_left Rmax l x).
Proof.
  induction l as [|a l IH]; intros x; cbn [fold_left]; [split; [lra|contradiction]|].
  destruct (IH (Rmax x a)) as [A B]. pose proof (Rmax_l x a). pose proof (Rmax_r x a). split; [lra|]. intros y [<-|I]; [lra|exact (B y I)].
Qed.

Lemma n_edges_spec N : (4 * (n_edges N * n_edges N) <= N < 4 * ((n_edges N + 1) * (n_edges N + 1)))%nat.
Proof.
  unfold n_edges. set (r := 5 / 10 * sqrt (INR N)). assert (P : 0 <= sqrt (INR N)) by apply sqrt_pos.
  assert (R0 : 0 <= r) by (unfold r; lra). destruct (base_Int_part r) as [B1 B2].
  assert (Z0 : (0 <= Int_part r)%Z). { assert (-1 < Int_part r)%Z; [apply lt_IZR; lra|lia]. }
  assert (K : INR (Z.to_nat (Int_part r)) = IZR (Int_part r)) by (rewrite INR_IZR_INZ, Z2Nat.id by exact Z0; reflexivity).
  set (k := Z.to_nat (Int_part r)) in *. pose proof (sqrt_sqrt (INR N) (pos_INR N)) as SQ. pose proof (pos_INR k) as PK.
  assert (Lo : INR k <= sqrt (INR N) / 2) by (rewrite K; unfold r in *; lra). assert (Hi : sqrt (INR N) / 2 < INR k + 1) by (rewrite K; unfold r in *; lra).
  split.
  - apply INR_le. rewrite !mult_INR. replace (INR 4) with 4 by (cbn; lra). nra.
  - apply INR_lt. rewrite !mult_INR, !plus_INR. replace (INR 4) with 4 by (cbn; lra). replace (INR 1) with 1 by reflexivity. nra.
Qed.

(** *** C223 *)
(** True for at least 16 samples; missing: fewer samples. *)
Theorem C223_bins_partial : forall log_x own samples, (16 <= length samples)%nat -> own_ok log_x own -> (log_x = true -> forall x, In x samples -> 0 < x) ->
  exists lo hi edges, add_raw_samples log_x own samples = Ok (Some (lo, hi), edges) /\ lo <= hi /\
    good_bins edges lo hi /\ covers lo hi samples /\ (forall a b, own = Some (a, b) -> lo <= a /\ b <= hi) /\
    (4 * (length edges * length edges) <= length samples < 4 * ((length edges + 1) * (length edges + 1)))%nat.
Proof.
  intros log_x own samples L OK POS. destruct samples as [|x l]; [cbn in L; lia|].
  destruct (fold_min l x) as [M1 [M2 M3]]. destruct (fold_max l x) as [X1 X2]. set (mn := fold_left Rmin l x) in *. set (mx := fold_left Rmax l x) in *.
  pose proof (n_edges_spec (length (x :: l))) as NE. set (n := n_edges (length (x :: l))) in *.
  assert (N2 : (2 <= n)%nat). { destruct n as [|[|n']]; [cbn in NE; cbn in L; lia|cbn in NE; cbn in L; lia|lia]. }
  assert (PMN : log_x = true -> 0 < mn). { intros E. destruct M3 as [->|I]; apply (POS E); [left; reflexivity|right; exact I]. }
  assert (G : forall lo hi, lo <= hi -> (log_x = true -> 0 < lo) -> exists edges, grid log_x (Some (lo, hi)) n None = Ok edges /\ good_bins edges lo hi /\ length edges = n).
  { intros lo hi LH P. unfold grid. destruct log_x.
    - unfold gspace. specialize (P eq_refl). destruct (Rlt_dec 0 lo); [|contradiction]. destruct (Rlt_dec 0 hi); [|lra].
      eexists. split; [reflexivity|]. split; [|rewrite map_length; apply lin_length].
      pose proof (exp_good _ _ _ (lin_good (ln lo) (ln hi) n N2 ltac:(destruct LH as [H|H]; [left; apply ln_increasing; assumption|right; rewrite H; reflexivity]))) as E.
      rewrite !exp_ln in E by lra. exact E.
    - eexists. split; [reflexivity|]. split; [apply lin_good; assumption|apply lin_length]. }
  assert (CV : forall lo hi, lo <= mn -> mx <= hi -> covers lo hi (x :: l)). { intros lo hi A B y [<-|I]; [lra|]. specialize (M2 y I). specialize (X2 y I). lra. }
  unfold add_raw_samples. cbn [sample_range bind]. fold mn mx.
  destruct own as [[a b]|]; cbn [adjust_domain fst snd].
  - destruct (OK a b eq_refl) as [AB PA]. pose proof (Rmin_l a mn). pose proof (Rmin_r a mn). pose proof (Rmax_l b mx). pose proof (Rmax_r b mx).
    destruct (G (Rmin a mn) (Rmax b mx)) as [edges [E [GB LN]]]; [lra|intros Q; apply Rmin_glb_lt; [exact (PA Q)|exact (PMN Q)]|].
    exists (Rmin a mn), (Rmax b mx), edges. fold n. rewrite E. cbn [bind]. split; [reflexivity|]. split; [lra|]. split; [exact GB|]. split; [apply CV; lra|].
    split; [intros a' b' Q; injection Q as <- <-; lra|]. rewrite LN. exact NE.
  - destruct (G mn mx) as [edges [E [GB LN]]]; [lra|exact PMN|].
    exists mn, mx, edges. fold n. rewrite E. cbn [bind]. split; [reflexivity|]. split; [lra|]. split; [exact GB|]. split; [apply CV; lra|].
    split; [intros a' b' Q; discriminate Q|]. rewrite LN. exact NE.
Qed.
Example C223_bins_partial_ex : let samples := map INR (seq 1 20) in (16 <= length samples)%nat /\ own_ok true (Some (1 / 2, 3)) /\ (forall x, In x samples -> 0 < x).
Proof.
  cbv zeta. split; [cbn; lia|]. split; [intros lo hi E; injection E as <- <-; lra|].
  intros x I. apply in_map_iff in I as [i [<- J]]. apply in_seq in J. apply lt_0_INR. lia.
Qed.

(** Less than 16 samples: at most one edge, so no bin at all; a sample 0 on the logarithmic axis: an exception. *)
Theorem C223_bins_refuted :
  (forall own samples own' edges, (length samples < 16)%nat -> add_raw_samples false own samples = Ok (own', edges) -> (length edges <= 1)%nat /\ forall lo hi, ~ good_bins edges lo hi) /\
  (exists samples edges, length samples = 15%nat /\ add_raw_samples false None samples = Ok (Some (1, 1), edges)) /\
  (exists samples, (16 <= length samples)%nat /\ add_raw_samples true None samples = Err ValueError).
Proof.
  split; [|split].
  - intros own samples own' edges L H. unfold add_raw_samples in H. destruct (sample_range samples) as [d|e]; [|discriminate H]. cbn [bind] in H.
    destruct (grid false (adjust_domain own d) (n_edges (length samples)) None) as [g|e] eqn:E; [|discriminate H]. cbn [bind] in H. injection H as _ <-.
    unfold grid in E. destruct (adjust_domain own d) as [[a b]|]; [|discriminate E]. injection E as <-. rewrite lin_length.
    pose proof (n_edges_spec (length samples)) as N. assert (LE : (n_edges (length samples) <= 1)%nat). { destruct (n_edges (length samples)) as [|[|n']]; [lia|lia|cbn in N; nia]. }
    split; [exact LE|]. intros lo hi [G _]. rewrite lin_length in G. lia.
  - exists (repeat 1 15). eexists. split; [reflexivity|]. unfold add_raw_samples. cbn [sample_range repeat bind].
    assert (MI : forall n, fold_left Rmin (repeat 1 n) 1 = 1) by (induction n as [|n IH]; [reflexivity|cbn; rewrite Rmin_left by lra; exact IH]).
    assert (MA : forall n, fold_left Rmax (repeat 1 n) 1 = 1) by (induction n as [|n IH]; [reflexivity|cbn; rewrite Rmax_left by lra; exact IH]).
    pose proof (MI 14%nat) as A. pose proof (MA 14%nat) as B. cbn [repeat] in A, B. rewrite A, B. cbn [adjust_domain grid bind]. reflexivity.
  - exists (repeat 0 16). split; [cbn; lia|]. unfold add_raw_samples. cbn [sample_range repeat bind].
    assert (MI : forall n, fold_left Rmin (repeat 0 n) 0 = 0) by (induction n as [|n IH]; [reflexivity|cbn; rewrite Rmin_left by lra; exact IH]).
    pose proof (MI 15%nat) as A. cbn [repeat] in A. rewrite A. cbn [adjust_domain grid]. unfold gspace. destruct (Rlt_dec 0 0); [lra|]. reflexivity.
Qed.
