(** Linearity and telescoping of the mean estimate. *)
From Coq Require Import Lra.
From Verif Require Import Base BaseFacts QTypeModel QuantityModel QuantitySpec NumModel NumFacts EstimateModel EstimateSpec EstimateProofs EstimateFacts.

Lemma comb_length {A B C} (f : A -> B -> C) x y : length x = length y -> length (comb f x y) = length x.
Proof. intros E. unfold comb. rewrite map_length, combine_length. lia. Qed.
Lemma comb_app {A B C} (f : A -> B -> C) x x' y y' : length x = length y -> comb f (x ++ x') (y ++ y') = comb f x y ++ comb f x' y'.
Proof.
  revert y. induction x as [|a x IH]; intros [|b y] E; try discriminate; [reflexivity|]. cbn. f_equal. apply IH. now injection E.
Qed.
Lemma comb_nth {A B C} (f : A -> B -> C) x y i da db dc : length x = length y -> i < length x -> nth i (comb f x y) dc = f (nth i x da) (nth i y db).
Proof.
  intros E Hi. unfold comb. rewrite (nth_indep _ dc (f (fst (da, db)) (snd (da, db)))) by (rewrite map_length, combine_length; lia).
  rewrite (map_nth (fun p => f (fst p) (snd p))), combine_nth by auto. reflexivity.
Qed.
Lemma comb_map {A B C D} (f : B -> C -> D) (g : A -> B) (h : A -> C) l : comb f (map g l) (map h l) = map (fun x => f (g x) (h x)) l.
Proof. unfold comb. rewrite combine_map, map_map. reflexivity. Qed.
Lemma in_comb {A B C} (f : A -> B -> C) x y z : In z (comb f x y) -> exists a b, In (a, b) (combine x y) /\ z = f a b.
Proof. unfold comb. intros H. apply in_map_iff in H as ([a b] & <- & H). eauto. Qed.

Section Lin.
Variables (a b : R).
Notation F := (comb (comb (lin a b))).

Lemma shaped_row M N k (x : arr num) m : shaped M N k x -> m < M -> length (nth m x []) = N /\ forall s, In s (nth m x []) -> length s = k.
Proof. intros [E H] Hm. apply H, nth_In. lia. Qed.
Lemma lin_shaped M N k (x y : arr num) : shaped M N k x -> shaped M N k y -> shaped M N k (comb F x y).
Proof.
  intros Hx Hy. split.
  - rewrite comb_length; [apply Hx|]. destruct Hx, Hy. congruence.
  - intros row Hr. apply in_comb in Hr as (r & t & Hin & ->).
    pose proof (proj2 Hx r (in_combine_l _ _ _ _ Hin)) as [L1 S1]. pose proof (proj2 Hy t (in_combine_r _ _ _ _ Hin)) as [L2 S2].
    split; [rewrite comb_length; lia|]. intros s Hs. apply in_comb in Hs as (u & v & Hi & ->).
    pose proof (S1 u (in_combine_l _ _ _ _ Hi)). pose proof (S2 v (in_combine_r _ _ _ _ Hi)). rewrite comb_length; lia.
Qed.
Lemma nth_map0 {A B} (f : A -> B) l d d' i : i < length l -> nth i (map f l) d' = f (nth i l d).
Proof. intros H. rewrite (nth_indep _ d' (f d)) by (now rewrite map_length). apply map_nth. Qed.
Lemma lin_samples M N k (x y : arr num) : M <> 0 -> shaped M N k x -> shaped M N k y ->
  samples_of (comb F x y) = comb F (samples_of x) (samples_of y).
Proof.
  intros HM Hx Hy. rewrite (samples_of_shaped M N k), (samples_of_shaped M N k), (samples_of_shaped M N k) by auto using lin_shaped.
  rewrite comb_map. apply map_ext_in. intros i Hi. apply in_seq in Hi.
  assert (E : length x = length y) by (destruct Hx, Hy; congruence).
  apply nth_ext with (d := []) (d' := []).
  - rewrite map_length, !comb_length; rewrite ?map_length; auto.
  - intros m Hm. rewrite map_length, comb_length in Hm by auto.
    rewrite (nth_map0 _ _ [] []) by (now rewrite comb_length). rewrite (comb_nth _ x y m [] [] []) by auto.
    destruct (shaped_row M N k x m Hx) as [L1 _]; [destruct Hx; lia|]. destruct (shaped_row M N k y m Hy) as [L2 _]; [destruct Hx; lia|].
    rewrite (comb_nth _ (nth m x []) (nth m y []) i [] [] []) by lia.
    rewrite (comb_nth _ (map _ x) (map _ y) m [] [] []) by (rewrite ?map_length; auto).
    now rewrite !(nth_map0 _ _ [] []) by lia.
Qed.
Lemma samples_length M N k (x : arr num) : M <> 0 -> shaped M N k x -> length (samples_of x) = N.
Proof. intros HM Hx. now rewrite (samples_of_shaped M N k), map_length, seq_length. Qed.
Lemma level_aligned M cs1 cs2 l : M <> 0 -> aligned M cs1 cs2 -> length (level_samples cs1 l) = length (level_samples cs2 l).
Proof.
  intros HM. induction 1 as [|[l1 x] [l2 y] cs1 cs2 [E (N & Hx & Hy)] H IH]; auto. cbn [fst snd] in *. subst l2.
  unfold level_samples in *. cbn [flat_map fst snd]. rewrite !app_length, IH. destruct (l1 =? l); auto.
  rewrite (samples_length M N (parts l1)), (samples_length M N (parts l1)); auto.
Qed.
Lemma level_lin M cs1 cs2 l : M <> 0 -> aligned M cs1 cs2 ->
  level_samples (lin_chunks a b cs1 cs2) l = comb F (level_samples cs1 l) (level_samples cs2 l).
Proof.
  intros HM. induction 1 as [|[l1 x] [l2 y] cs1 cs2 [E (N & Hx & Hy)] H IH]; auto. cbn [fst snd] in *. subst l2.
  change ((if l1 =? l then samples_of (comb F x y) else []) ++ level_samples (lin_chunks a b cs1 cs2) l
          = comb F ((if l1 =? l then samples_of x else []) ++ level_samples cs1 l) ((if l1 =? l then samples_of y else []) ++ level_samples cs2 l)).
  rewrite IH. destruct (l1 =? l); auto. rewrite comb_app.
  - f_equal. now apply (lin_samples M N (parts l1)).
  - rewrite (samples_length M N (parts l1)), (samples_length M N (parts l1)); auto.
Qed.

(** Samples of the same shape with the same usability. *)
Definition tame (s : list (list num)) : Prop := forall v w, In v s -> In w v -> w = NaN \/ finite w.
Definition same_shape (s t : list (list num)) : Prop := length s = length t /\ forall u v, In (u, v) (combine s t) -> length u = length v.
Lemma in_combine_ex {A B} (x : list A) (y : list B) u : length x = length y -> In u x -> exists v, In (u, v) (combine x y).
Proof.
  revert y. induction x as [|p x IH]; intros [|q y] E H; try easy. destruct H as [->|H]; [exists q; now left|].
  destruct (IH y) as [v Hv]; auto. exists v. now right.
Qed.
Lemma usable_iff s : usable s = true <-> forall v w, In v s -> In w v -> w <> NaN.
Proof.
  unfold usable. rewrite forallb_forall. split.
  - intros H v w Hv Hw E. subst w. specialize (H v Hv). rewrite forallb_forall in H. now specialize (H NaN Hw).
  - intros H v Hv. apply forallb_forall. intros w Hw. specialize (H v w Hv Hw). now destruct w.
Qed.
Lemma lin_usable s t : same_shape s t -> tame s -> tame t -> usable s = usable t -> usable (F s t) = usable s.
Proof.
  intros [E Hs] T1 T2 HU. destruct (usable s) eqn:Us.
  - symmetry in HU. rewrite usable_iff in Us, HU. apply usable_iff. intros v w Hv Hw.
    apply in_comb in Hv as (u1 & u2 & Hin & ->). apply in_comb in Hw as (w1 & w2 & Hiw & ->).
    assert (H1 := in_combine_l _ _ _ _ Hin). assert (H2 := in_combine_r _ _ _ _ Hin).
    assert (K1 := in_combine_l _ _ _ _ Hiw). assert (K2 := in_combine_r _ _ _ _ Hiw).
    destruct (T1 u1 w1 H1 K1) as [C|[r1 ->]]; [now destruct (Us u1 w1)|].
    destruct (T2 u2 w2 H2 K2) as [C|[r2 ->]]; [now destruct (HU u2 w2)|]. discriminate.
  - apply not_true_is_false. intros H. assert (Us' : usable s = true); [|congruence].
    rewrite usable_iff in H. apply usable_iff. intros v w Hv Hw ->.
    destruct (in_combine_ex s t v E Hv) as [u Hu]. pose proof (Hs v u Hu) as El.
    destruct (in_combine_ex v u NaN El Hw) as [w' Hw'].
    apply (H (comb (lin a b) v u) (lin a b NaN w')).
    + unfold comb at 1. apply in_map_iff. exists (v, u). auto.
    + unfold comb. apply in_map_iff. exists (NaN, w'). auto.
    + reflexivity.
Qed.
Lemma used_lin S1 : forall S2, length S1 = length S2 -> (forall s t, In (s, t) (combine S1 S2) -> same_shape s t /\ tame s /\ tame t) ->
  map usable S1 = map usable S2 -> filter usable (comb F S1 S2) = comb F (filter usable S1) (filter usable S2).
Proof.
  induction S1 as [|s S1 IH]; intros [|t S2] E H HU; try discriminate; auto. cbn in HU. injection HU as HU HU'.
  destruct (H s t (or_introl eq_refl)) as (Hs & T1 & T2).
  unfold comb at 1. cbn [combine map filter fst snd]. rewrite lin_usable by auto. rewrite <- HU. fold (comb F S1 S2).
  rewrite IH; auto; [destruct (usable s); reflexivity|]. intros s' t' H'. apply H. now right.
Qed.

Lemma in_samples M N k (x : arr num) s : M <> 0 -> shaped M N k x -> In s (samples_of x) ->
  length s = M /\ forall v, In v s -> length v = k /\ exists row, In row x /\ In v row.
Proof.
  intros HM Hx Hs. rewrite (samples_of_shaped M N k) in Hs by auto. apply in_map_iff in Hs as (i & <- & Hi). apply in_seq in Hi.
  split; [rewrite map_length; apply Hx|]. intros v Hv. apply in_map_iff in Hv as (row & <- & Hr).
  destruct (proj2 Hx row Hr) as [Lr Sr]. assert (In (nth i row []) row) by (apply nth_In; lia). eauto.
Qed.
Lemma in_level cs l s : In s (level_samples cs l) -> exists x, In (l, x) cs /\ In s (samples_of x).
Proof.
  intros H. apply in_flat_map in H as ([l' x] & Hin & Hs). cbn in Hs. destruct (Nat.eqb_spec l' l); [subst; eauto|easy].
Qed.
Lemma level_tame M L cs l s : M <> 0 -> chunks_ok M L cs -> no_inf cs -> In s (level_samples cs l) ->
  tame s /\ length s = M /\ forall v, In v s -> length v = parts l.
Proof.
  intros HM Hc Hn Hs. apply in_level in Hs as (x & Hin & Hs). destruct (Hc l x Hin) as [Hl [N Hx]].
  destruct (in_samples M N _ x s HM Hx Hs) as [E H]. ands; auto; [|intros v Hv; apply (H v Hv)].
  intros v w Hv Hw. destruct (H v Hv) as (_ & row & Hr & Hv'). apply (Hn l x row v w); auto.
Qed.

Lemma aligned_ok M L cs1 cs2 : aligned M cs1 cs2 -> (forall l x, In (l, x) cs1 -> l < L) -> chunks_ok M L cs1 /\ chunks_ok M L cs2 /\ chunks_ok M L (lin_chunks a b cs1 cs2).
Proof.
  induction 1 as [|[l1 x] [l2 y] cs1 cs2 [E (N & Hx & Hy)] H IH]; intros Hl; [ands; intros ? ? []|]. cbn [fst snd] in *. subst l2.
  destruct IH as (I1 & I2 & I3); [intros l z Hz; apply (Hl l z); now right|]. assert (l1 < L) by (apply (Hl l1 x); now left). ands.
  - intros l z [Hz|Hz]; [injection Hz as <- <-; eauto|now apply I1].
  - intros l z [Hz|Hz]; [injection Hz as <- <-; eauto|now apply I2].
  - intros l z [Hz|Hz]; [cbn in Hz; injection Hz as <- <-; split; auto; exists N; now apply lin_shaped|now apply I3].
Qed.

Lemma used_lin_chunks M L cs1 cs2 l : M <> 0 -> aligned M cs1 cs2 -> (forall l x, In (l, x) cs1 -> l < L) -> no_inf cs1 -> no_inf cs2 ->
  same_mask L cs1 cs2 -> l < L ->
  used (lin_chunks a b cs1 cs2) l = comb F (used cs1 l) (used cs2 l) /\ length (used cs1 l) = length (used cs2 l).
Proof.
  intros HM Ha Hlt Hn1 Hn2 Hm Hl. destruct (aligned_ok M L cs1 cs2 Ha Hlt) as (C1 & C2 & C3). unfold used. split.
  - rewrite (level_lin M) by auto. apply used_lin; [now apply (level_aligned M)| |now apply Hm].
    intros s t Hst. assert (H1 := in_combine_l _ _ _ _ Hst). assert (H2 := in_combine_r _ _ _ _ Hst).
    destruct (level_tame M L cs1 l s HM C1 Hn1 H1) as (T1 & L1 & P1). destruct (level_tame M L cs2 l t HM C2 Hn2 H2) as (T2 & L2 & P2).
    ands; auto. split; [congruence|]. intros u v Huv. rewrite (P1 u), (P2 v); auto; [now apply in_combine_r in Huv|now apply in_combine_l in Huv].
  - specialize (Hm l Hl). revert Hm. generalize (level_samples cs2 l). induction (level_samples cs1 l) as [|s S1 IH]; intros [|t S2] H; try discriminate; auto.
    cbn in *. injection H as H1 H2. rewrite <- H1. destruct (usable s); cbn; rewrite (IH S2 H2); reflexivity.
Qed.

(** Values of used samples are finite. *)
Lemma used_finite M L cs l s : M <> 0 -> chunks_ok M L cs -> no_inf cs -> In s (used cs l) -> length s = M /\ forall v, In v s -> length v = parts l /\ forall w, In w v -> finite w.
Proof.
  intros HM Hc Hn Hs. apply filter_In in Hs as [Hs Hu]. destruct (level_tame M L cs l s HM Hc Hn Hs) as (T & E & P). split; auto.
  intros v Hv. split; auto. intros w Hw. rewrite usable_iff in Hu. destruct (T v w Hv Hw) as [->|]; auto. now destruct (Hu v NaN Hv Hw).
Qed.
Lemma difference_finite M L cs l m s : M <> 0 -> chunks_ok M L cs -> no_inf cs -> m < M -> In s (used cs l) -> finite (difference l m s).
Proof.
  intros HM Hc Hn Hm Hs. destruct (used_finite M L cs l s HM Hc Hn Hs) as [E H].
  destruct (H (nth m s []) ltac:(apply nth_In; lia)) as [Ev Hv]. unfold difference, parts in *.
  destruct (l =? 0).
  - apply Hv, nth_In. lia.
  - apply nsub_fin; apply Hv, nth_In; lia.
Qed.
Lemma lin_fin r s : lin a b (Fin r) (Fin s) = Fin (a * r + b * s).
Proof. reflexivity. Qed.
Lemma difference_lin M L cs1 cs2 l m s t : M <> 0 -> chunks_ok M L cs1 -> chunks_ok M L cs2 -> no_inf cs1 -> no_inf cs2 -> m < M ->
  In s (used cs1 l) -> In t (used cs2 l) -> difference l m (F s t) = lin a b (difference l m s) (difference l m t).
Proof.
  intros HM C1 C2 N1 N2 Hm Hs Ht. destruct (used_finite M L cs1 l s HM C1 N1 Hs) as [E1 H1]. destruct (used_finite M L cs2 l t HM C2 N2 Ht) as [E2 H2].
  destruct (H1 (nth m s []) ltac:(apply nth_In; lia)) as [P1 F1]. destruct (H2 (nth m t []) ltac:(apply nth_In; lia)) as [P2 F2].
  unfold difference. rewrite (comb_nth _ s t m [] [] []) by lia. unfold parts in *.
  destruct (l =? 0).
  - now rewrite (comb_nth _ _ _ 0 NaN NaN NaN) by lia.
  - rewrite (comb_nth _ _ _ 0 NaN NaN NaN), (comb_nth _ _ _ 1 NaN NaN NaN) by lia.
    destruct (F1 (nth 0 (nth m s []) NaN) ltac:(apply nth_In; lia)) as [r1 ->]. destruct (F1 (nth 1 (nth m s []) NaN) ltac:(apply nth_In; lia)) as [r2 ->].
    destruct (F2 (nth 0 (nth m t []) NaN) ltac:(apply nth_In; lia)) as [r3 ->]. destruct (F2 (nth 1 (nth m t []) NaN) ltac:(apply nth_In; lia)) as [r4 ->].
    cbn. f_equal. ring.
Qed.
Lemma nsum_lin x : forall y, length x = length y -> (forall u, In u x -> finite u \/ u = NaN) -> (forall u, In u y -> finite u \/ u = NaN) ->
  nsum (comb (lin a b) x y) = lin a b (nsum x) (nsum y).
Proof.
  assert (Hs : forall l, (forall u, In u l -> finite u \/ u = NaN) -> finite (nsum l) \/ nsum l = NaN).
  { induction l as [|u l IH]; intros H; [left; eexists; reflexivity|]. rewrite nsum_cons.
    destruct (H u (or_introl eq_refl)) as [[r ->]| ->]; [|now right]. destruct IH as [[r' ->]| ->]; [intros; apply H; now right| |now right].
    left. eexists. reflexivity. }
  induction x as [|u x IH]; intros [|v y] E H1 H2; try discriminate.
  - cbn. f_equal. ring.
  - unfold comb. cbn [combine map fst snd]. rewrite nsum_cons. fold (comb (lin a b) x y). rewrite IH; auto.
    2:{ intros; apply H1; now right. } 2:{ intros; apply H2; now right. }
    rewrite !nsum_cons.
    assert (A1 := Hs x (fun z h => H1 z (or_intror h))). assert (A2 := Hs y (fun z h => H2 z (or_intror h))).
    destruct (H1 u (or_introl eq_refl)) as [[r1 ->]| ->]; destruct (H2 v (or_introl eq_refl)) as [[r2 ->]| ->];
      destruct A1 as [[r3 ->]| ->]; destruct A2 as [[r4 ->]| ->]; cbn; auto. f_equal. ring.
Qed.
Lemma ndivn_lin n x y : (finite x \/ x = NaN) -> (finite y \/ y = NaN) -> (n = 0 -> x = Fin 0 /\ y = Fin 0) ->
  ndivn (lin a b x y) n = lin a b (ndivn x n) (ndivn y n).
Proof.
  intros Hx Hy Hn. destruct n as [|n].
  - destruct Hn as [-> ->]; auto. cbn. unfold inf_mul.
    destruct (Rlt_dec 0 (a * 0 + b * 0)); [exfalso; lra|]. destruct (Rlt_dec (a * 0 + b * 0) 0); [exfalso; lra|].
    destruct (Rlt_dec 0 0); [exfalso; lra|]. reflexivity.
  - destruct Hx as [[r ->]| ->], Hy as [[s ->]| ->]; cbn; auto. f_equal. unfold Rdiv. ring.
Qed.
End Lin.
