(** Estimates of quantities whose rows are functions of the values of another quantity. *)
From Coq Require Import Lra.
From Verif Require Import Base BaseFacts QTypeModel QTypeProofs QuantityModel QuantitySpec NumModel NumFacts EstimateModel EstimateSpec
  EstimateProofs EstimateFacts EstimateLinear MomentsModel MomentsSpec.

Lemma flat_map_nth {A B} (f : A -> list B) r l c j d da : (forall a, In a l -> length (f a) = r) -> c < length l -> j < r ->
  nth (c * r + j) (flat_map f l) d = nth j (f (nth c l da)) d.
Proof.
  revert c. induction l as [|a l IH]; intros c Hf Hc Hj; [cbn in Hc; lia|]. cbn [flat_map]. pose proof (Hf a (or_introl eq_refl)).
  destruct c as [|c]; [rewrite app_nth1 by lia; reflexivity|]. rewrite app_nth2 by nia. replace (S c * r + j - length (f a)) with (c * r + j) by nia.
  apply IH; auto; [intros; apply Hf; now right|cbn in Hc; lia].
Qed.
Lemma map_flat_map {A B C} (g : B -> C) (f : A -> list B) l : map g (flat_map f l) = flat_map (fun a => map g (f a)) l.
Proof. induction l as [|a l IH]; [reflexivity|]. cbn. now rewrite map_app, IH. Qed.
Lemma flat_map_len {A B} (f : A -> list B) r l : (forall a, In a l -> length (f a) = r) -> length (flat_map f l) = length l * r.
Proof. induction l as [|a l IH]; intros H; [reflexivity|]. cbn [flat_map length]. rewrite app_length, IH by (intros; apply H; now right). rewrite (H a) by now left. lia. Qed.
Lemma filter_map {A B} (f : A -> B) p l : filter p (map f l) = map f (filter (fun a => p (f a)) l).
Proof. induction l as [|a l IH]; [reflexivity|]. cbn. rewrite IH. now destruct (p (f a)). Qed.
Lemma filter_ext_in' {A} (f g : A -> bool) l : (forall a, In a l -> f a = g a) -> filter f l = filter g l.
Proof. intros H. induction l as [|a l IH]; [reflexivity|]. cbn. rewrite (H a (or_introl eq_refl)), IH by (intros; apply H; now right). reflexivity. Qed.

Section Gen.
Variables (r : nat) (ev : num -> list num) (ok : num -> bool) (bottom : bool).
Hypothesis Hr : r <> 0.
Hypothesis Hgood : forall w j, ok w = true -> j < r -> finite (nth j (ev w) NaN).
Hypothesis Hbad : forall w, ok w = false -> exists j, j < r /\ nth j (ev w) NaN = NaN.

Definition part_of (j : nat) (v : list num) : list num := map (fun w => nth j (ev w) NaN) v.
Definition mom_sample (s : list (list num)) : list (list num) :=
  if bottom then flat_map (fun v => map (fun j => part_of j v) (seq 0 r)) s else flat_map (fun j => map (part_of j) s) (seq 0 r).
Definition mrows (x : arr num) : arr num := moments_rows r ev NaN bottom x.
Definition mchunks (cs : list (nat * arr num)) : list (nat * arr num) := map (fun c => (fst c, mrows (snd c))) cs.
Definition good (cs : list (nat * arr num)) (l : nat) : list (list (list num)) := filter (forallb (forallb ok)) (level_samples cs l).

Lemma in_mrows x row : In row (mrows x) <-> exists j row0, j < r /\ In row0 x /\ row = map (part_of j) row0.
Proof.
  unfold mrows, moments_rows. destruct bottom; rewrite in_flat_map; split.
  - intros (row0 & H0 & H). apply in_map_iff in H as (j & <- & Hj). apply in_seq in Hj. exists j, row0. ands; auto. lia.
  - intros (j & row0 & Hj & H0 & ->). exists row0. split; auto. apply in_map_iff. exists j. split; auto. apply in_seq. lia.
  - intros (j & Hj & H). apply in_seq in Hj. apply in_map_iff in H as (row0 & <- & H0). exists j, row0. ands; auto. lia.
  - intros (j & row0 & Hj & H0 & ->). exists j. split; [apply in_seq; lia|]. apply in_map_iff. eauto.
Qed.
Lemma mrows_shaped M N k x : shaped M N k x -> shaped (r * M) N k (mrows x).
Proof.
  intros [HM Hx]. split.
  - unfold mrows, moments_rows. destruct bottom.
    + rewrite (flat_map_len _ r) by (intros; now rewrite map_length, seq_length). lia.
    + rewrite (flat_map_len _ M) by (intros; now rewrite map_length). rewrite seq_length. lia.
  - intros row Hrow. apply in_mrows in Hrow as (j & row0 & Hj & H0 & ->). destruct (Hx row0 H0) as [HN Hs]. split; [now rewrite map_length|].
    intros s Hs'. apply in_map_iff in Hs' as (s0 & <- & Hs0). unfold part_of. rewrite map_length. auto.
Qed.
Lemma samples_mrows M N k x : M <> 0 -> shaped M N k x -> samples_of (mrows x) = map mom_sample (samples_of x).
Proof.
  intros HM Hx. pose proof (mrows_shaped M N k x Hx) as Hm. rewrite (samples_of_shaped (r * M) N k) by (auto; lia).
  rewrite (samples_of_shaped M N k x) by auto. rewrite map_map. apply map_ext_in. intros i Hi. apply in_seq in Hi.
  unfold mrows, moments_rows, mom_sample.
  assert (E : forall j row0, In row0 x -> nth i (map (map (fun v => nth j (ev v) NaN)) row0) [] = part_of j (nth i row0 [])).
  { intros j row0 H0. destruct Hx as [_ Hx]. destruct (Hx row0 H0) as [HN _]. rewrite (nth_map0 _ row0 [] []) by lia. reflexivity. }
  destruct bottom.
  - rewrite map_flat_map. rewrite flat_map_concat_map, (flat_map_concat_map _ (map _ x)). rewrite map_map. f_equal. apply map_ext_in.
    intros row0 H0. rewrite map_map. apply map_ext. intros j. now apply E.
  - rewrite map_flat_map. rewrite flat_map_concat_map, (flat_map_concat_map _ (seq 0 r)). f_equal. apply map_ext. intros j. rewrite !map_map.
    apply map_ext_in. intros row0 H0. now apply E.
Qed.
Lemma level_mchunks M L cs l : M <> 0 -> chunks_ok M L cs -> level_samples (mchunks cs) l = map mom_sample (level_samples cs l).
Proof.
  intros HM Hc. unfold level_samples, mchunks. rewrite flat_map_concat_map, map_map, <- flat_map_concat_map, map_flat_map.
  rewrite flat_map_concat_map, (flat_map_concat_map _ cs). f_equal. apply map_ext_in. intros [l' x] Hin. cbn [fst snd].
  destruct (Hc l' x Hin) as (_ & N & Hx). destruct (l' =? l); [|reflexivity]. now apply (samples_mrows M N (parts l')).
Qed.
Lemma mchunks_ok M L cs : chunks_ok M L cs -> chunks_ok (r * M) L (mchunks cs).
Proof.
  intros Hc l x Hin. apply in_map_iff in Hin as ([l' x'] & E & Hin). cbn [fst snd] in E. injection E as <- <-.
  destruct (Hc l' x' Hin) as (Hl & N & Hx). split; auto. exists N. now apply mrows_shaped.
Qed.
Lemma in_mom s u : In u (mom_sample s) <-> exists j v, j < r /\ In v s /\ u = part_of j v.
Proof.
  unfold mom_sample. destruct bottom; rewrite in_flat_map; split.
  - intros (v & H0 & H). apply in_map_iff in H as (j & <- & Hj). apply in_seq in Hj. exists j, v. ands; auto. lia.
  - intros (j & v & Hj & H0 & ->). exists v. split; auto. apply in_map_iff. exists j. split; auto. apply in_seq. lia.
  - intros (j & Hj & H). apply in_seq in Hj. apply in_map_iff in H as (v & <- & H0). exists j, v. ands; auto. lia.
  - intros (j & v & Hj & H0 & ->). exists j. split; [apply in_seq; lia|]. apply in_map_iff. eauto.
Qed.
Lemma usable_mom s : usable (mom_sample s) = forallb (forallb ok) s.
Proof.
  apply eq_true_iff_eq. rewrite usable_iff. split.
  - intros H. apply forallb_forall. intros v Hv. apply forallb_forall. intros w Hw. destruct (ok w) eqn:E; auto.
    destruct (Hbad w E) as (j & Hj & En). exfalso. apply (H (part_of j v) NaN); auto.
    + apply in_mom. eauto.
    + rewrite <- En. now apply (in_map (fun w => nth j (ev w) NaN)).
  - intros H u w' Hu Hw. apply in_mom in Hu as (j & v & Hj & Hv & ->). apply in_map_iff in Hw as (w & <- & Hw).
    rewrite forallb_forall in H. specialize (H v Hv). rewrite forallb_forall in H. destruct (Hgood w j (H w Hw) Hj) as [x ->]. discriminate.
Qed.
Lemma used_mchunks M L cs l : M <> 0 -> chunks_ok M L cs -> used (mchunks cs) l = map mom_sample (good cs l).
Proof.
  intros HM Hc. unfold used, good. rewrite (level_mchunks M L) by auto. rewrite filter_map. f_equal. apply filter_ext_in'. intros; apply usable_mom.
Qed.
Lemma nth_mom M s c j : length s = M -> c < M -> j < r -> nth (place bottom M r c j) (mom_sample s) [] = part_of j (nth c s []).
Proof.
  intros Hs Hc Hj. unfold place, mom_sample. destruct bottom.
  - rewrite (flat_map_nth _ r s c j [] []) by (auto; try lia; intros; now rewrite map_length, seq_length). now rewrite seq_cell.
  - rewrite (flat_map_nth _ M (seq 0 r) j c [] 0) by (auto; rewrite ?seq_length; auto; intros; now rewrite map_length).
    rewrite seq_nth by auto. cbn [plus]. rewrite (nth_map0 _ s [] []) by lia. reflexivity.
Qed.
(** Real values. *)
Definition val (j : nat) (w : num) : R := match nth j (ev w) NaN with Fin x => x | _ => 0%R end.
Definition rdiff (f : num -> R) (l c : nat) (s : list (list num)) : R :=
  let v := nth c s [] in if l =? 0 then f (nth 0 v NaN) else (f (nth 0 v NaN) - f (nth 1 v NaN))%R.
Lemma good_sample M L cs l s c : M <> 0 -> chunks_ok M L cs -> In s (good cs l) -> c < M ->
  length s = M /\ length (nth c s []) = parts l /\ forall w, In w (nth c s []) -> ok w = true.
Proof.
  intros HM Hc Hs Hcm. apply filter_In in Hs as [Hs Ho]. destruct (in_level cs l s Hs) as (x & Hin & Hx).
  destruct (Hc l x Hin) as (_ & N & Hsh). destruct (in_samples M N (parts l) x s HM Hsh Hx) as [E H]. split; auto.
  assert (Hv : In (nth c s []) s) by (apply nth_In; lia). split; [now apply H|]. rewrite forallb_forall in Ho. specialize (Ho _ Hv).
  rewrite forallb_forall in Ho. auto.
Qed.
Lemma differences_mchunks M L cs l c j : M <> 0 -> chunks_ok M L cs -> c < M -> j < r ->
  differences (mchunks cs) l (place bottom M r c j) = map (fun s => Fin (rdiff (val j) l c s)) (good cs l).
Proof.
  intros HM Hc Hcm Hj. unfold differences. rewrite (used_mchunks M L) by auto. rewrite map_map. apply map_ext_in. intros s Hs.
  destruct (good_sample M L cs l s c HM Hc Hs Hcm) as (E & Ep & Hw). unfold difference, rdiff. rewrite (nth_mom M) by auto.
  assert (V : forall i, i < parts l -> nth i (part_of j (nth c s [])) NaN = Fin (val j (nth i (nth c s []) NaN))).
  { intros i Hi. unfold part_of. rewrite (nth_map0 _ _ NaN NaN) by lia.
    destruct (Hgood (nth i (nth c s []) NaN) j) as [y Hy]; auto; [apply Hw, nth_In; lia|]. unfold val. now rewrite Hy. }
  unfold parts in V. destruct (Nat.eqb_spec l 0).
  - apply V. lia.
  - rewrite !V by lia. reflexivity.
Qed.
End Gen.
