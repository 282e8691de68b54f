(** Items of a mean estimate. *)
From Coq Require Import Lra.
From Verif Require Import Base BaseFacts QTypeModel QTypeSpec QTypeProofs QuantityModel QuantitySpec QuantityProofs NumModel NumFacts
  EstimateModel EstimateSpec EstimateProofs EstimateFacts EstimateLinear.

Lemma mapM_all {A B} (f : A -> res B) l r : mapM f l = Ok r -> forall x, In x l -> exists y, f x = Ok y.
Proof.
  revert r. induction l as [|z l IH]; intros r H x Hx; [easy|]. cbn in H. destruct (f z) as [y|] eqn:E; [|discriminate]. cbn in H.
  destruct (mapM f l) as [ys|] eqn:E'; [|discriminate]. destruct Hx as [<-|Hx]; eauto.
Qed.

(** Selected rows are rows. *)
Lemma select_incl {R} shape : forall ix (rows r : list R), select_rows shape ix rows = Ok r -> incl r rows.
Proof.
  induction shape as [|n sh IH]; intros [|s ix] rows r H; cbn [select_rows] in H; try (injection H as <-; apply incl_refl); try discriminate.
  destruct (positions n s) as [ps|]; [|discriminate]. revert r H.
  induction ps as [|p ps IHp]; intros r H; cbn [fold_right] in H; [injection H as <-; intros x []|].
  match type of H with context [fold_right ?g ?z ps] => destruct (fold_right g z ps) as [a|e] eqn:Ea end; [|discriminate]. cbn [bind] in H.
  destruct (select_rows sh ix (firstn (prod sh) (skipn (p * prod sh) rows))) as [b|] eqn:Eb; [|discriminate]. cbn [bind] in H. injection H as <-.
  apply incl_app; [|now apply IHp].
  intros x Hx. apply (IH _ _ _ Eb) in Hx. rewrite <- (firstn_skipn (p * prod sh) rows). apply in_or_app. right.
  rewrite <- (firstn_skipn (prod sh) (skipn (p * prod sh) rows)). apply in_or_app. now left.
Qed.
Lemma firstn_skipn_incl {A} n m (l : list A) : incl (firstn n (skipn m l)) l.
Proof.
  intros x Hx. rewrite <- (firstn_skipn m l). apply in_or_app. right.
  rewrite <- (firstn_skipn n (skipn m l)). apply in_or_app. now left.
Qed.

Section Items.
Context {K : Type} (K_eq : forall a b : K, {a = b} + {a <> b}).

Lemma getitem_incl {R} t k (rows r : list R) : getitem_rows K_eq t k rows = Ok r -> incl r rows.
Proof.
  unfold getitem_rows. destruct (get_key K_eq t k) as [[q s]|]; [|discriminate]. cbn [bind fst snd].
  destruct t as [| |shape q0| | |], k as [k|ix]; intros H; try (injection H as <-; apply firstn_skipn_incl).
  destruct (Nat.eqb _ _); [|discriminate]. now apply select_incl in H.
Qed.
(** The item of any list of rows, by positions. *)
Lemma getitem_ids {A} t k (rows : list A) d M ids : length rows = M -> getitem_rows K_eq t k (seq 0 M) = Ok ids ->
  getitem_rows K_eq t k rows = Ok (map (fun i => nth i rows d) ids).
Proof. intros E H. rewrite (row_seq rows d M E) at 1. rewrite getitem_rows_map, H. reflexivity. Qed.

Lemma fold_flat {A} (ps : list nat) (f : nat -> list A) :
  fold_right (fun p acc => bind acc (fun a => bind (Ok (f p)) (fun r => Ok (r ++ a)))) (Ok []) ps = Ok (flat_map f ps).
Proof. induction ps as [|p ps IH]; [reflexivity|]. cbn [fold_right flat_map]. rewrite IH. reflexivity. Qed.
(** One integer or slice on the first axis. *)
Lemma select_first {A} n sh s (rows : list A) : select_rows (n :: sh) [s] rows
  = match positions n s with None => Err IndexError | Some ps => Ok (flat_map (fun p => firstn (prod sh) (skipn (p * prod sh) rows)) ps) end.
Proof.
  cbn [select_rows]. destruct (positions n s) as [ps|]; [|reflexivity]. rewrite <- fold_flat.
  induction ps as [|p ps IH]; [reflexivity|]. cbn [fold_right]. rewrite IH. destruct sh; reflexivity.
Qed.
Lemma positions_zero s ps : positions 0 s = Some ps -> ps = [].
Proof.
  destruct s as [i|a b]; cbn [positions].
  - unfold norm_at. cbn. destruct (i <? 0)%Z eqn:E; cbn.
    + destruct ((0 <=? i + 0) && (i + 0 <? 0))%Z%bool eqn:E2; [|discriminate]. apply andb_true_iff in E2 as [A B].
      apply Z.leb_le in A. apply Z.ltb_lt in B. lia.
    + destruct ((0 <=? i) && (i <? 0))%Z%bool eqn:E2; [|discriminate]. apply andb_true_iff in E2 as [A B].
      apply Z.leb_le in A. apply Z.ltb_lt in B. lia.
  - intros H. injection H as <-.
    assert (E : forall o, norm_bound 0 0 o = 0). { intros [z|]; cbn; [|reflexivity]. destruct (z <? 0)%Z; lia. }
    now rewrite !E.
Qed.
Lemma mean_item_select {A} n sh s (l : list A) : length l = prod (n :: sh) -> mean_item n [s] false l = select_rows (n :: sh) [s] l.
Proof.
  intros E. rewrite select_first. cbn [mean_item]. destruct (positions n s) as [ps|] eqn:Ep; [|reflexivity]. f_equal.
  destruct n as [|n]; [apply positions_zero in Ep as ->; reflexivity|].
  apply flat_map_in_ext. intros p _. unfold block_rows. cbn [prod fold_right] in E. fold (prod sh) in E.
  replace (length l / S n) with (prod sh); [reflexivity|]. rewrite E, Nat.mul_comm, Nat.div_mul; lia.
Qed.

(** Keys for which the mean looks at the same numbers as the quantity. *)
Definition plain_key (k : mkey K) : Prop := match k with MTuple [At _] => True | MTuple _ => False | _ => True end.

Definition level_item (t : qtype K) (k : mkey K) (qs : qtype K * nat) (l : list num) : res (list num) :=
  match t, k with
  | QArray (n :: _) _, MOne s => mean_item n [s] false l
  | QArray (n :: _) _, MTuple ix => mean_item n ix true l
  | QArray _ _, _ => Err IndexError
  | _, _ => Ok (firstn (size (fst qs)) (skipn (snd qs) l))
  end.
Lemma level_item_rows t k qs (l : list num) ids : plain_key k -> get_key K_eq t (as_key k) = Ok qs -> length l = size t ->
  getitem_rows K_eq t (as_key k) (seq 0 (size t)) = Ok ids -> level_item t k qs l = Ok (map (fun i => nth i l NaN) ids).
Proof.
  intros Hk Hg E Hi. rewrite <- (getitem_ids t (as_key k) l NaN (size t) ids E Hi).
  unfold getitem_rows in *. rewrite Hg in *. cbn [bind] in *.
  destruct t as [| |shape q| | |]; try (destruct k as [k|s|ix]; cbn [as_key] in *; try discriminate; try reflexivity).
  - destruct shape as [|n sh]; [discriminate|]. cbn [level_item]. rewrite E.
    rewrite seq_length in Hi. destruct (Nat.eqb_spec (size (QArray (n :: sh) q)) (prod (n :: sh))) as [Es|]; [|discriminate].
    apply mean_item_select. now rewrite E.
  - destruct ix as [|[i|] [|]]; try contradiction. destruct shape as [|n sh]; [discriminate|]. cbn [level_item]. rewrite E.
    rewrite seq_length in Hi. destruct (Nat.eqb_spec (size (QArray (n :: sh) q)) (prod (n :: sh))) as [Es|]; [|discriminate].
    transitivity (mean_item n [At i] false l); [|apply mean_item_select; now rewrite E].
    unfold mean_item. cbn [mapM positions]. destruct (norm_at n i); reflexivity.
Qed.

(** The number of selected rows is the size of the selected type. *)
Lemma select_first_length {A} n sh s (rows : list A) ps : length rows = prod (n :: sh) -> positions n s = Some ps ->
  length (flat_map (fun p => firstn (prod sh) (skipn (p * prod sh) rows)) ps) = length ps * prod sh.
Proof.
  intros E Ep. assert (Hp : forall p, In p ps -> p < n).
  { destruct s as [i|a b]; cbn [positions] in Ep.
    - destruct (norm_at n i) as [j|] eqn:Ej; [|discriminate]. injection Ep as <-. intros p [<-|[]]. unfold norm_at in Ej.
      destruct (_ && _)%bool eqn:B in Ej; [|discriminate]. injection Ej as <-. apply andb_true_iff in B as [B1 B2].
      apply Z.leb_le in B1. apply Z.ltb_lt in B2. lia.
    - injection Ep as <-. intros p Hp. apply in_seq in Hp.
      assert (forall d o, d <= n -> norm_bound n d o <= n). { intros d [z|] Hd; cbn; lia. }
      pose proof (H n b (le_n n)). lia. }
  clear Ep. induction ps as [|p ps IH]; [reflexivity|]. cbn [flat_map length]. rewrite app_length, IH by (intros; apply Hp; now right).
  specialize (Hp p (or_introl eq_refl)). cbn [prod fold_right] in E. fold (prod sh) in E.
  rewrite (block_length (prod sh) n p); [lia|exact E|auto].
Qed.
Lemma size_dict_entry items k q : pget K_eq items k = Some q -> dict_start K_eq k items + size q <= size (QDict items).
Proof.
  induction items as [|[k' q'] items IH]; cbn [pget]; [discriminate|]. cbn [dict_start].
  change (size (QDict ((k', q') :: items))) with (size q' + size (QDict items)).
  destruct (K_eq k' k); intros H; [injection H as <-; lia|]. specialize (IH H). lia.
Qed.
Lemma at_one n i ps : positions n (At i) = Some ps -> length ps = 1.
Proof. cbn. destruct (norm_at n i); [|discriminate]. intros H. now injection H as <-. Qed.
Lemma array_item_size n sh q0 sl q s ids : prod (n :: sh) * size q0 <> 0 ->
  get_key K_eq (QArray (n :: sh) q0) (Index [sl]) = Ok (q, s) ->
  getitem_rows K_eq (QArray (n :: sh) q0) (Index [sl]) (seq 0 (prod (n :: sh) * size q0)) = Ok ids -> length ids = size q.
Proof.
  intros Hz Hg Hi. unfold getitem_rows in Hi. rewrite Hg in Hi. cbn [bind] in Hi. rewrite seq_length in Hi.
  destruct (Nat.eqb_spec (prod (n :: sh) * size q0) (prod (n :: sh))) as [Es|]; [|discriminate].
  rewrite select_first in Hi. destruct (positions n sl) as [ps|] eqn:Ep; [|discriminate]. injection Hi as <-.
  rewrite (select_first_length n sh sl) by (auto; rewrite seq_length; auto).
  assert (H1 : size q0 = 1) by nia.
  unfold get_key in Hg. cbn [new_shape] in Hg. rewrite Ep in Hg. cbn [bind] in Hg.
  assert (Hn : forall sh', (match sh' with [] | [1] => (q0, 0) | _ => (QArray sh' q0, 0) end) = (q, s) -> size q = prod sh').
  { intros sh' H. destruct sh' as [|[|[|m]] [|x sh']]; injection H as <- <-; cbn [size]; rewrite ?H1; cbn; lia. }
  assert (Hs : new_shape sh [] = Ok sh) by (destruct sh; reflexivity). rewrite Hs in Hg. cbn [bind] in Hg.
  assert (Hinj : forall A (u v : A), Ok u = Ok v -> u = v) by (intros A u v H; now injection H). apply Hinj in Hg.
  destruct sl as [i|a b]; [rewrite (Hn sh Hg), (at_one _ _ _ Ep); apply Nat.mul_1_l|rewrite (Hn (length ps :: sh) Hg); reflexivity].
Qed.
Lemma item_size t k q s ids : plain_key k -> size t <> 0 -> get_key K_eq t (as_key k) = Ok (q, s) ->
  getitem_rows K_eq t (as_key k) (seq 0 (size t)) = Ok ids -> length ids = size q.
Proof.
  intros Hk Hz Hg Hi.
  assert (Hslice : s + size q <= size t -> length (firstn (size q) (skipn s (seq 0 (size t)))) = size q).
  { intros H. rewrite firstn_length, skipn_length, seq_length. lia. }
  destruct t as [| |shape q0|times q0|keys q0|items]; destruct k as [k|sl|ix]; cbn [as_key] in *; try (cbn in Hg; discriminate).
  - destruct shape as [|n sh]; [cbn in Hg; discriminate|]. eapply array_item_size; eauto.
  - destruct shape as [|n sh]; [destruct ix as [|[i|] [|]]; try contradiction; cbn in Hg; discriminate|].
    destruct ix as [|[i|] [|]]; try contradiction. eapply array_item_size; eauto.
  - unfold getitem_rows in Hi. rewrite Hg in Hi. cbn [bind fst snd] in Hi. injection Hi as <-. apply Hslice. cbn [get_key] in Hg.
    destruct (index_of K_eq k times) as [p|] eqn:E; [|discriminate]. injection Hg as <- <-. apply index_of_lt in E as [E _]. cbn [size]. nia.
  - unfold getitem_rows in Hi. rewrite Hg in Hi. cbn [bind fst snd] in Hi. injection Hi as <-. apply Hslice. cbn [get_key] in Hg.
    destruct (index_of K_eq k keys) as [p|] eqn:E; [|discriminate]. injection Hg as <- <-. apply index_of_lt in E as [E _]. cbn [size]. nia.
  - unfold getitem_rows in Hi. rewrite Hg in Hi. cbn [bind fst snd] in Hi. injection Hi as <-. apply Hslice. cbn [get_key] in Hg.
    destruct (pget K_eq items k) as [q'|] eqn:E; [|discriminate]. injection Hg as <- <-. now apply size_dict_entry.
Qed.

(** ** The estimate of an item *)
Definition pick_ids (ids : list nat) (x : arr num) : arr num := map (fun i => nth i x []) ids.
Lemma pick_shaped M N k ids (x : arr num) : shaped M N k x -> (forall i, In i ids -> i < M) -> shaped (length ids) N k (pick_ids ids x).
Proof.
  intros Hx Hi. unfold pick_ids. split; [now rewrite map_length|]. intros row Hr. apply in_map_iff in Hr as (i & <- & Hin).
  apply (shaped_row M N k x i Hx). auto.
Qed.
Lemma pick_samples M N k ids (x : arr num) : M <> 0 -> ids <> [] -> shaped M N k x -> (forall i, In i ids -> i < M) ->
  samples_of (pick_ids ids x) = map (fun s => map (fun i => nth i s []) ids) (samples_of x).
Proof.
  intros HM Hn Hx Hi. rewrite (samples_of_shaped (length ids) N k); [|now apply (pick_shaped M)|now destruct ids].
  rewrite (samples_of_shaped M N k) by auto. rewrite map_map. apply map_ext_in. intros j Hj. unfold pick_ids. rewrite map_map.
  apply map_ext_in. intros i Hin. symmetry. apply (nth_map0 (fun row => nth j row []) x [] []). destruct Hx. specialize (Hi i Hin). lia.
Qed.
Definition picked (ids : list nat) (cs : list (nat * arr num)) := map (fun c => (fst c, pick_ids ids (snd c))) cs.
Lemma level_picked M L ids cs l : M <> 0 -> ids <> [] -> chunks_ok M L cs -> (forall i, In i ids -> i < M) ->
  level_samples (picked ids cs) l = map (fun s => map (fun i => nth i s []) ids) (level_samples cs l).
Proof.
  intros HM Hn Hc Hi. induction cs as [|[l1 x] cs IH]; [reflexivity|].
  change ((if l1 =? l then samples_of (pick_ids ids x) else []) ++ level_samples (picked ids cs) l
    = map (fun s => map (fun i => nth i s []) ids) ((if l1 =? l then samples_of x else []) ++ level_samples cs l)).
  rewrite IH by (intros l' x' H; apply Hc; now right). rewrite map_app. f_equal. destruct (l1 =? l); [|reflexivity].
  destruct (Hc l1 x (or_introl eq_refl)) as [_ [N Hx]]. now apply (pick_samples M N (parts l1)).
Qed.
Lemma no_nan_usable M L cs l s : M <> 0 -> chunks_ok M L cs -> no_nan cs -> In s (level_samples cs l) -> usable s = true.
Proof.
  intros HM Hc Hn Hs. apply in_level in Hs as (x & Hin & Hs). destruct (Hc l x Hin) as [Hl [N Hx]].
  destruct (in_samples M N _ x s HM Hx Hs) as [E H]. apply usable_iff. intros v w Hv Hw.
  destruct (H v Hv) as (_ & row & Hr & Hv'). apply (Hn l x row v w); auto.
Qed.
Lemma filter_all {A} (f : A -> bool) l : (forall x, In x l -> f x = true) -> filter f l = l.
Proof. induction l as [|x l IH]; intros H; [reflexivity|]. cbn. rewrite (H x) by now left. f_equal. apply IH. intros; apply H; now right. Qed.
Lemma level_length M L cs l s : M <> 0 -> chunks_ok M L cs -> In s (level_samples cs l) -> length s = M.
Proof.
  intros HM Hc Hs. apply in_level in Hs as (x & Hin & Hs). destruct (Hc l x Hin) as [Hl [N Hx]]. apply (in_samples M N _ x s HM Hx Hs).
Qed.

Lemma item_estimate t k q s ids L cs qm : plain_key k -> size t <> 0 -> size q <> 0 -> get_key K_eq t (as_key k) = Ok (q, s) ->
  getitem_rows K_eq t (as_key k) (seq 0 (size t)) = Ok ids -> chunks_ok (size t) L cs -> no_nan cs ->
  estimate_mean t L (read cs) = Ok qm ->
  mean_getitem K_eq qm k = estimate_mean q L (map (fun c => (fst c, getitem_rows K_eq t (as_key k) (snd c))) cs).
Proof.
  intros Hk Ht Hq Hg Hi Hc Hn He. pose proof (item_size t k q s ids Hk Ht Hg Hi) as Hlen.
  assert (Hin : forall i, In i ids -> i < size t). { intros i H. apply (getitem_incl _ _ _ _ Hi) in H. apply in_seq in H. lia. }
  assert (Hne : ids <> []) by (intros ->; cbn in Hlen; lia).
  assert (Er : map (fun c => (fst c, getitem_rows K_eq t (as_key k) (snd c))) cs = read (picked ids cs)).
  { unfold read, picked. rewrite map_map. apply map_ext_in. intros [l x] Hx. cbn [fst snd].
    destruct (Hc l x Hx) as [_ [N Hs]]. rewrite (getitem_ids t (as_key k) x [] (size t) ids); auto. apply Hs. }
  rewrite Er. assert (Hc' : chunks_ok (size q) L (picked ids cs)).
  { intros l x Hx. apply in_map_iff in Hx as ([l' x'] & E & Hx). injection E as <- <-. destruct (Hc l' x' Hx) as [Hl [N Hs]].
    split; auto. exists N. rewrite <- Hlen. now apply (pick_shaped (size t)). }
  rewrite (estimate_reference q L (picked ids cs)) by auto. rewrite (estimate_reference t L cs) in He by auto.
  assert (Hu : forall l, used cs l = level_samples cs l) by (intros l; apply filter_all; intros s0 Hs0; apply (no_nan_usable (size t) L cs l s0 Ht Hc Hn Hs0)).
  assert (Hu' : forall l, used (picked ids cs) l = map (fun s => map (fun i => nth i s []) ids) (level_samples cs l)).
  { intros l. unfold used. rewrite (level_picked (size t) L) by auto. apply filter_all. intros s' Hs'. apply in_map_iff in Hs' as (s0 & <- & Hs0).
    pose proof (no_nan_usable _ _ _ _ _ Ht Hc Hn Hs0) as U. rewrite usable_iff in *. intros v w Hv Hw.
    apply in_map_iff in Hv as (i & <- & Hii). apply (U (nth i s0 []) w); auto. apply nth_In. rewrite (level_length _ _ _ _ _ Ht Hc Hs0). auto. }
  assert (Hd : forall l j, j < size q -> differences (picked ids cs) l j = differences cs l (nth j ids 0)).
  { intros l j Hj. unfold differences. rewrite Hu, Hu', map_map. apply map_ext_in. intros s' Hs'. unfold difference.
    rewrite (nth_map0 (fun i => nth i s' []) ids 0 []) by lia. reflexivity. }
  assert (Hnone : none_used L (picked ids cs) = none_used L cs).
  { unfold none_used. apply eq_true_iff_eq. rewrite !forallb_forall. split; intros H l Hl; specialize (H l Hl);
      rewrite Hu, Hu', map_length in *; auto. }
  pose proof He as He0. unfold reference in He |- *. rewrite Hnone. destruct (none_used L cs); [discriminate|].
  injection He as <-. unfold mean_getitem. cbn [q_type q_means q_vars q_n q_rm]. rewrite Hg. cbn [bind].
  assert (Hrow : forall f, mapM (level_item t k (q, s)) (table (size t) L f) = Ok (table (size q) L (fun l j => f l (nth j ids 0)))).
  { intros f. rewrite (mapM_ok _ (fun r => map (fun i => nth i r NaN) ids)).
    - unfold table. rewrite map_map. f_equal. apply map_ext. intros l. rewrite <- Hlen.
      rewrite (row_seq ids 0 (length ids) eq_refl) at 1. rewrite map_map. apply map_ext_in. intros j Hj. apply in_seq in Hj.
      apply seq_cell. apply Hin, nth_In. lia.
    - intros r Hr. apply in_map_iff in Hr as (l & <- & _). apply level_item_rows; auto. now rewrite map_length, seq_length. }
  change (fun l : list num => match t, k with
      | QArray (n :: _) _, MOne s => mean_item n [s] false l
      | QArray (n :: _) _, MTuple ix => mean_item n ix true l
      | QArray _ _, _ => Err IndexError
      | _, _ => Ok (firstn (size (fst (q, s))) (skipn (snd (q, s)) l)) end) with (level_item t k (q, s)).
  rewrite !Hrow. cbn [bind fst]. f_equal. f_equal.
  - apply table_ext. intros l j Hl Hj. rewrite Hd by auto. now rewrite Hu, Hu', map_length.
  - apply table_ext. intros l j Hl Hj. now rewrite Hd by auto.
  - apply map_ext. intros l. now rewrite Hu, Hu', map_length.
  - apply map_ext. intros l. rewrite (level_picked (size t) L) by auto.
    assert (E : forall S (f : S -> bool) l, (forall x, In x l -> f x = false) -> filter f l = []).
    { clear. intros S f l. induction l as [|x l IH]; intros H; [reflexivity|]. cbn. rewrite (H x) by now left. apply IH. intros; apply H; now right. }
    rewrite (E _ _ (level_samples cs l)), (E _ _ (map _ _)); auto.
    + intros s' Hs'. apply negb_false_iff. pose proof (Hu' l) as HH. unfold used in HH. rewrite (level_picked (size t) L) in HH by auto.
      assert (Hf : In s' (filter usable (map (fun s => map (fun i => nth i s []) ids) (level_samples cs l)))) by (rewrite HH; auto).
      now apply filter_In in Hf.
    + intros s0 Hs0. apply negb_false_iff. apply (no_nan_usable (size t) L cs l s0 Ht Hc Hn Hs0).
Qed.
End Items.
