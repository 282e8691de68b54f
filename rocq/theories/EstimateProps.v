(** Properties C38 to C43, C69 and C70: the mean estimate. *)
From Coq Require Import Lra.
From Verif Require Import Base BaseFacts QTypeModel QuantityModel QuantitySpec NumModel NumFacts EstimateModel EstimateSpec EstimateProofs
  EstimateFacts EstimateLinear EstimateItems EstimateGraph.
Local Open Scope list_scope.
Local Open Scope nat_scope.
Notation skey := string.

(** * C38 *)
(** Chunk lists with the same samples on each level, in any order and cut in any way, give the same result. *)
Theorem C38_chunking : forall (t : qtype skey) L cs cs', size t <> 0 -> chunks_ok (size t) L cs -> chunks_ok (size t) L cs' ->
  (forall l, l < L -> Permutation (level_samples cs l) (level_samples cs' l)) ->
  estimate_mean t L (read cs) = estimate_mean t L (read cs').
Proof. intros t L cs cs' Ht H H' HP. rewrite !estimate_reference by auto. now apply reference_perm. Qed.
(** For every quantity expression: cutting any chunk of the stored data in two, and renumbering the chunks, does not
    change the estimate, nor the exception if there is one. *)
Theorem C38_quantity_chunking : forall (g : graph skey num) a L pre pre' post post' l k c c1 c2 e1 e2 e,
  built string_dec g -> from_storage g a -> splits k e1 e2 e -> content pre = content pre' -> content post = content post' ->
  estimate_quantity string_dec g a L (pre ++ (l, c, e) :: post) = estimate_quantity string_dec g a L (pre' ++ (l, c1, e1) :: (l, c2, e2) :: post').
Proof. intros. eapply estimate_cut; eauto. Qed.
(** The sample mean and the unbiased sample variance of the level differences of the samples without NaN. *)
Theorem C38_values : forall (t : qtype skey) L cs q l, size t <> 0 -> chunks_ok (size t) L cs -> estimate_mean t L (read cs) = Ok q -> l < L ->
  length (q_means q) = L /\ length (q_vars q) = L /\ length (nth l (q_means q) []) = size t /\ length (nth l (q_vars q) []) = size t
  /\ nth l (q_n q) 0 = length (used cs l)
  /\ forall m d, m < size t -> differences cs l m = map Fin d -> d <> [] ->
     cell (q_means q) l m = Fin (rmean d) /\ (1 < length d -> cell (q_vars q) l m = Fin (rvar d)).
Proof.
  intros t L cs q l Ht Hc He Hl. rewrite estimate_reference in He by auto. destruct (reference_ok _ _ _ _ He) as (_ & Em & Ev & En & _).
  rewrite Em, Ev, En. unfold table. ands; rewrite ?map_length, ?seq_length; auto.
  - rewrite (seq_cell _ L l []) by auto. now rewrite map_length, seq_length.
  - rewrite (seq_cell _ L l []) by auto. now rewrite map_length, seq_length.
  - now rewrite seq_cell.
  - intros m d Hm Ed Hd. fold (table (size t) L (fun l m => ndivn (nsum (differences cs l m)) (length (used cs l)))).
    fold (table (size t) L (fun l m => ref_var (differences cs l m))). rewrite !cell_table by auto. rewrite Ed.
    assert (El : length (used cs l) = length d) by (rewrite <- (map_length Fin d), <- Ed; unfold differences; now rewrite map_length).
    split; [|intros H; now apply ref_var_fin]. rewrite nsum_fin, El, ndivn_fin by (now destruct d). reflexivity.
Qed.

(** * C39 *)
Theorem C39_usable : forall s, usable s = true <-> forall v w, In v s -> In w v -> w <> NaN.
Proof. exact usable_iff. Qed.
(** Used plus removed samples are the collected ones; used are those without NaN. *)
Theorem C39_counts : forall (t : qtype skey) L cs q l, size t <> 0 -> chunks_ok (size t) L cs -> estimate_mean t L (read cs) = Ok q -> l < L ->
  nth l (q_n q) 0 = length (filter usable (level_samples cs l)) /\ nth l (q_n q) 0 + nth l (q_rm q) 0 = length (level_samples cs l).
Proof.
  intros t L cs q l Ht Hc He Hl. rewrite estimate_reference in He by auto. destruct (reference_ok _ _ _ _ He) as (_ & _ & _ & En & Er).
  rewrite En, Er, !seq_cell by auto. split; [reflexivity|]. unfold used. apply filter_count.
Qed.
(** Samples with NaN have no influence on means, variances and numbers of used samples. *)
Theorem C39_ignored : forall (t : qtype skey) L cs cs' q q', size t <> 0 -> chunks_ok (size t) L cs -> chunks_ok (size t) L cs' ->
  (forall l, l < L -> filter usable (level_samples cs l) = filter usable (level_samples cs' l)) ->
  estimate_mean t L (read cs) = Ok q -> estimate_mean t L (read cs') = Ok q' ->
  q_means q = q_means q' /\ q_vars q = q_vars q' /\ q_n q = q_n q'.
Proof.
  intros t L cs cs' q q' Ht Hc Hc' Hu He He'. rewrite estimate_reference in He, He' by auto.
  destruct (reference_ok _ _ _ _ He) as (_ & -> & -> & -> & _). destruct (reference_ok _ _ _ _ He') as (_ & -> & -> & -> & _). ands.
  - apply table_ext. intros l m Hl Hm. unfold differences, used. now rewrite (Hu l Hl).
  - apply table_ext. intros l m Hl Hm. unfold differences, used. now rewrite (Hu l Hl).
  - apply map_ext_in. intros l Hl. apply in_seq in Hl. unfold used. rewrite (Hu l); auto. lia.
Qed.
Theorem C39_none_usable : forall (t : qtype skey) L cs, size t <> 0 -> chunks_ok (size t) L cs ->
  (estimate_mean t L (read cs) = Err PyException <-> forall l s, l < L -> In s (level_samples cs l) -> usable s = false)
  /\ (forall e, estimate_mean t L (read cs) = Err e -> e = PyException).
Proof.
  intros t L cs Ht Hc. rewrite estimate_reference by auto. unfold reference. destruct (none_used L cs) eqn:En.
  - split; [|intros e H; congruence]. split; auto. intros _ l s Hl Hs. unfold none_used in En. rewrite forallb_forall in En.
    specialize (En l ltac:(apply in_seq; lia)). apply Nat.eqb_eq in En. apply length_zero_iff_nil in En.
    destruct (usable s) eqn:Eu; auto. exfalso. assert (Hin : In s (used cs l)) by (apply filter_In; auto). rewrite En in Hin. exact Hin.
  - split; [|intros; discriminate]. split; [discriminate|]. intros H. exfalso. apply not_true_iff_false in En. apply En. unfold none_used.
    apply forallb_forall. intros l Hl. apply in_seq in Hl. apply Nat.eqb_eq. apply length_zero_iff_nil.
    destruct (used cs l) as [|s r] eqn:Eu; auto. exfalso. assert (Hin : In s (used cs l)) by (rewrite Eu; now left).
    apply filter_In in Hin as [Hin Hs]. rewrite (H l s) in Hs; [discriminate|lia|auto].
Qed.

(** * C40 *)
(** Missing for the full claim: a level without usable samples, see C40_empty_level_refuted. *)
Theorem C40_every_level_partial : forall (t : qtype skey) L cs q, size t <> 0 -> chunks_ok (size t) L cs -> no_inf cs ->
  (forall l, l < L -> used cs l <> []) -> estimate_mean t L (read cs) = Ok q -> length (mean q) = size t /\ forall x, In x (mean q) -> finite x.
Proof.
  intros t L cs q Ht Hc Hn Hu He. rewrite estimate_reference in He by auto. destruct (reference_ok _ _ _ _ He) as (Et & Em & _).
  unfold mean. rewrite Et, Em, sum_levels_table. split; [now rewrite map_length, seq_length|].
  intros x Hx. apply in_map_iff in Hx as (m & <- & Hm). apply in_seq in Hm. apply nsum_all_fin. intros y Hy.
  apply in_map_iff in Hy as (l & <- & Hl). apply in_seq in Hl.
  destruct (fin_list (differences cs l m)) as [d Hd].
  { intros z Hz. apply in_map_iff in Hz as (s & <- & Hs). apply (difference_finite (size t) L cs l m s); auto. lia. }
  rewrite Hd, nsum_fin. rewrite ndivn_fin; [eexists; reflexivity|]. specialize (Hu l ltac:(lia)). now destruct (used cs l).
Qed.
Theorem C69_finite_mean : forall (t : qtype skey) L cs q, size t <> 0 -> chunks_ok (size t) L cs -> no_inf cs ->
  (forall l, l < L -> used cs l <> []) -> estimate_mean t L (read cs) = Ok q -> length (mean q) = size t /\ forall x, In x (mean q) -> finite x.
Proof. exact C40_every_level_partial. Qed.
(** Two levels, one sample on level 0, none on level 1 (for example after a selection): the mean returned is NaN. *)
Theorem C40_empty_level_refuted : exists (t : qtype skey) L cs q, size t <> 0 /\ chunks_ok (size t) L cs
  /\ (forall l x row s w, In (l, x) cs -> In row x -> In s row -> In w s -> finite w)
  /\ estimate_mean t L (read cs) = Ok q /\ mean q = [NaN].
Proof.
  exists QScalar, 2, [(0, [[[Fin 1]]])]. eexists. ands.
  - discriminate.
  - intros l x [H|[]]. injection H as <- <-. split; [lia|]. exists 1. split; [reflexivity|]. intros row [<-|[]]. split; [reflexivity|].
    intros s [<-|[]]. reflexivity.
  - intros l x row s w [H|[]]. injection H as <- <-. intros [<-|[]] [<-|[]] [<-|[]]. eexists; reflexivity.
  - cbn. reflexivity.
  - cbn. unfold inf_mul. destruct (Rlt_dec 0 0); [exfalso; lra|]. reflexivity.
Qed.

(** * C41 *)
Theorem C41_variance : forall (t : qtype skey) L cs q l m, size t <> 0 -> chunks_ok (size t) L cs -> estimate_mean t L (read cs) = Ok q ->
  l < L -> m < size t ->
  (forall v, cell (q_vars q) l m = Fin v -> (0 <= v)%R /\ (v = 0%R <-> forall x y, In x (differences cs l m) -> In y (differences cs l m) -> x = y))
  /\ (length (used cs l) < 2 -> cell (q_vars q) l m = PInf)
  /\ (1 < length (used cs l) -> (forall x, In x (differences cs l m) -> finite x) -> finite (cell (q_vars q) l m)).
Proof.
  intros t L cs q l m Ht Hc He Hl Hm. rewrite estimate_reference in He by auto. destruct (reference_ok _ _ _ _ He) as (_ & _ & Ev & _).
  rewrite Ev, cell_table by auto. assert (El : length (differences cs l m) = length (used cs l)) by (unfold differences; now rewrite map_length). ands.
  - intros v Hv. apply ref_var_fin_inv in Hv as (d & Ed & Hd & ->). split; [now apply rvar_nonneg|]. rewrite rvar_zero by auto. rewrite Ed. split.
    + intros H x y Hx Hy. apply in_map_iff in Hx as (r & <- & Hr). apply in_map_iff in Hy as (s & <- & Hs). f_equal. auto.
    + intros H x y Hx Hy. assert (E : Fin x = Fin y) by (apply H; now apply in_map). now injection E.
  - intros H. unfold ref_var. rewrite El. destruct (Nat.ltb_spec 1 (length (used cs l))); [lia|reflexivity].
  - intros H Hf. destruct (fin_list _ Hf) as [d Hd]. rewrite Hd in *. rewrite map_length in El. rewrite ref_var_fin by lia. eexists; reflexivity.
Qed.

(** * C42 *)
(** The estimate of a X + b Y from the estimates of X and Y. *)
Theorem C42_linear : forall (t : qtype skey) L a b cs1 cs2 q1, size t <> 0 -> aligned (size t) cs1 cs2 -> (forall l x, In (l, x) cs1 -> l < L) ->
  no_inf cs1 -> no_inf cs2 -> same_mask L cs1 cs2 -> estimate_mean t L (read cs1) = Ok q1 ->
  exists q2 q3, estimate_mean t L (read cs2) = Ok q2 /\ estimate_mean t L (read (lin_chunks a b cs1 cs2)) = Ok q3
  /\ q_n q3 = q_n q1
  /\ (forall l m, l < L -> m < size t -> cell (q_means q3) l m = lin a b (cell (q_means q1) l m) (cell (q_means q2) l m))
  /\ (forall m, m < size t -> nth m (mean q3) NaN = lin a b (nth m (mean q1) NaN) (nth m (mean q2) NaN)).
Proof.
  intros t L a b cs1 cs2 q1 Ht Ha Hlt N1 N2 Hm He. destruct (aligned_ok a b (size t) L cs1 cs2 Ha Hlt) as (C1 & C2 & C3).
  rewrite estimate_reference in He by auto. rewrite !estimate_reference by auto.
  assert (HU := fun l (Hl : l < L) => used_lin_chunks a b (size t) L cs1 cs2 l Ht Ha Hlt N1 N2 Hm Hl).
  assert (L3 : forall l, l < L -> length (used (lin_chunks a b cs1 cs2) l) = length (used cs1 l)).
  { intros l Hl. destruct (HU l Hl) as [E1 E2]. rewrite E1. now apply comb_length. }
  assert (Hn : none_used L cs2 = none_used L cs1 /\ none_used L (lin_chunks a b cs1 cs2) = none_used L cs1).
  { unfold none_used. split; apply eq_true_iff_eq; rewrite !forallb_forall; split; intros H l Hl; specialize (H l Hl); apply in_seq in Hl.
    - rewrite (proj2 (HU l ltac:(lia))); auto. - rewrite <- (proj2 (HU l ltac:(lia))); auto.
    - rewrite L3 in H by lia; auto. - rewrite L3 by lia; auto. }
  destruct Hn as [En2 En3]. unfold reference in *. rewrite En2, En3. destruct (none_used L cs1); [discriminate|]. injection He as <-.
  do 2 eexists. split; [reflexivity|]. split; [reflexivity|]. cbn [q_n q_means].
  assert (Hcell : forall l m, l < L -> m < size t ->
     ndivn (nsum (differences (lin_chunks a b cs1 cs2) l m)) (length (used (lin_chunks a b cs1 cs2) l))
     = lin a b (ndivn (nsum (differences cs1 l m)) (length (used cs1 l))) (ndivn (nsum (differences cs2 l m)) (length (used cs2 l)))).
  { intros l m Hl Hmm. destruct (HU l Hl) as [E1 E2].
    assert (F1 : forall u, In u (differences cs1 l m) -> finite u).
    { intros u Hu. apply in_map_iff in Hu as (s & <- & Hs). apply (difference_finite (size t) L cs1 l m s); auto. }
    assert (F2 : forall u, In u (differences cs2 l m) -> finite u).
    { intros u Hu. apply in_map_iff in Hu as (s & <- & Hs). apply (difference_finite (size t) L cs2 l m s); auto. }
    assert (Ed : differences (lin_chunks a b cs1 cs2) l m = comb (lin a b) (differences cs1 l m) (differences cs2 l m)).
    { unfold differences. rewrite E1. unfold comb at 1. rewrite map_map.
      assert (G : forall S1 S2, length S1 = length S2 -> incl S1 (used cs1 l) -> incl S2 (used cs2 l) ->
        map (fun x => difference l m (comb (comb (lin a b)) (fst x) (snd x))) (combine S1 S2) = comb (lin a b) (map (difference l m) S1) (map (difference l m) S2)).
      { induction S1 as [|s S1 IH]; intros [|u S2] El I1 I2; try discriminate; auto. cbn. f_equal.
        - apply (difference_lin a b (size t) L cs1 cs2); auto; [apply I1; now left|apply I2; now left].
        - apply IH; auto; intros x Hx; [apply I1; now right|apply I2; now right]. }
      apply G; auto; apply incl_refl. }
    rewrite Ed, L3, <- E2 by auto. rewrite nsum_lin; auto.
    - apply ndivn_lin.
      + left. now apply nsum_all_fin. + left. now apply nsum_all_fin.
      + intros E0. assert (Z1 := length_zero_iff_nil (used cs1 l)). assert (Z2 := length_zero_iff_nil (used cs2 l)). rewrite <- E2 in Z2.
        unfold differences. rewrite (proj1 Z1 E0), (proj1 Z2 E0). auto.
    - unfold differences. now rewrite !map_length. }
  assert (Hreg : forall cs, chunks_ok (size t) L cs -> no_inf cs -> forall l m, m < size t ->
     finite (ndivn (nsum (differences cs l m)) (length (used cs l))) \/ ndivn (nsum (differences cs l m)) (length (used cs l)) = NaN).
  { intros cs Hc Hno l m Hmm. destruct (fin_list (differences cs l m)) as [d Hd].
    { intros u Hu. apply in_map_iff in Hu as (s & <- & Hs). apply (difference_finite (size t) L cs l m s); auto. }
    assert (El : length (used cs l) = length d) by (rewrite <- (map_length Fin d), <- Hd; unfold differences; now rewrite map_length).
    rewrite Hd, El, nsum_fin. destruct d as [|r d]; [right|left; eexists; reflexivity]. cbn. unfold inf_mul. destruct (Rlt_dec 0 0); [exfalso; lra|]. reflexivity. }
  ands.
  - apply map_ext_in. intros l Hl. apply in_seq in Hl. apply L3. lia.
  - intros l m Hl Hmm. rewrite !cell_table by auto. auto.
  - intros m Hmm. unfold mean. cbn [q_type q_means]. rewrite !sum_levels_table, !seq_cell by auto. rewrite <- nsum_lin.
    + f_equal. rewrite comb_map. apply map_ext_in. intros l Hl. apply in_seq in Hl. apply Hcell; auto. lia.
    + now rewrite !map_length.
    + intros u Hu. apply in_map_iff in Hu as (l & <- & _). auto.
    + intros u Hu. apply in_map_iff in Hu as (l & <- & _). auto.
Qed.
Lemma rsum_minus F : forall C, length F = length C -> rsum (comb Rminus F C) = (rsum F - rsum C)%R.
Proof.
  induction F as [|f F IH]; intros [|c C] E; try discriminate; [cbn; lra|].
  unfold comb. cbn [combine map fst snd]. rewrite !rsum_cons. fold (comb Rminus F C). rewrite IH by (now injection E). lra.
Qed.
(** Total mean and variance from the levels. *)
Theorem C42_totals : forall (t : qtype skey) L cs q m, size t <> 0 -> chunks_ok (size t) L cs -> estimate_mean t L (read cs) = Ok q -> m < size t ->
  nth m (mean q) NaN = nsum (map (fun l => cell (q_means q) l m) (seq 0 L))
  /\ nth m (var q) NaN = nsum (map (fun l => ndivn (cell (q_vars q) l m) (nth l (q_n q) 0)) (seq 0 L)).
Proof.
  intros t L cs q m Ht Hc He Hm. rewrite estimate_reference in He by auto. destruct (reference_ok _ _ _ _ He) as (Et & Em & Ev & En & _).
  unfold mean, var. rewrite Et, Em, Ev, En, vars_over_n, !sum_levels_table, !seq_cell by auto. split; f_equal; apply map_ext_in; intros l Hl; apply in_seq in Hl.
  - now rewrite cell_table by lia. - now rewrite cell_table, seq_cell by lia.
Qed.
(** If the coarse values of each level have the mean of the fine values of the level below, the estimate is the mean
    of the fine values of the finest level. *)
Theorem C42_telescopes : forall (t : qtype skey) L cs q m fine coarse, size t <> 0 -> chunks_ok (size t) (S L) cs ->
  estimate_mean t (S L) (read cs) = Ok q -> m < size t ->
  (forall l, l < S L -> values cs 0 l m = map Fin (fine l) /\ fine l <> []) ->
  (forall l, l < L -> values cs 1 (S l) m = map Fin (coarse (S l))) ->
  (forall l, l < L -> rmean (coarse (S l)) = rmean (fine l)) ->
  nth m (mean q) NaN = Fin (rmean (fine L)).
Proof.
  intros t L cs q m fine coarse Ht Hc He Hm Hf Hco Heq.
  rewrite (proj1 (C42_totals t (S L) cs q m Ht Hc He Hm)).
  assert (Hd : forall l, l < S L -> cell (q_means q) l m = Fin (rmean (fine l) - (if l =? 0 then 0 else rmean (coarse l)))).
  { intros l Hl. destruct (C38_values t (S L) cs q l Ht Hc He Hl) as (_ & _ & _ & _ & _ & H). destruct (Hf l Hl) as [Ef Hne]. destruct l as [|l].
    - destruct (H m (fine 0) Hm) as [-> _]; auto. cbn [Nat.eqb]. f_equal. lra.
    - cbn [Nat.eqb]. assert (Ec := Hco l ltac:(lia)). unfold values in Ef, Ec.
      assert (Hlen : length (fine (S l)) = length (coarse (S l))) by (rewrite <- (map_length Fin), <- Ef, <- (map_length Fin (coarse (S l))), <- Ec, !map_length; reflexivity).
      assert (Ed : differences cs (S l) m = map Fin (comb Rminus (fine (S l)) (coarse (S l)))).
      { unfold differences. revert Ef Ec. generalize (fine (S l)), (coarse (S l)). clear. induction (used cs (S l)) as [|s U IH]; intros [|f F] [|c C] Ef Ec; try discriminate; auto.
        cbn [map] in *. injection Ef as Ef Ef'. injection Ec as Ec Ec'. unfold comb. cbn [combine map fst snd]. f_equal; [|now apply IH].
        unfold difference. cbn [Nat.eqb]. rewrite Ef, Ec. reflexivity. }
      destruct (H m _ Hm Ed) as [-> _].
      { intros E. assert (length (comb Rminus (fine (S l)) (coarse (S l))) = 0) by (now rewrite E). rewrite comb_length in H0 by auto.
        apply Hne. now apply length_zero_iff_nil. }
      f_equal. unfold rmean. rewrite comb_length by auto. rewrite Hlen.
      assert (Hs : rsum (comb Rminus (fine (S l)) (coarse (S l))) = (rsum (fine (S l)) - rsum (coarse (S l)))%R).
      { now apply rsum_minus. }
      rewrite Hs. unfold Rdiv. lra. }
  assert (G : forall n, n <= L -> nsum (map (fun l => cell (q_means q) l m) (seq 0 (S n))) = Fin (rmean (fine n))).
  { induction n as [|n IH]; intros Hn.
    - cbn [seq map]. rewrite nsum_cons. rewrite Hd by lia. cbn. f_equal. lra.
    - rewrite seq_S, map_app, nsum_app, IH by lia. cbn [map Nat.add]. rewrite nsum_cons. rewrite Hd by lia. cbn [Nat.eqb].
      rewrite Heq by lia. cbn. f_equal. lra. }
  now apply G.
Qed.

(** * C43 *)
(** Missing for the full claim: tuples with more than one entry, see C43_tuple_refuted. *)
Theorem C43_items_partial : forall (t q : qtype skey) k s ids L cs qm, plain_key k -> size t <> 0 -> size q <> 0 ->
  get_key string_dec t (as_key k) = Ok (q, s) -> getitem_rows string_dec t (as_key k) (seq 0 (size t)) = Ok ids ->
  chunks_ok (size t) L cs -> no_nan cs -> estimate_mean t L (read cs) = Ok qm ->
  mean_getitem string_dec qm k = estimate_mean q L (map (fun c => (fst c, getitem_rows string_dec t (as_key k) (snd c))) cs).
Proof. intros. eapply item_estimate; eauto. Qed.
Theorem C70_items : forall (t q : qtype skey) k s ids L cs qm, plain_key k -> size t <> 0 -> size q <> 0 ->
  get_key string_dec t (as_key k) = Ok (q, s) -> getitem_rows string_dec t (as_key k) (seq 0 (size t)) = Ok ids ->
  chunks_ok (size t) L cs -> no_nan cs -> estimate_mean t L (read cs) = Ok qm ->
  mean_getitem string_dec qm k = estimate_mean q L (map (fun c => (fst c, getitem_rows string_dec t (as_key k) (snd c))) cs).
Proof. exact C43_items_partial. Qed.

(** A 2 x 2 array, entry [0, 1]: the item of the mean has four numbers, the mean of the item one. *)
Definition square : list (nat * arr num) := [(0, [[[Fin 1]]; [[Fin 2]]; [[Fin 3]]; [[Fin 4]]])].
Lemma square_ok : chunks_ok 4 1 square /\ no_nan square.
Proof.
  split.
  - intros l x [H|[]]. injection H as <- <-. split; [lia|]. exists 1. split; [reflexivity|]. intros row Hr. cbn in Hr.
    destruct Hr as [<-|[<-|[<-|[<-|[]]]]]; (split; [reflexivity|intros s [<-|[]]; reflexivity]).
  - intros l x row s w [H|[]]. injection H as <- <-. intros Hr. cbn in Hr.
    destruct Hr as [<-|[<-|[<-|[<-|[]]]]]; intros [<-|[]] [<-|[]]; discriminate.
Qed.
Theorem C43_tuple_refuted : exists (t : qtype skey) k cs qm q1 q2, chunks_ok (size t) 1 cs /\ no_nan cs /\ estimate_mean t 1 (read cs) = Ok qm
  /\ mean_getitem string_dec qm k = Ok q1
  /\ estimate_mean QScalar 1 (map (fun c => (fst c, getitem_rows string_dec t (as_key k) (snd c))) cs) = Ok q2
  /\ q_type q1 = q_type q2 /\ map (@length num) (q_means q1) = [4] /\ map (@length num) (q_means q2) = [1].
Proof.
  exists (QArray [2; 2] QScalar), (MTuple [At 0%Z; At 1%Z]), square. do 3 eexists. destruct square_ok as [H1 H2].
  split; [exact H1|]. split; [exact H2|]. split; [cbn; reflexivity|]. split; [cbn; reflexivity|]. split; [cbn; reflexivity|]. ands; reflexivity.
Qed.

(** * Examples *)
(** Two levels; the second sample of level 1 is unusable because of its fine part. *)
Definition demo : list (nat * arr num) :=
  [(0, [[[Fin 1]; [Fin 3]]]); (1, [[[Fin 5; Fin 2]; [NaN; Fin 1]; [Fin 4; Fin 2]]])].
Definition demo_cut : list (nat * arr num) :=
  [(1, [[[NaN; Fin 1]; [Fin 4; Fin 2]]]); (0, [[[Fin 1]; [Fin 3]]]); (1, [[[Fin 5; Fin 2]]]); (0, [[]])].
Ltac shapes := let s := fresh in let H := fresh in let row := fresh in let Hr := fresh in
  (split; [lia|]; eexists; split; [reflexivity|]; intros row Hr; cbn in Hr; repeat destruct Hr as [<-|Hr]; try contradiction;
   (split; [reflexivity|intros s H; cbn in H; repeat destruct H as [<-|H]; try contradiction; reflexivity])).
Lemma demo_ok : chunks_ok 1 2 demo /\ chunks_ok 1 2 demo_cut.
Proof.
  split; intros l x H; cbn in H; repeat destruct H as [H|H]; try contradiction; injection H as <- <-; shapes.
Qed.
Lemma demo_inf : no_inf demo.
Proof.
  intros l x row s w H. cbn in H. repeat destruct H as [H|H]; try easy; injection H as <- <-; intros [<-|[]]; cbn;
    intros Hs; repeat destruct Hs as [<-|Hs]; try easy; cbn; intros Hw; repeat destruct Hw as [<-|Hw]; try easy; ((now left) || (right; eexists; reflexivity)).
Qed.
Example C38_ex : size (K := skey) QScalar <> 0 /\ chunks_ok 1 2 demo /\ chunks_ok 1 2 demo_cut
  /\ (forall l, l < 2 -> Permutation (level_samples demo l) (level_samples demo_cut l))
  /\ differences demo 0 0 = map Fin [1; 3]%R /\ differences demo 1 0 = map Fin [5 + - 2; 4 + - 2]%R
  /\ exists q : qmean skey, estimate_mean QScalar 2 (read demo) = Ok q /\ estimate_mean QScalar 2 (read demo_cut) = Ok q
     /\ cell (q_means q) 0 0 = Fin 2 /\ cell (q_means q) 1 0 = Fin (5 / 2) /\ cell (q_vars q) 0 0 = Fin 2 /\ q_n q = [2; 2] /\ q_rm q = [0; 1].
Proof.
  destruct demo_ok as [H1 H2]. assert (HP : forall l, l < 2 -> Permutation (level_samples demo l) (level_samples demo_cut l)).
  { intros [|[|l]] Hl; [reflexivity| |lia]. cbn. apply (Permutation_app_comm [ [[Fin 5; Fin 2]] ]). }
  ands; auto; try discriminate; try reflexivity.
  destruct (estimate_mean (K := skey) QScalar 2 (read demo)) as [q|e] eqn:E; [|cbn in E; discriminate].
  exists q. split; [reflexivity|]. split; [rewrite <- E; symmetry; apply C38_chunking; auto; discriminate|].
  destruct (C38_values QScalar 2 demo q 0) as (_ & _ & _ & _ & _ & V0); auto; try discriminate.
  destruct (C38_values QScalar 2 demo q 1) as (_ & _ & _ & _ & _ & V1); auto; try discriminate.
  destruct (V0 0 [1; 3]%R) as [M0 W0]; [cbn; lia|reflexivity|easy|]. destruct (V1 0 [5 + - 2; 4 + - 2]%R) as [M1 W1]; [cbn; lia|reflexivity|easy|].
  rewrite M0, M1, W0 by (cbn; lia). ands; try (cbn in E; injection E as <-; reflexivity).
  - f_equal. unfold rmean. cbn. lra. - f_equal. unfold rmean. cbn. lra. - f_equal. unfold rvar, rmean. cbn. lra.
Qed.
(** A quantity expression: the stored quantity plus itself, its chunk of level 1 cut in two. *)
Definition twice : graph skey num :=
  [mkNode (ORoot 0) QScalar false None None; mkNode (OBin nadd 0 0) QScalar false (Some 0) (Some (Obj 0))].
Example C38_quantity_ex : built string_dec twice /\ from_storage twice 1
  /\ splits 2 (fun _ => [[[Fin 5; Fin 2]]]) (fun _ => [[[NaN; Fin 1]; [Fin 4; Fin 2]]]) (fun _ => [[[Fin 5; Fin 2]; [NaN; Fin 1]; [Fin 4; Fin 2]]])
  /\ exists q, estimate_quantity string_dec twice 1 2 [(0, 0, fun _ => [[[Fin 1]; [Fin 3]]]); (1, 0, fun _ => [[[Fin 5; Fin 2]; [NaN; Fin 1]; [Fin 4; Fin 2]]])] = Ok q
     /\ q_n q = [2; 2] /\ q_rm q = [0; 1].
Proof.
  ands.
  - apply (built_step string_dec [mkNode (ORoot 0) QScalar false None None] (CBin nadd 0 0)); [|exact I|reflexivity].
    apply (built_step string_dec [] (CRoot 0 QScalar)); [constructor|exact I|reflexivity].
  - discriminate.
  - intros r. exists 1, 1, 2. ands; [| |reflexivity]; (split; [reflexivity|]; intros row [<-|[]]; split; [reflexivity|]; intros s Hs; cbn in Hs; repeat destruct Hs as [<-|Hs]; easy).
  - eexists. split; [cbn; reflexivity|]. split; reflexivity.
Qed.
Example C39_ex : chunks_ok 1 2 demo /\ filter usable (level_samples demo 1) = [[[Fin 5; Fin 2]]; [[Fin 4; Fin 2]]]
  /\ chunks_ok 1 1 [(0, [[[NaN]]])] /\ estimate_mean (K := skey) QScalar 1 (read [(0, [[[NaN]]])]) = Err PyException.
Proof. ands; try reflexivity; [apply demo_ok|]. intros l x [H|[]]. injection H as <- <-. shapes. Qed.
Example C40_ex : chunks_ok 1 2 demo /\ no_inf demo /\ (forall l, l < 2 -> used demo l <> []) /\ exists q : qmean skey, estimate_mean QScalar 2 (read demo) = Ok q.
Proof. ands; [apply demo_ok|exact demo_inf|intros [|[|l]] Hl; [discriminate|discriminate|lia]|eexists; cbn; reflexivity]. Qed.
Example C41_ex : chunks_ok 1 2 demo /\ (forall x, In x (differences demo 0 0) -> finite x) /\ 1 < length (used demo 0)
  /\ rvar [1; 3]%R = 2%R /\ rvar [3; 3]%R = 0%R.
Proof.
  ands; [apply demo_ok| |cbn; lia| |]; [|unfold rvar, rmean; cbn; lra|unfold rvar, rmean; cbn; lra].
  intros x [<-|[<-|[]]]; eexists; reflexivity.
Qed.
Example C42_linear_ex : aligned 1 demo demo /\ no_inf demo /\ same_mask 2 demo demo /\ (forall l x, In (l, x) demo -> l < 2)
  /\ level_samples (lin_chunks 2 (-1) demo demo) 0 = [[[Fin (2 * 1 + -1 * 1)]]; [[Fin (2 * 3 + -1 * 3)]]].
Proof.
  ands; [|exact demo_inf|intros l _; reflexivity|intros l x H; apply (proj1 demo_ok l x H)|reflexivity].
  repeat constructor; cbn [fst snd]; eexists; split; (split; [reflexivity|]; intros row [<-|[]]; split; [reflexivity|]; intros s Hs; cbn in Hs; repeat destruct Hs as [<-|Hs]; easy).
Qed.
(** Level 1 has coarse values 1 and 3, as level 0: the estimate is the mean 5 of the fine values 4 and 6. *)
Definition ladder : list (nat * arr num) := [(0, [[[Fin 1]; [Fin 3]]]); (1, [[[Fin 4; Fin 1]; [Fin 6; Fin 3]]])].
Example C42_telescopes_ex : chunks_ok 1 2 ladder
  /\ (forall l, l < 2 -> values ladder 0 l 0 = map Fin (match l with 0 => [1; 3] | _ => [4; 6] end)%R)
  /\ values ladder 1 1 0 = map Fin [1; 3]%R /\ rmean [4; 6]%R = 5%R /\ exists q : qmean skey, estimate_mean QScalar 2 (read ladder) = Ok q.
Proof.
  ands; try reflexivity.
  - intros l x H; cbn in H; repeat destruct H as [H|H]; try contradiction; injection H as <- <-; shapes.
  - intros [|[|l]] Hl; [reflexivity|reflexivity|lia].
  - unfold rmean. cbn. lra.
  - eexists; cbn; reflexivity.
Qed.
(** A dictionary of two scalars, the second one. *)
Local Open Scope string_scope.
Example C43_ex : let t := QDict [("a", QScalar); ("b", QScalar)] in let cs := [(0, [[[Fin 1]; [Fin 3]]; [[Fin 7]; [Fin 9]]])] in
  plain_key (MKey "b") /\ get_key string_dec t (Key "b") = Ok (QScalar, 1) /\ getitem_rows string_dec t (Key "b") (seq 0 2) = Ok [1]
  /\ chunks_ok 2 1 cs /\ no_nan cs /\ exists qm, estimate_mean t 1 (read cs) = Ok qm.
Proof.
  cbv zeta. ands; try reflexivity; try exact I.
  - intros l x H; cbn in H; repeat destruct H as [H|H]; try contradiction; injection H as <- <-; shapes.
  - intros l x row s w [H|[]]. injection H as <- <-. intros Hr. cbn in Hr. repeat destruct Hr as [<-|Hr]; try easy; cbn; intros Hs; repeat destruct Hs as [<-|Hs]; try easy; cbn;
      intros [<-|[]]; discriminate.
  - eexists; cbn; reflexivity.
Qed.

Print Assumptions C38_chunking.
Print Assumptions C38_quantity_chunking.
Print Assumptions C38_values.
Print Assumptions C39_counts.
Print Assumptions C39_ignored.
Print Assumptions C39_none_usable.
Print Assumptions C40_every_level_partial.
Print Assumptions C40_empty_level_refuted.
Print Assumptions C41_variance.
Print Assumptions C42_linear.
Print Assumptions C42_totals.
Print Assumptions C42_telescopes.
Print Assumptions C43_items_partial.
Print Assumptions C43_tuple_refuted.
