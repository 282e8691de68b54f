(** The estimate of a quantity expression does not depend on how the stored samples are cut into chunks. *)
From Verif Require Import Base BaseFacts QTypeModel QuantityModel QuantitySpec QuantityProofs QuantityGraph QuantityFacts NumModel NumFacts
  EstimateModel EstimateSpec EstimateProofs EstimateFacts EstimateLinear.
Notation width := EstimateModel.width.

Section EG.
Context {K : Type} (K_eq : forall a b : K, {a = b} + {a <> b}).

(** Chunk ids play no role without subsampling. *)
Lemma samples_cid env lvl cid cid' (g : graph K num) : graph_inv g -> forall a, samples K_eq env lvl cid g a = samples K_eq env lvl cid' g a.
Proof.
  intros Hg. intros a. induction a as [a IH] using lt_wf_ind.
  destruct (nth_error g a) as [n|] eqn:En.
  - rewrite !(samples_op K_eq env lvl _ g a n Hg En).
    assert (Hag : agree (eval_all K_eq env lvl cid g) (eval_all K_eq env lvl cid' g) (inputs (n_op n))).
    { intros b Hb. apply IH. apply (ni_inputs _ _ _ (Hg _ _ En)). exact Hb. }
    transitivity (eval_op K_eq env lvl cid (map n_type g) (eval_all K_eq env lvl cid' g) (n_op n)); [apply eval_op_ext; auto|].
    destruct (n_op n) eqn:Eo; try reflexivity. exfalso. apply (ni_nosub _ _ _ (Hg _ _ En) pick a0). exact Eo.
  - assert (E : forall c, samples K_eq env lvl c g a = Err NameError); [|now rewrite !E].
    intros c. unfold samples, at_. apply nth_overflow. unfold eval_all. apply nth_error_None in En.
    destruct (evs_prefix K_eq env lvl c (map n_type g) g []) as (l & E & El). unfold evs in E. rewrite E. cbn. lia.
Qed.

(** On a chunk cut in two, the values are those of the parts, side by side and of the same shape. *)
Lemma split_shaped k e1 e2 e lvl cid (g : graph K num) a : splits k e1 e2 e -> built K_eq g -> from_storage g a ->
  let v := fun e => num_of (samples K_eq e lvl cid g a) in
  (exists er, v e1 = Err er /\ v e2 = Err er /\ v e = Err er)
  \/ exists M n1 n2 x1 x2, shaped M n1 k x1 /\ shaped M n2 k x2 /\ v e1 = Ok x1 /\ v e2 = Ok x2 /\ v e = Ok (beside x1 x2).
Proof.
  intros He Hb Hs. cbn zeta. pose proof (built_inv K_eq _ Hb) as Hg. unfold from_storage in Hs.
  assert (Ha : a < length g). { destruct (Nat.lt_ge_cases a (length g)); auto. exfalso. apply Hs. unfold store_of. rewrite (proj2 (nth_error_None g a)); auto. }
  destruct (nth_error g a) as [n|] eqn:En; [|apply nth_error_None in En; lia].
  pose proof (ni_sid _ _ _ (Hg _ _ En)) as Hsid. destruct (selection_id g a) as [[s|]|] eqn:Es; [|congruence|].
  - destruct (claims K_eq k e1 e2 e lvl cid g He Hg a Ha) as [_ H]. specialize (H s Hs Es).
    destruct H as [(er & -> & -> & ->)|[(ps & Hp & -> & -> & ->)|(m1 & m2 & L1 & L2 & -> & -> & ->)]]; cbn.
    + left. exists er. auto.
    + right. exists (length ps). do 2 eexists. exists (map fst ps), (map snd ps). rewrite <- papp_beside. rewrite Forall_forall in Hp. ands; auto.
      * split; [now rewrite map_length|]. intros row Hr. apply in_map_iff in Hr as (p & <- & Ip). apply (Hp p Ip).
      * split; [now rewrite map_length|]. intros row Hr. apply in_map_iff in Hr as (p & <- & Ip). apply (Hp p Ip).
    + left. eauto.
  - destruct Hsid as [c Hc]. exfalso. apply Hs. unfold store_of. now rewrite En, Hc.
Qed.
End EG.

(** ** Cutting a chunk of numbers *)
Lemma beside_shaped M n1 n2 k (x1 x2 : arr num) : shaped M n1 k x1 -> shaped M n2 k x2 -> shaped M (n1 + n2) k (beside x1 x2).
Proof.
  intros H1 H2. split.
  - unfold beside. rewrite map_length, combine_length. destruct H1, H2. lia.
  - intros row Hr. unfold beside in Hr. apply in_map_iff in Hr as ([r t] & <- & Hin). cbn.
    destruct (proj2 H1 r (in_combine_l _ _ _ _ Hin)) as [L1 S1]. destruct (proj2 H2 t (in_combine_r _ _ _ _ Hin)) as [L2 S2].
    split; [rewrite app_length; lia|]. intros s Hs. apply in_app_or in Hs as [Hs|Hs]; auto.
Qed.
Lemma beside_samples M n1 n2 k (x1 x2 : arr num) : M <> 0 -> shaped M n1 k x1 -> shaped M n2 k x2 ->
  samples_of (beside x1 x2) = samples_of x1 ++ samples_of x2.
Proof.
  intros HM H1 H2. rewrite (samples_of_shaped M (n1 + n2) k) by (auto using beside_shaped).
  rewrite (samples_of_shaped M n1 k), (samples_of_shaped M n2 k) by auto. rewrite seq_app, map_app. f_equal.
  - apply map_ext_in. intros i Hi. apply in_seq in Hi. unfold beside. rewrite map_map.
    apply nth_ext with (d := []) (d' := []); [rewrite !map_length, combine_length; destruct H1, H2; lia|].
    intros m Hm. rewrite map_length, combine_length in Hm. assert (E : length x1 = length x2) by (destruct H1, H2; congruence).
    rewrite (nth_map0 _ _ ([], []) []) by (rewrite combine_length; lia). rewrite combine_nth by auto. cbn [fst snd].
    rewrite (nth_map0 _ _ [] []) by lia. apply app_nth1. destruct (shaped_row M n1 k x1 m H1); [destruct H1; lia|]. lia.
  - replace (seq (0 + n1) n2) with (map (fun i => n1 + i) (seq 0 n2)).
    2:{ assert (G : forall n s, map (fun i => n1 + i) (seq s n) = seq (n1 + s) n).
        { clear. induction n as [|n IH]; intros s; cbn [seq map]; [reflexivity|]. rewrite IH. now rewrite Nat.add_succ_r. }
        rewrite G. f_equal. lia. }
    rewrite map_map. apply map_ext_in. intros i Hi. apply in_seq in Hi. unfold beside. rewrite map_map.
    apply nth_ext with (d := []) (d' := []); [rewrite !map_length, combine_length; destruct H1, H2; lia|].
    intros m Hm. rewrite map_length, combine_length in Hm. assert (E : length x1 = length x2) by (destruct H1, H2; congruence).
    rewrite (nth_map0 _ _ ([], []) []) by (rewrite combine_length; lia). rewrite combine_nth by auto. cbn [fst snd].
    rewrite (nth_map0 _ _ [] []) by lia. destruct (shaped_row M n1 k x1 m H1) as [L1 _]; [destruct H1; lia|].
    rewrite app_nth2 by lia. f_equal. lia.
Qed.
(** The masked chunk by its usable samples. *)
Definition rows_of (M : nat) (ss : list (list (list num))) : arr num := map (fun m => map (fun s => nth m s []) ss) (seq 0 M).
Lemma mask_rows M N k (x : arr num) : M <> 0 -> shaped M N k x ->
  mask_nan_samples x = (rows_of M (filter usable (samples_of x)), length (filter (fun s => negb (usable s)) (samples_of x))).
Proof.
  intros HM Hx. rewrite (mask_chunk M N k) by auto. apply (f_equal2 pair); [|reflexivity]. rewrite (used_one M N k) by auto. unfold rows_of.
  rewrite (row_seq x [] M) at 1 by (apply Hx). rewrite map_map. apply map_ext_in. intros m Hm. apply in_seq in Hm. rewrite map_map.
  apply map_ext. intros i. symmetry. apply (nth_map0 (fun row => nth i row []) x [] []). destruct Hx. lia.
Qed.
Lemma rows_width M ss : M <> 0 -> width (rows_of M ss) = length ss.
Proof. intros HM. destruct M; [easy|]. cbn. apply map_length. Qed.
Lemma rows_parts M k ss l : M <> 0 -> ss <> [] -> (forall s, In s ss -> length s = M /\ forall v, In v s -> length v = k) ->
  has_parts l (rows_of M ss) = match l with O => 1 <=? k | S _ => 2 <=? k end.
Proof.
  intros HM Hs H. destruct ss as [|s ss]; [easy|]. destruct M; [easy|]. unfold has_parts. cbn.
  destruct (H s (or_introl eq_refl)) as [E Hv]. destruct s as [|v s]; [discriminate|]. cbn. rewrite (Hv v) by now left. reflexivity.
Qed.
Lemma upd_upd {A} (f g : A -> A) : forall l i, upd (upd l i f) i g = upd l i (fun x => g (f x)).
Proof. induction l as [|x l IH]; intros [|i]; cbn; auto. now rewrite IH. Qed.
Lemma upd_ext {A} (f g : A -> A) : (forall x, f x = g x) -> forall l i, upd l i f = upd l i g.
Proof. intros H. induction l as [|x l IH]; intros [|i]; cbn; auto; [now rewrite H|now rewrite IH]. Qed.
Lemma vadd_assoc x : forall y z, vadd (vadd x y) z = vadd x (vadd y z).
Proof.
  induction x as [|a x IH]; intros [|b y] [|c z]; try reflexivity. unfold vadd in *. cbn. rewrite nadd_assoc. f_equal. apply IH.
Qed.
Lemma vadd_zero n v : length v = n -> vadd (repeat (Fin 0) n) v = v.
Proof. revert v. induction n as [|n IH]; intros [|x v] E; try discriminate; auto. unfold vadd in *. cbn [repeat combine map fst snd]. rewrite nadd_0_l. f_equal. apply IH. now injection E. Qed.

Lemma upd_id {A} (f : A -> A) : (forall x, f x = x) -> forall l i, upd l i f = l.
Proof. intros H. induction l as [|x l IH]; intros [|i]; cbn; auto; [now rewrite H|now rewrite IH]. Qed.

Lemma step_beside qsize L s l M n1 n2 k x1 x2 : shaped M n1 k x1 -> shaped M n2 k x2 ->
  est_step qsize L s (l, Ok (beside x1 x2)) = bind (est_step qsize L s (l, Ok x1)) (fun s' => est_step qsize L s' (l, Ok x2)).
Proof.
  intros H1 H2. destruct (Nat.eq_dec M 0) as [->|HM].
  { destruct H1 as [E1 _], H2 as [E2 _]. apply length_zero_iff_nil in E1, E2. subst. unfold est_step.
    cbn [beside combine map mask_nan_samples nan_mask fst snd bind EstimateModel.width seq filter length].
    destruct (l <? L) eqn:El; cbn [negb bind Nat.eqb e_n e_rm e_sums]; [|reflexivity]. f_equal. f_equal; rewrite upd_upd; apply upd_ext; intros; lia. }
  unfold est_step. cbn [fst snd bind].
  rewrite (mask_rows M (n1 + n2) k (beside x1 x2)) by (auto using beside_shaped).
  rewrite (mask_rows M n1 k x1), (mask_rows M n2 k x2) by auto. rewrite (beside_samples M n1 n2 k) by auto. rewrite !filter_app.
  set (u1 := filter usable (samples_of x1)). set (u2 := filter usable (samples_of x2)).
  set (r1 := filter (fun s => negb (usable s)) (samples_of x1)). set (r2 := filter (fun s => negb (usable s)) (samples_of x2)).
  assert (Hu1 : forall s, In s u1 -> length s = M /\ forall v, In v s -> length v = k).
  { intros s' Hs'. apply filter_In in Hs' as [Hs' _]. destruct (in_samples M n1 k x1 s' HM H1 Hs') as [A B]. split; auto. intros v Hv. apply (B v Hv). }
  assert (Hu2 : forall s, In s u2 -> length s = M /\ forall v, In v s -> length v = k).
  { intros s' Hs'. apply filter_In in Hs' as [Hs' _]. destruct (in_samples M n2 k x2 s' HM H2 Hs') as [A B]. split; auto. intros v Hv. apply (B v Hv). }
  destruct (l <? L) eqn:El; cbn [negb bind]; [|reflexivity].
  rewrite !rows_width by auto. rewrite !app_length.
  assert (Hlen : forall ss, length (rows_of M ss) = M) by (intros; unfold rows_of; now rewrite map_length, seq_length). rewrite !Hlen.
  destruct (Nat.eqb_spec (length u1) 0) as [Z1|Z1].
  { assert (E1 : u1 = []) by (now apply length_zero_iff_nil). rewrite E1. cbn [app bind e_sums e_n e_rm length Nat.add].
    rewrite !upd_upd. rewrite (upd_ext (fun x => x + 0 + length u2) (fun v => v + length u2)) by (intros; lia).
    rewrite (upd_ext (fun x => x + length r1 + length r2) (fun v => v + (length r1 + length r2))) by (intros; lia). reflexivity. }
  destruct (M =? qsize) eqn:EM; cbn [negb].
  2:{ assert (Z : (length u1 + length u2 =? 0) = false) by (apply Nat.eqb_neq; lia). now rewrite Z. }
  assert (Z : (length u1 + length u2 =? 0) = false) by (apply Nat.eqb_neq; lia). rewrite Z.
  set (zz := match e_sums s with Some p => p | None => _ end). destruct zz as [ss sq].
  assert (N1 : u1 <> []) by (intros E; rewrite E in Z1; cbn in Z1; lia).
  assert (Happ : forall x, In x (u1 ++ u2) -> length x = M /\ forall v, In v x -> length v = k) by (intros x Hx; apply in_app_or in Hx as [Hx|Hx]; auto).
  rewrite (rows_parts M k (u1 ++ u2) l) by (auto; intros E; apply app_eq_nil in E as [? _]; contradiction).
  rewrite (rows_parts M k u1 l) by auto.
  set (hp := match l with O => 1 <=? k | S _ => 2 <=? k end). destruct hp eqn:Ehp; cbn [negb bind]; [|reflexivity].
  cbn [e_sums e_n e_rm]. rewrite !upd_upd.
  rewrite (upd_ext (fun x => x + length u1 + length u2) (fun v => v + (length u1 + length u2))) by (intros; lia).
  rewrite (upd_ext (fun x => x + length r1 + length r2) (fun v => v + (length r1 + length r2))) by (intros; lia).
  assert (Hsum : forall f : list num -> num, (forall a b, f (a ++ b) = nadd (f a) (f b)) ->
     map f (map (map (sample_diff l)) (rows_of M (u1 ++ u2))) = vadd (map f (map (map (sample_diff l)) (rows_of M u1))) (map f (map (map (sample_diff l)) (rows_of M u2)))).
  { intros f Hf. unfold rows_of. rewrite !map_map, vadd_seq. apply map_ext. intros m. now rewrite !map_app, Hf. }
  destruct (Nat.eqb_spec (length u2) 0) as [Z2|Z2].
  { apply length_zero_iff_nil in Z2. rewrite Z2, app_nil_r. reflexivity. }
  assert (N2 : u2 <> []) by (intros E; rewrite E in Z2; cbn in Z2; lia).
  rewrite (rows_parts M k u2 l) by auto. fold hp. rewrite Ehp. cbn [negb].
  do 4 f_equal.
  - apply upd_ext. intros v. rewrite vadd_assoc. f_equal. apply Hsum. apply nsum_app.
  - apply upd_ext. intros v. rewrite vadd_assoc. f_equal. apply (Hsum (fun row => nsum (map nsq row))). intros. now rewrite map_app, nsum_app.
Qed.

Lemma loop_app qsize L cs : forall s cs', est_loop qsize L s (cs ++ cs') = bind (est_loop qsize L s cs) (fun s' => est_loop qsize L s' cs').
Proof.
  induction cs as [|c cs IH]; intros s cs'; [reflexivity|]. cbn [app est_loop]. destruct (est_step qsize L s c); cbn [bind]; auto.
Qed.

(** The chunk list without the chunk ids. *)
Definition content (cs : list (nat * nat * (nat -> arr num))) : list (nat * (nat -> arr num)) := map (fun c => (fst (fst c), snd c)) cs.

Lemma estimate_cut {K} (K_eq : forall a b : K, {a = b} + {a <> b}) (g : graph K num) a L pre pre' post post' l k c c1 c2 e1 e2 e :
  built K_eq g -> from_storage g a -> splits k e1 e2 e -> content pre = content pre' -> content post = content post' ->
  estimate_quantity K_eq g a L (pre ++ (l, c, e) :: post) = estimate_quantity K_eq g a L (pre' ++ (l, c1, e1) :: (l, c2, e2) :: post').
Proof.
  intros Hb Hs He Ep Eq. pose proof (built_inv K_eq g Hb) as Hg.
  set (f := fun c : nat * nat * (nat -> arr num) => (fst (fst c), num_of (samples K_eq (snd c) (fst (fst c)) (snd (fst c)) g a))).
  assert (Hf : forall p q, content p = content q -> map f p = map f q).
  { clear -Hg. induction p as [|[[l c] e] p IH]; intros [|[[l' c'] e'] q] H; try discriminate; auto.
    unfold content in H. cbn in H. injection H as -> -> H. cbn [map]. rewrite (IH q H). f_equal. unfold f. cbn [fst snd].
    now rewrite (samples_cid K_eq e' l' c c' g Hg). }
  unfold estimate_quantity. fold f. rewrite !map_app. cbn [map]. rewrite (Hf pre pre' Ep), (Hf post post' Eq).
  unfold estimate_mean. f_equal. rewrite !loop_app. destruct (est_loop _ L (est0 L) (map f pre')) as [s|]; cbn [bind]; [|reflexivity].
  cbn [est_loop]. unfold f at 1 3 4. cbn [fst snd]. rewrite (samples_cid K_eq e1 l c1 c g Hg), (samples_cid K_eq e2 l c2 c g Hg).
  destruct (split_shaped K_eq k e1 e2 e l c g a He Hb Hs) as [(er & -> & -> & ->)|(M & n1 & n2 & x1 & x2 & S1 & S2 & -> & -> & ->)].
  - reflexivity.
  - rewrite (step_beside _ L s l M n1 n2 k x1 x2 S1 S2). destruct (est_step _ L s (l, Ok x1)); cbn [bind]; [|reflexivity].
    destruct (est_step _ L a0 (l, Ok x2)); reflexivity.
Qed.
