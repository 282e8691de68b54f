(** Expressions sample by sample, selections that are never combined, and selection by conditions. *)
From Verif Require Import Base BaseFacts QTypeModel QTypeProofs QuantityModel QuantitySpec QuantityProofs QuantityGraph QuantityCache QuantityCacheProofs.

Section Facts.
Context {K V : Type} (K_eq : forall a b : K, {a = b} + {a <> b}).
Notation gr := (graph K V).

Definition rest (e : nat -> arr V) : nat -> arr V := fun r => map (@tl (list V)) (e r).
Lemma split_first k N (e : nat -> arr V) : (forall r, exists M, shaped M (S N) k (e r)) ->
  splits k (only 0 e) (rest e) e /\ forall r, exists M, shaped M N k (rest e r).
Proof.
  intros H. split.
  - intros r. destruct (H r) as [M [HM HR]]. exists M, 1, N. unfold only, rest. ands.
    + split; [now rewrite map_length|]. intros row Hrow. apply in_map_iff in Hrow as (t & <- & Ht). destruct (HR t Ht) as [L S0]. split; [reflexivity|].
      intros s [<-|[]]. apply S0. apply nth_In. lia.
    + split; [now rewrite map_length|]. intros row Hrow. apply in_map_iff in Hrow as (t & <- & Ht). destruct (HR t Ht) as [L S0]. destruct t as [|x t]; [discriminate|].
      cbn in *. split; [lia|]. intros s Hs. apply S0. now right.
    + unfold beside. clear HM. induction (e r) as [|t l IH]; [reflexivity|]. cbn. destruct (HR t (or_introl eq_refl)) as [L _].
      destruct t as [|x t]; [discriminate|]. cbn. f_equal. apply IH. intros row Hrow. apply HR. now right.
  - intros r. destruct (H r) as [M [HM HR]]. exists M. unfold rest.
    split; [now rewrite map_length|]. intros row Hrow. apply in_map_iff in Hrow as (t & <- & Ht). destruct (HR t Ht) as [L S0]. destruct t as [|x t]; [discriminate|].
    cbn in *. split; [lia|]. intros s Hs. apply S0. now right.
Qed.
Lemma samples_ext env env' lvl cid (g : gr) a : ordered g -> (forall r, env r = env' r) -> samples K_eq env lvl cid g a = samples K_eq env' lvl cid g a.
Proof.
  intros Hg H. induction a as [a IH] using lt_wf_ind. destruct (nth_error g a) as [n|] eqn:En.
  - rewrite !(ordered_op K_eq _ _ _ _ _ _ Hg En). apply eval_op_ext; [|auto]. intros b Hb. apply IH. eapply Hg; eauto.
  - unfold samples, at_. destruct (evs_prefix K_eq env lvl cid (map n_type g) g []) as (l & E & L). destruct (evs_prefix K_eq env' lvl cid (map n_type g) g []) as (l' & E' & L').
    apply nth_error_None in En. unfold eval_all. unfold evs in E, E'. rewrite E, E'. cbn. rewrite !nth_overflow by lia. reflexivity.
Qed.
Lemma only_rest i (e : nat -> arr V) r : only i (rest e) r = only (S i) e r.
Proof. unfold only, rest. rewrite map_map. apply map_ext. intros [|x t]; cbn; [now destruct i|reflexivity]. Qed.
Lemma only_all (e : nat -> arr V) k r : (exists M, shaped M 1 k (e r)) -> only 0 e r = e r.
Proof.
  intros (M & _ & H). unfold only. induction (e r) as [|t l IH]; [reflexivity|]. cbn. destruct (H t (or_introl eq_refl)) as [L _].
  destruct t as [|x [|y t]]; try discriminate. cbn. f_equal. apply IH. intros; apply H; now right.
Qed.

Lemma graph_ordered (g : gr) : graph_inv g -> ordered g.
Proof. intros H a n E b Hb. exact (ni_inputs _ _ _ (H a n E) b Hb). Qed.

Lemma glued_samples k lvl cid (g : gr) a : built K_eq g -> from_storage g a -> forall N e, (forall r, exists M, shaped M (S N) k (e r)) ->
  glued (map (fun i => samples K_eq (only i e) lvl cid g a) (seq 0 (S N))) (samples K_eq e lvl cid g a).
Proof.
  intros Hb Hs N. pose proof (graph_ordered _ (built_inv K_eq g Hb)) as Ho. induction N as [|N IH]; intros e He.
  - cbn. rewrite (samples_ext _ e _ _ _ _ Ho); [constructor|]. intros r. eapply only_all. apply He.
  - destruct (split_first k (S N) e He) as [H1 H2]. change (seq 0 (S (S N))) with (0 :: seq 1 (S N)). cbn [map].
    apply glued_cons with (v1 := samples K_eq (rest e) lvl cid g a).
    + specialize (IH (rest e) H2). rewrite <- seq_shift, map_map.
      erewrite map_ext; [exact IH|]. intros i. cbn beta. apply samples_ext; auto. intros r. symmetry. apply only_rest.
    + now apply (joined_samples K_eq k).
Qed.

(** ** Arithmetic *)
Lemma zipw_nth {A B C} (h : A -> B -> C) x : forall y i, nth_error (zipw h x y) i = match nth_error x i, nth_error y i with Some a, Some b => Some (h a b) | _, _ => None end.
Proof.
  induction x as [|a x IH]; intros [|b y] [|i]; cbn; try reflexivity; try apply IH. now destruct (nth_error x i).
Qed.
Lemma bin_shaped {W} (f : V -> V -> W) M N k x y : shaped M N k x -> shaped M N k y ->
  exists z, bin f x y = Ok z /\ length z = M /\ (forall row, In row z -> length row = N /\ forall s, In s row -> length s = k)
  /\ forall m i j, entry z m i j = match entry x m i j, entry y m i j with Some a, Some b => Some (f a b) | _, _ => None end.
Proof.
  intros [Hx Hx'] [Hy Hy']. exists (zipw (zipw (zipw f)) x y).
  assert (E3 : forall s t, length s = k -> length t = k -> bcast (fun a b => Ok (f a b)) s t = Ok (zipw f s t)).
  { intros s t Hs Ht. rewrite (bcast_ok _ f) by auto. unfold compat. rewrite Hs, Ht, Nat.eqb_refl. cbn. rewrite bz_eq by congruence. reflexivity. }
  assert (E2 : forall r t, In r x -> In t y -> bcast (bcast (fun a b => Ok (f a b))) r t = Ok (zipw (zipw f) r t)).
  { intros r t Hr Ht. destruct (Hx' r Hr) as [L1 S1]. destruct (Hy' t Ht) as [L2 S2]. rewrite (bcast_ok _ (zipw f)) by auto.
    unfold compat. rewrite L1, L2, Nat.eqb_refl. cbn. rewrite bz_eq by congruence. reflexivity. }
  unfold bin. rewrite (bcast_ok _ (zipw (zipw f))) by exact E2. unfold compat. rewrite Hx, Hy, Nat.eqb_refl. cbn [orb]. rewrite bz_eq by congruence. ands.
  - reflexivity.
  - rewrite zipw_length; congruence.
  - intros row Hrow. apply zipw_in in Hrow as (r & t & Hr & Ht & ->). destruct (Hx' r Hr) as [L1 S1]. destruct (Hy' t Ht) as [L2 S2].
    split; [rewrite zipw_length; congruence|]. intros s Hs. apply zipw_in in Hs as (p & q & Hp & Hq & ->). specialize (S1 p Hp). specialize (S2 q Hq). rewrite zipw_length; congruence.
  - intros m i j. unfold entry. rewrite zipw_nth. destruct (nth_error x m) as [r|]; [|reflexivity]. destruct (nth_error y m) as [t|].
    + rewrite zipw_nth. destruct (nth_error r i) as [s|]; [|reflexivity]. destruct (nth_error t i) as [q|]; [apply zipw_nth|]. now destruct (nth_error s j).
    + destruct (nth_error r i) as [s|]; [|reflexivity]. now destruct (nth_error s j).
Qed.
(** A constant is used for all samples; a single number for all components as well. *)
Definition const_entry (c : list V) (m : nat) : option V := match c with [v] => Some v | _ => nth_error c m end.
Lemma bin_shaped_const {W} (f : V -> V -> W) M N k x c : shaped M N k x -> (length c = M \/ length c = 1) ->
  exists z, bin f x (const_arr c) = Ok z /\ length z = M /\ (forall row, In row z -> length row = N /\ forall s, In s row -> length s = k)
  /\ forall m i j, entry z m i j = match entry x m i j, const_entry c m with Some a, Some b => Some (f a b) | _, _ => None end.
Proof.
  intros [Hx Hx'] Hc.
  set (h := fun (r : list (list V)) (t : list (list V)) => match t with [[v]] => map (map (fun a => f a v)) r | _ => [] end).
  assert (E2 : forall r t, In r x -> In t (const_arr c) -> bcast (bcast (fun a b => Ok (f a b))) r t = Ok (h r t)).
  { intros r t Hr Ht. apply in_map_iff in Ht as (v & <- & Hv). rewrite (bcast_ok _ (fun s t => match t with [v] => map (fun a => f a v) s | _ => [] end)).
    - rewrite compat_one_r. rewrite bz_one_r. reflexivity.
    - intros s q Hs [<-|[]]. rewrite (bcast_ok _ f) by auto. rewrite compat_one_r, bz_one_r. reflexivity. }
  assert (Hh : forall r v, In r x -> length (h r [[v]]) = N /\ forall s, In s (h r [[v]]) -> length s = k).
  { intros r v Hr. destruct (Hx' r Hr) as [L S0]. cbn. split; [now rewrite map_length|]. intros s Hs. apply in_map_iff in Hs as (t & <- & Ht). rewrite map_length. auto. }
  assert (Hent : forall r v i j, match nth_error (h r [[v]]) i with Some s => nth_error s j | None => None end
                 = match (match nth_error r i with Some s => nth_error s j | None => None end) with Some a => Some (f a v) | None => None end).
  { intros r v i j. cbn. rewrite nth_error_map. destruct (nth_error r i) as [s|]; [|reflexivity]. cbn. rewrite nth_error_map. now destruct (nth_error s j). }
  unfold bin. rewrite (bcast_ok _ h) by exact E2. assert (Hlc : length (const_arr c) = length c) by (unfold const_arr; apply map_length).
  assert (Ec : compat (length x) (length (const_arr c)) = true).
  { unfold compat. rewrite Hlc, Hx. destruct Hc as [->| ->]; [now rewrite Nat.eqb_refl|]. cbn. now rewrite Bool.orb_true_r. }
  rewrite Ec. eexists. split; [reflexivity|].
  destruct (Nat.eq_dec (length c) 1) as [E1|N1].
  - destruct c as [|v [|v' c]]; try discriminate. cbn [const_arr map]. rewrite bz_one_r. ands.
    + now rewrite map_length.
    + intros row Hrow. apply in_map_iff in Hrow as (r & <- & Hr). now apply Hh.
    + intros m i j. unfold entry. rewrite nth_error_map. destruct (nth_error x m) as [r|]; [|reflexivity]. cbn [option_map]. rewrite Hent.
      cbn [const_entry]. destruct (nth_error r i) as [s|]; reflexivity.
  - destruct Hc as [Hc|Hc]; [|congruence]. rewrite bz_eq by (rewrite Hlc; congruence). ands.
    + rewrite zipw_length; [auto|rewrite Hlc; congruence].
    + intros row Hrow. apply zipw_in in Hrow as (r & t & Hr & Ht & ->). apply in_map_iff in Ht as (v & <- & _). now apply Hh.
    + intros m i j. unfold entry. rewrite zipw_nth. unfold const_arr. rewrite nth_error_map.
      assert (Ece : const_entry c m = nth_error c m) by (destruct c as [|v [|v' c]]; try reflexivity; now destruct N1). rewrite Ece.
      destruct (nth_error x m) as [r|]; [|reflexivity]. destruct (nth_error c m) as [v|]; cbn [option_map].
      * rewrite Hent. destruct (nth_error r i) as [s|]; reflexivity.
      * destruct (nth_error r i) as [s|]; [|reflexivity]. now destruct (nth_error s j).
Qed.

Lemma last_samples env lvl cid (g : gr) n : ordered g -> (forall b, In b (inputs (n_op n)) -> b < length g) ->
  samples K_eq env lvl cid (g ++ [n]) (length g) = eval_op K_eq env lvl cid (map n_type g) (eval_all K_eq env lvl cid g) (n_op n).
Proof.
  intros Hg Hn. assert (Hg' : ordered (g ++ [n])) by now apply ordered_app. rewrite (ordered_op K_eq _ _ _ _ _ n Hg') by apply nth_last.
  apply op_ext.
  - intros b Hb. apply (samples_app K_eq env lvl cid g [n] b Hg' Hg). auto.
  - intros b Hb. rewrite map_app, app_nth1; [reflexivity|]. rewrite map_length. auto.
Qed.

Lemma bin_value env lvl cid (g g' : gr) f a b x y : ordered g -> build K_eq g (CBin f a b) = Ok g' -> (from_storage g a \/ from_storage g b) ->
  samples K_eq env lvl cid g a = Ok (Num x) -> samples K_eq env lvl cid g b = Ok (Num y) ->
  samples K_eq env lvl cid g' (length g) = bind (bin f x y) (fun z => Ok (Num z)).
Proof.
  intros Hg H Hs Ex Ey. cbn [build] in H. destruct (numeric g a) as [na|] eqn:Ea; [|discriminate]. destruct (numeric g b) as [nb|] eqn:Eb; [|discriminate]. cbn [bind] in H.
  apply numeric_lt in Ea as [Ea Na]. apply numeric_lt in Eb as [Eb Nb].
  assert (Hc : is_const na = None \/ is_const nb = None).
  { destruct Hs as [Hs|Hs]; [left|right]; unfold from_storage, store_of in Hs; [rewrite Na in Hs|rewrite Nb in Hs]; unfold is_const.
    - destruct (n_op na); try reflexivity. congruence. - destruct (n_op nb); try reflexivity. congruence. }
  assert (G : forall t, new_quantity g t false (OBin f a b) = Ok g' -> samples K_eq env lvl cid g' (length g) = bind (bin f x y) (fun z => Ok (Num z))).
  { intros t E. apply new_quantity_app in E as (n & -> & Ho). rewrite last_samples; rewrite ?Ho; auto.
    - cbn [eval_op]. unfold samples in Ex, Ey. rewrite Ex, Ey. reflexivity.
    - intros z [<-|[<-|[]]]; auto. }
  destruct (is_const na), (is_const nb); eauto. destruct Hc; discriminate.
Qed.
Lemma un_value env lvl cid (g g' : gr) f a x : ordered g -> build K_eq g (CUn f a) = Ok g' ->
  samples K_eq env lvl cid g a = Ok (Num x) -> samples K_eq env lvl cid g' (length g) = Ok (Num (map (map (map f)) x)).
Proof.
  intros Hg H Ex. cbn [build] in H. destruct (numeric g a) as [na|] eqn:Ea; [|discriminate]. cbn [bind] in H. apply numeric_lt in Ea as [Ea Na].
  apply new_quantity_app in H as (n & -> & Ho). rewrite last_samples; rewrite ?Ho; auto.
  - cbn [eval_op]. unfold samples in Ex. rewrite Ex. reflexivity.
  - intros z [<-|[]]; auto.
Qed.
Lemma cmp_value env lvl cid (g g' : gr) f a b x y : ordered g -> build K_eq g (CCmp f a b) = Ok g' ->
  samples K_eq env lvl cid g a = Ok (Num x) -> samples K_eq env lvl cid g b = Ok (Num y) ->
  samples K_eq env lvl cid g' (length g) = bind (bin f x y) (fun z => bind (process_mask z) (fun m => Ok (Mask m))).
Proof.
  intros Hg H Ex Ey. cbn [build] in H. destruct (numeric g a) as [na|] eqn:Ea; [|discriminate]. destruct (numeric g b) as [nb|] eqn:Eb; [|discriminate]. cbn [bind] in H.
  apply numeric_lt in Ea as [Ea Na]. apply numeric_lt in Eb as [Eb Nb]. apply new_quantity_app in H as (n & -> & Ho). rewrite last_samples; rewrite ?Ho; auto.
  - cbn [eval_op]. unfold samples in Ex, Ey. rewrite Ex, Ey. reflexivity.
  - intros z [<-|[<-|[]]]; auto.
Qed.

Lemma forallb_nth {A} (p : A -> bool) l : forallb p l = true <-> forall j v, nth_error l j = Some v -> p v = true.
Proof.
  rewrite forallb_forall. split; intros H; [intros j v E; apply H; eapply nth_error_In; eauto|]. intros v Hv. apply In_nth_error in Hv as (j & E). eauto.
Qed.
Lemma process_mask_entry M N k (z : list (list (list bool))) : 0 < M -> length z = M ->
  (forall row, In row z -> length row = N /\ forall s, In s row -> length s = k) ->
  exists m, process_mask z = Ok m /\ length m = N /\ forall i, i < N -> (nth_error m i = Some true <-> forall c j v, entry z c i j = Some v -> v = true).
Proof.
  intros HM HL HR. destruct z as [|r z]; [cbn in HL; lia|]. destruct (HR r (or_introl eq_refl)) as [Lr _]. eexists. split; [reflexivity|].
  split; [now rewrite map_length, seq_length|]. intros i Hi. rewrite nth_error_map. rewrite nth_error_nth' with (d := 0) by (rewrite seq_length; lia).
  rewrite seq_nth by lia. cbn [option_map Nat.add].
  assert (E : forall b : bool, Some b = Some true <-> b = true) by (intros b; split; congruence). rewrite E. clear E. rewrite forallb_forall. split.
  - intros H c j v Ev. unfold entry in Ev. destruct (nth_error (r :: z) c) as [row|] eqn:Ec; [|discriminate].
    destruct (nth_error row i) as [s|] eqn:Es; [|discriminate]. assert (Hrow : In row (r :: z)) by (eapply nth_error_In; eauto). specialize (H row Hrow).
    rewrite (nth_error_nth _ _ [] Es) in H. rewrite forallb_forall in H. apply H. eapply nth_error_In; eauto.
  - intros H row Hrow. apply In_nth_error in Hrow as (c & Ec). apply forallb_forall. intros v Hv. apply In_nth_error in Hv as (j & Ej).
    apply (H c j v). unfold entry. rewrite Ec. assert (Hr : In row (r :: z)) by (eapply nth_error_In; eauto). destruct (HR row Hr) as [L _].
    rewrite nth_error_nth' with (d := []) by lia. exact Ej.
Qed.

(** ** Selection *)
Lemma mask_value env lvl cid (g g' : gr) f a b x y : ordered g -> new_mask g f a b = Ok g' -> length x = length y ->
  samples K_eq env lvl cid g a = Ok (Mask x) -> samples K_eq env lvl cid g b = Ok (Mask y) ->
  samples K_eq env lvl cid g' (length g) = Ok (Mask (zipw f x y)).
Proof.
  intros Hg H L Ex Ey. unfold new_mask in H. destruct (masked g a) as [na|] eqn:Ea; [|discriminate]. destruct (masked g b) as [nb|] eqn:Eb; [|discriminate].
  cbn [bind] in H. apply masked_lt in Ea as [Ea _]. apply masked_lt in Eb as [Eb _]. apply new_quantity_app in H as (n & -> & Ho). rewrite last_samples; rewrite ?Ho; auto.
  - cbn [eval_op]. unfold samples in Ex, Ey. rewrite Ex, Ey. cbn [mask_of bind]. rewrite (bcast_ok _ f) by auto. unfold compat. rewrite L, Nat.eqb_refl. cbn [orb bind].
    rewrite bz_eq by auto. reflexivity.
  - intros z [<-|[<-|[]]]; auto.
Qed.
Lemma ordered_lt env lvl cid (g : gr) a v : samples K_eq env lvl cid g a = Ok v -> a < length g.
Proof.
  intros H. destruct (Nat.lt_ge_cases a (length g)) as [|L]; auto. exfalso. unfold samples, at_ in H.
  destruct (evs_prefix K_eq env lvl cid (map n_type g) g []) as (l & E & E2). unfold eval_all in H. unfold evs in E. rewrite E in H. cbn in H. rewrite nth_overflow in H by lia. discriminate.
Qed.
Lemma zipw_fun (f : bool -> bool -> bool) N p q : zipw f (map p (seq 0 N)) (map q (seq 0 N)) = map (fun i => f (p i) (q i)) (seq 0 N).
Proof. induction (seq 0 N) as [|i l IH]; [reflexivity|]. cbn. now rewrite IH. Qed.
Lemma and_masks_value env lvl cid N ms : forall (g g' : gr) m m' c cs, ordered g -> and_masks g m ms = Ok (g', m') ->
  samples K_eq env lvl cid g m = Ok (Mask (map c (seq 0 N))) ->
  Forall2 (fun m c => samples K_eq env lvl cid g m = Ok (Mask (map c (seq 0 N)))) ms cs ->
  exists c', samples K_eq env lvl cid g' m' = Ok (Mask (map c' (seq 0 N))) /\ forall i, c' i = forallb (fun c => c i) (c :: cs).
Proof.
  induction ms as [|x ms IH]; intros g g' m m' c cs Hg H Hm Hms; inversion Hms as [|? cx ? cs' Hx Hms']; subst; cbn [and_masks] in H.
  - injection H as <- <-. exists c. split; auto. intros i. cbn. now rewrite Bool.andb_true_r.
  - destruct (new_mask g andb m x) as [g1|] eqn:E; [|discriminate]. cbn [bind] in H.
    assert (L : length (map c (seq 0 N)) = length (map cx (seq 0 N))) by (now rewrite !map_length).
    pose proof (mask_value env lvl cid g g1 andb m x _ _ Hg E L Hm Hx) as Ev. rewrite zipw_fun in Ev.
    destruct (new_mask_app _ _ _ _ _ Hg E) as (Hg1 & n & ->).
    destruct (IH _ _ _ _ _ cs' Hg1 H Ev) as (c' & E1 & E2).
    { clear - Hms' Hg Hg1. induction Hms' as [|y cy ms cs Ey H IH]; constructor; auto. rewrite samples_app; auto. eapply ordered_lt; eauto. }
    exists c'. split; auto. intros i. rewrite E2. cbn. now rewrite Bool.andb_assoc.
Qed.
Lemma keep_take {A} (d : A) (c : nat -> bool) (l : list A) : keep (map c (seq 0 (length l))) l = take d (filter c (seq 0 (length l))) l.
Proof.
  unfold keep, take. assert (G : forall l0 s, (forall i, i < length l0 -> nth (s + i) l d = nth i l0 d) ->
    map snd (filter fst (combine (map c (seq s (length l0))) l0)) = map (fun i => nth i l d) (filter c (seq s (length l0)))).
  { induction l0 as [|a l0 IH]; intros s Hs; [reflexivity|].
    assert (E : map snd (filter fst (combine (map c (seq (S s) (length l0))) l0)) = map (fun i => nth i l d) (filter c (seq (S s) (length l0)))).
    { apply IH. intros i Hi. specialize (Hs (S i) ltac:(cbn; lia)). replace (S s + i) with (s + S i) by lia. exact Hs. }
    specialize (Hs 0 ltac:(cbn; lia)). rewrite Nat.add_0_r in Hs. cbn in Hs. cbn [length seq map combine filter fst]. destruct (c s); cbn [map snd]; rewrite E; [|reflexivity]. now rewrite Hs. }
  apply G. reflexivity.
Qed.
Lemma select_value env lvl cid M N k (g g' : gr) a ms x cs : ordered g -> build K_eq g (CSelect a ms) = Ok g' ->
  samples K_eq env lvl cid g a = Ok (Num x) -> shaped M N k x ->
  Forall2 (fun m c => samples K_eq env lvl cid g m = Ok (Mask (map c (seq 0 N)))) ms cs ->
  samples K_eq env lvl cid g' (length g' - 1) = Ok (Num (map (take [] (kept N cs)) x)).
Proof.
  intros Hg H Hx Hsh Hms. cbn [build] in H. destruct (numeric g a) as [na|] eqn:Ea; [|discriminate]. cbn [bind] in H. apply numeric_lt in Ea as [Ea _].
  destruct ms as [|m ms]; [discriminate|]. destruct (mapM (masked g) (m :: ms)) as [ns|] eqn:Em; [|discriminate]. cbn [bind] in H.
  inversion Hms as [|? c ? cs' Hm Hms']; subst.
  destruct (and_masks g m ms) as [[g1 m']|] eqn:E1; [|discriminate]. cbn [bind fst snd] in H.
  destruct (and_masks_value env lvl cid N ms g g1 m m' c cs' Hg E1 Hm Hms') as (c' & Ec & Ec').
  assert (Hml : m < length g) by (eapply ordered_lt; eauto). destruct (and_masks_app _ _ _ _ _ Hg Hml E1) as (Hg1 & Hm' & l1 & ->).
  destruct (new_quantity (g ++ l1) (n_type na) false (OSelect a m')) as [g2|] eqn:E2; [|discriminate]. cbn [bind] in H.
  apply new_quantity_app in E2 as (n & -> & Ho). rewrite upd_last in H. injection H as <-.
  assert (El : forall n0 : node K V, length ((g ++ l1) ++ [n0]) - 1 = length (g ++ l1)) by (intros n0; rewrite (app_length (g ++ l1)); cbn; lia).
  rewrite El, last_samples; cbn [n_op]; rewrite ?Ho; auto.
  - cbn [eval_op]. assert (Hx' := samples_app K_eq env lvl cid g l1 a Hg1 Hg Ea). unfold samples in Hx', Hx, Ec. rewrite Hx', Hx, Ec. cbn [num_of mask_of bind].
    assert (Es : select_op x (map c' (seq 0 N)) = Ok (map (take [] (kept N (c :: cs'))) x)).
    { unfold select_op. apply mapM_ok. intros row Hrow. destruct Hsh as [_ Hsh]. destruct (Hsh row Hrow) as [L _]. rewrite map_length, seq_length, L, Nat.eqb_refl.
      rewrite <- L, (keep_take []). unfold kept. f_equal. f_equal. apply filter_ext. exact Ec'. }
    rewrite Es. reflexivity.
  - intros z [<-|[<-|[]]]; auto. rewrite app_length. lia.
Qed.

(** ** Selections are not mixed *)
Lemma chunk_splits k (env : nat -> arr V) : (forall r, exists M N, shaped M N k (env r)) -> splits k env env (fun r => beside (env r) (env r)).
Proof. intros H r. destruct (H r) as (M & N & S0). exists M, N, N. auto. Qed.
Lemma same_columns k env lvl cid (g : gr) a b s va vb n1 n2 : graph_inv g -> (forall r, exists M N, shaped M N k (env r)) ->
  selection_id g a = Some (Obj s) -> selection_id g b = Some (Obj s) ->
  samples K_eq env lvl cid g a = Ok va -> samples K_eq env lvl cid g b = Ok vb -> columns va n1 -> columns vb n2 -> n1 = n2.
Proof.
  intros Hg He Sa Sb Ea Eb Ca Cb.
  assert (G : forall a v n, selection_id g a = Some (Obj s) -> samples K_eq env lvl cid g a = Ok v -> columns v n -> n = width (samples K_eq env lvl cid g s)).
  { clear - Hg He. intros a v n Sa Ea Ca. destruct (claims K_eq k env env _ lvl cid g (chunk_splits k env He) Hg a (ordered_lt _ _ _ _ _ _ Ea)) as [_ H].
    destruct (sid_obj _ _ _ Hg Sa) as (_ & Hs & _ & _). specialize (H s Hs Sa). rewrite Ea in H.
    destruct H as [(e & C & _)|[(ps & Hp & E1 & _)|(m1 & m2 & L1 & _ & E1 & _)]]; [discriminate| |].
    - injection E1 as ->. destruct ps as [|p ps]; [destruct Ca|]. cbn in Ca. inversion_clear Hp as [|? ? [[A1 _] _] _]. congruence.
    - injection E1 as ->. cbn in Ca. congruence. }
  rewrite (G a va n1), (G b vb n2); auto.
Qed.

(** Construction succeeds only when the operands from stored data belong to one selection. *)
Definition one_sid (g : gr) (l : list nat) : Prop := exists s, forall b, In b l -> from_storage g b -> selection_id g b = Some (Obj s).
Lemma new_quantity_sid (g g' : gr) t mask o : graph_inv g -> (forall b, In b (inputs o) -> b < length g) -> new_quantity g t mask o = Ok g' ->
  exists sel, (forall b, In b (inputs o) -> from_storage g b -> selection_id g b = sel)
  /\ ((exists b, In b (inputs o) /\ selection_id g b <> None) -> exists n, g' = g ++ [n] /\ n_sel n = sel).
Proof.
  intros Hg Hi H. unfold new_quantity in H. destruct (set_selection_id g (inputs o) None) as [sel|] eqn:E; [|discriminate]. cbn [bind] in H.
  destruct (check_selection_ids _ _ _ _); [|discriminate]. injection H as <-. destruct (set_sel_none _ _ _ E) as [[-> H2]|(s & -> & H2 & b0 & Hb0 & E0)].
  - exists None. split; [intros b Hb _; auto|]. intros (b & Hb & N). destruct (N (H2 b Hb)).
  - exists (Some s). split.
    + intros b Hb Hs. destruct (H2 b Hb) as [C|C]; auto. exfalso. apply Hs. apply const_store. apply sid_none_const; auto.
    + intros _. eexists. split; reflexivity.
Qed.
Lemma storage_sid (g : gr) b : graph_inv g -> from_storage g b -> exists s, selection_id g b = Some (Obj s).
Proof.
  intros Hg Hs. destruct (nth_error g b) as [n|] eqn:En.
  - pose proof (ni_sid _ _ _ (Hg _ _ En)) as H. destruct (selection_id g b) as [[s|]|] eqn:E; [eauto|contradiction (Hs H)|].
    destruct H as [c Hc]. exfalso. apply Hs. apply const_store. exists n, c. auto.
  - exfalso. apply Hs. unfold store_of. now rewrite En.
Qed.
Lemma pair_sid (g : gr) l a b (sel : option oid) : (forall b, In b l -> from_storage g b -> selection_id g b = sel) ->
  In a l -> In b l -> from_storage g a -> from_storage g b -> selection_id g a = selection_id g b.
Proof. intros H Ha Hb Sa Sb. rewrite (H a), (H b); auto. Qed.

Lemma new_mask_sid (g g' : gr) f a b : graph_inv g -> new_mask g f a b = Ok g' -> from_storage g a ->
  selection_id g b = selection_id g a \/ ~ from_storage g b.
Proof.
  intros Hg H Sa. unfold new_mask in H. destruct (masked g a) as [na|] eqn:Ea; [|discriminate]. destruct (masked g b) as [nb|] eqn:Eb; [|discriminate].
  cbn [bind] in H. apply masked_lt in Ea as [Ea _]. apply masked_lt in Eb as [Eb _].
  assert (Hi : forall x, In x (inputs (@OMask K V f a b)) -> x < length g) by (intros x [<-|[<-|[]]]; auto).
  destruct (new_quantity_sid _ _ _ _ _ Hg Hi H) as (sel & H1 & _).
  destruct (store_of g b) eqn:Es; [left|right; unfold from_storage; congruence].
  rewrite (H1 a), (H1 b); cbn; auto. unfold from_storage. congruence.
Qed.
Lemma new_mask_new (g g' : gr) f a b : graph_inv g -> new_mask g f a b = Ok g' ->
  (from_storage g a -> from_storage g' (length g) /\ selection_id g' (length g) = selection_id g a)
  /\ (from_storage g b -> from_storage g' (length g) /\ selection_id g' (length g) = selection_id g b).
Proof.
  intros Hg H. pose proof H as H0. unfold new_mask in H. destruct (masked g a) as [na|] eqn:Ea; [|discriminate]. destruct (masked g b) as [nb|] eqn:Eb; [|discriminate].
  cbn [bind] in H. apply masked_lt in Ea as [Ea _]. apply masked_lt in Eb as [Eb _].
  assert (Hi : forall x, In x (inputs (@OMask K V f a b)) -> x < length g) by (intros x [<-|[<-|[]]]; auto).
  destruct (new_quantity_inv _ _ _ _ _ Hg H Hi ltac:(discriminate) ltac:(discriminate)) as (n & -> & Ho & Hst & Hcase).
  assert (G : forall x, In x [a; b] -> from_storage g x -> from_storage (g ++ [n]) (length g) /\ selection_id (g ++ [n]) (length g) = selection_id g x).
  { intros x Hx Sx. cbn [inputs] in *. destruct Hcase as [(_ & _ & C)|[(_ & C)|(s & r & Es & Er & A1 & A2 & A3 & A4)]].
    - exfalso. apply Sx. now apply const_store, C.
    - exfalso. apply Sx. now apply (first_store_none g [a; b]).
    - destruct (A4 x Hx) as [C|[C1 C2]]; [exfalso; apply Sx; now apply const_store|]. unfold from_storage. rewrite last_store, last_sid, Es, Hst, Er by (rewrite Ho; discriminate).
      split; [discriminate|congruence]. }
  split; apply G; cbn; auto.
Qed.

Lemma and_masks_sid ms : forall (g g' : gr) m m', graph_inv g -> m < length g -> and_masks g m ms = Ok (g', m') ->
  forall x y, In x (m :: ms) -> In y (m :: ms) -> from_storage g x -> from_storage g y ->
  selection_id g x = selection_id g y /\ from_storage g' m' /\ selection_id g' m' = selection_id g x.
Proof.
  induction ms as [|z ms IH]; intros g g' m m' Hg Hm H x y Hx Hy Sx Sy; cbn in H.
  - injection H as <- <-. destruct Hx as [<-|[]], Hy as [<-|[]]. auto.
  - destruct (new_mask g andb m z) as [g1|] eqn:E; [|discriminate]. cbn [bind] in H.
    destruct (new_mask_new _ _ _ _ _ Hg E) as [N1 N2]. destruct (new_mask_inv _ _ _ _ _ Hg E) as (Hg1 & L1 & l & ->).
    assert (Hlt : forall b, from_storage g b -> b < length g).
    { intros b Sb. destruct (Nat.lt_ge_cases b (length g)); auto. exfalso. apply Sb. unfold store_of. rewrite (proj2 (nth_error_None g b)); auto. }
    assert (IH' := fun x y => IH (g ++ l) g' (length g) m' Hg1 ltac:(lia) H x y). cbn [In] in IH'.
    assert (G : forall u, In u (m :: z :: ms) -> from_storage g u ->
       exists u', (length g = u' \/ In u' ms) /\ from_storage (g ++ l) u' /\ selection_id (g ++ l) u' = selection_id g u).
    { intros u [<-|[<-|Hu]] Su.
      - exists (length g). destruct (N1 Su) as [A B]. auto.
      - exists (length g). destruct (N2 Su) as [A B]. auto.
      - exists u. ands; auto; [unfold from_storage; rewrite store_app; auto|rewrite sid_app; auto]. }
    destruct (G x Hx Sx) as (x' & Ix & Fx & Ex). destruct (G y Hy Sy) as (y' & Iy & Fy & Ey).
    destruct (IH' x' y' Ix Iy Fx Fy) as (A & B & C). ands; auto; congruence.
Qed.

Lemma operands_sid (g g' : gr) c : graph_inv g -> build K_eq g c = Ok g' -> forall a b, In a (operands c) -> In b (operands c) ->
  from_storage g a -> from_storage g b -> selection_id g a = selection_id g b.
Proof.
  intros Hg H x y Hx Hy Sx Sy.
  assert (Hlt : forall b, from_storage g b -> b < length g).
  { intros b Sb. destruct (Nat.lt_ge_cases b (length g)); auto. exfalso. apply Sb. unfold store_of. rewrite (proj2 (nth_error_None g b)); auto. }
  assert (G : forall t mask o, new_quantity g t mask o = Ok g' -> (forall b, In b (inputs o) -> b < length g) -> In x (inputs o) -> In y (inputs o) -> selection_id g x = selection_id g y).
  { intros t mask o E Hi Ix Iy. destruct (new_quantity_sid _ _ _ _ _ Hg Hi E) as (sel & H1 & _). rewrite (H1 x), (H1 y); auto. }
  destruct c; cbn [operands] in Hx, Hy; try contradiction;
    try (destruct Hx as [<-|[]], Hy as [<-|[]]; reflexivity); cbn [build] in H.
  - destruct (numeric g a) as [na|] eqn:Ea; [|discriminate]. destruct (numeric g b) as [nb|] eqn:Eb; [|discriminate]. cbn [bind] in H.
    apply numeric_lt in Ea as [Ea Na]. apply numeric_lt in Eb as [Eb Nb].
    assert (Hi : forall z, In z (inputs (@OBin K V f a b)) -> z < length g) by (intros z [<-|[<-|[]]]; auto).
    destruct (is_const na) as [ca|] eqn:Ca, (is_const nb) as [cb|] eqn:Cb; try (eapply G; eauto; fail).
    discriminate.
  - destruct (mapM (numeric g) parts) as [ns|] eqn:Ea; [|discriminate]. cbn [bind] in H. destruct (mk _) as [t|]; [|discriminate]. cbn [bind] in H.
    eapply G; eauto. eapply mapM_numeric; eauto. intros b n E. now apply numeric_lt in E.
  - destruct (numeric g a) as [na|] eqn:Ea; [|discriminate]. destruct (numeric g b) as [nb|] eqn:Eb; [|discriminate]. cbn [bind] in H.
    apply numeric_lt in Ea as [Ea Na]. apply numeric_lt in Eb as [Eb Nb]. eapply G; eauto. intros z [<-|[<-|[]]]; auto.
  - unfold new_mask in H. destruct (masked g a) as [na|] eqn:Ea; [|discriminate]. destruct (masked g b) as [nb|] eqn:Eb; [|discriminate].
    cbn [bind] in H. apply masked_lt in Ea as [Ea _]. apply masked_lt in Eb as [Eb _]. eapply G; eauto. intros z [<-|[<-|[]]]; auto.
  - destruct (numeric g a) as [na|] eqn:Ea; [|discriminate]. cbn [bind] in H. apply numeric_lt in Ea as [Ea _].
    destruct ms as [|m ms]; [discriminate|]. destruct (mapM (masked g) (m :: ms)) as [ns|] eqn:Em; [|discriminate]. cbn [bind] in H.
    assert (Hm : m < length g) by (eapply (mapM_numeric g (@masked K V)); [intros b n E; apply masked_lt in E; apply E|exact Em|now left]).
    destruct (and_masks g m ms) as [[g1 m']|] eqn:E1; [|discriminate]. cbn [bind fst snd] in H.
    pose proof (and_masks_sid ms g g1 m m' Hg Hm E1) as HA. destruct (and_masks_inv _ _ _ _ _ Hg Hm E1) as (Hg1 & Hm' & l1 & ->).
    destruct (new_quantity (g ++ l1) (n_type na) false (OSelect a m')) as [g2|] eqn:E2; [|discriminate]. cbn [bind] in H.
    assert (Hi : forall z, In z (inputs (@OSelect K V a m')) -> z < length (g ++ l1)) by (intros z [<-|[<-|[]]]; [rewrite app_length; lia|auto]).
    destruct (new_quantity_sid _ _ _ _ _ Hg1 Hi E2) as (sel & H1 & _).
    assert (G' : forall u, In u (m :: ms) -> from_storage g u -> from_storage g a -> selection_id g u = selection_id g a).
    { intros u Hu Su Sa. destruct (HA u u Hu Hu Su Su) as (_ & B & C). rewrite <- C. rewrite <- (sid_app g l1 a) by auto.
      rewrite (H1 m'), (H1 a); cbn; auto. unfold from_storage. rewrite store_app by auto. exact Sa. }
    destruct Hx as [<-|Hx], Hy as [<-|Hy]; auto.
    + symmetry. apply G'; auto.
    + destruct (HA x y Hx Hy Sx Sy) as (A & _). exact A.
Qed.

Lemma differ_raises (g : gr) c a b : built K_eq g -> In a (operands c) -> In b (operands c) -> from_storage g a -> from_storage g b ->
  differ K_eq g a b -> exists e, build K_eq g c = Err e.
Proof.
  intros Hb Ia Ib Sa Sb Hd. pose proof (built_inv K_eq g Hb) as Hg. destruct (build K_eq g c) as [g'|e] eqn:E; [|eauto]. exfalso.
  pose proof (operands_sid g g' c Hg E a b Ia Ib Sa Sb) as Hs. destruct (storage_sid g a Hg Sa) as [s Es].
  assert (Es' : selection_id g b = Some (Obj s)) by congruence.
  destruct Hd as [D|(env & k & lvl & cid & va & vb & n1 & n2 & He & Ea & Eb & Ca & Cb & N)].
  - destruct (sid_obj _ _ _ Hg Es) as (_ & _ & A & _). destruct (sid_obj _ _ _ Hg Es') as (_ & _ & B & _). congruence.
  - apply N. exact (same_columns k env lvl cid g a b s va vb n1 n2 Hg He Es Es' Ea Eb Ca Cb).
Qed.

(** The value of a quantity depends on the data of its own root only. *)
Lemma own_root env env' lvl cid (g : gr) a s : graph_inv g -> store_of g a = Some s ->
  (forall n r, nth_error g s = Some n -> n_op n = ORoot r -> env r = env' r) -> samples K_eq env lvl cid g a = samples K_eq env' lvl cid g a.
Proof.
  intros Hg Hs He. revert Hs. induction a as [a IH] using lt_wf_ind. intros Hs.
  destruct (nth_error g a) as [n|] eqn:En; [|unfold store_of in Hs; rewrite En in Hs; discriminate].
  rewrite !(samples_op K_eq _ _ _ _ _ _ Hg En). pose proof (Hg _ _ En) as NI.
  destruct (ni_some _ _ _ NI ltac:(congruence)) as [[r Hr]|(s0 & Hin & Hex & _)].
  - assert (s = a) by (unfold store_of in Hs; rewrite En, Hr in Hs; congruence). subst s. rewrite Hr. cbn. now rewrite (He n r).
  - apply eval_op_ext.
    + intros b Hb. destruct (Hin b Hb) as [C|[C1 C2]].
      * destruct (const_value K_eq lvl cid g Hg b env C) as (c1 & A1 & B1). destruct (const_value K_eq lvl cid g Hg b env' C) as (c2 & A2 & B2).
        unfold samples in B1, B2. rewrite B1, B2. rewrite A1 in A2. congruence.
      * apply IH; [eapply ni_inputs; eauto|congruence].
    + intros r Hr. exfalso. rewrite Hr in Hex. destruct Hex as (b & [] & _).
Qed.
End Facts.
