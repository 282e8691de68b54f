(** The number of components of a quantity against the size of its type. *)
From Verif Require Import Base BaseFacts QTypeModel QTypeProofs QuantityModel QuantitySpec QuantityProofs QuantityGraph QuantityCacheProofs QuantityFacts.

Section Size.
Context {K V : Type} (K_eq : forall a b : K, {a = b} + {a <> b}).
Notation gr := (graph K V).

(** * Specification *)
(** The size of the type of an object. *)
Definition sz (g : gr) (b : nat) : nat := match nth_error g b with Some n => size (n_type n) | None => 0 end.
(** Operand b can be combined with a without changing the number of components. *)
Definition fits (g : gr) (a b : nat) : Prop := sz g b = sz g a \/ sz g b = 1.
Definition constant_at (g : gr) (a : nat) : bool :=
  match nth_error g a with Some n => match n_op n with OConst _ => true | _ => false end | None => false end.
(** Commands that keep sizes: in arithmetic the operand that does not give the type has as many components or one; the
    type of a composed quantity is as large as the parts together. *)
Definition sensible (g : gr) (c : cmd K V) : Prop :=
  match c with
  | CBin _ a b => if constant_at g a then fits g b a else fits g a b
  | CConcat mk ps => forall ns t, mapM (numeric g) ps = Ok ns -> mk (map n_type ns) = Ok t -> size t = list_sum (map (sz g) ps)
  | _ => True
  end.
(** Besides, comparisons have operands with components, of the same number or one; arrays that are indexed have single
    numbers as entries. *)
Definition careful (g : gr) (c : cmd K V) : Prop :=
  plain g c /\ sensible g c /\
  match c with
  | CCmp _ a b => 0 < sz g a /\ 0 < sz g b /\ (fits g a b \/ fits g b a)
  | CItem (Index _) a => match nth_error g a with Some n => match n_type n with QArray _ q => size q = 1 | _ => True end | None => True end
  | _ => True
  end.
(** The objects a program of such commands builds. *)
Inductive made (P : gr -> cmd K V -> Prop) : gr -> Prop :=
| made_nil : made P []
| made_step g c g' : made P g -> P g c -> build K_eq g c = Ok g' -> made P g'.
(** Stored chunks have the components their root quantity declares. *)
Definition declared (g : gr) (env : nat -> arr V) : Prop :=
  forall a n r, nth_error g a = Some n -> n_op n = ORoot r -> length (env r) = size (n_type n).

(** * Lengths *)
Lemma mapM_length {A B} (f : A -> res B) l : forall r, mapM f l = Ok r -> length r = length l.
Proof.
  induction l as [|a l IH]; cbn; intros r H; [injection H as <-; reflexivity|].
  apply bind_ok in H as (y & _ & H). apply bind_ok in H as (ys & E & H). injection H as <-. cbn. f_equal. auto.
Qed.
Lemma mapM2_length {A B C} (f : A -> B -> res C) x : forall y r, length x = length y -> mapM2 f x y = Ok r -> length r = length x.
Proof.
  induction x as [|a x IH]; intros [|b y] r L H; try discriminate; cbn in H; [injection H as <-; reflexivity|].
  apply bind_ok in H as (c & _ & H). apply bind_ok in H as (cs & E & H). injection H as <-. cbn. f_equal. eapply IH; eauto.
Qed.
Lemma bcast_length {A B C} (f : A -> B -> res C) x y r : bcast f x y = Ok r -> length y = length x \/ length y = 1 -> length r = length x.
Proof.
  unfold bcast. intros H L. destruct (Nat.eqb_spec (length x) (length y)) as [E|N]; [eapply mapM2_length; eauto|].
  destruct L as [L|L]; [congruence|]. destruct y as [|b [|b' y]]; try discriminate. destruct x as [|a [|a' x]].
  - injection H as <-. reflexivity.
  - destruct (N eq_refl).
  - now apply mapM_length in H.
Qed.
Lemma bcast_length_r {A B C} (f : A -> B -> res C) x y r : bcast f x y = Ok r -> length x = length y \/ length x = 1 -> length r = length y.
Proof.
  unfold bcast. intros H L. destruct (Nat.eqb_spec (length x) (length y)) as [E|N]; [rewrite <- E; eapply mapM2_length; eauto|].
  destruct L as [L|L]; [congruence|]. destruct x as [|b [|b' x]]; try discriminate. now apply mapM_length in H.
Qed.

Lemma positions_lt n s ps : positions n s = Some ps -> forall p, In p ps -> p < n.
Proof.
  unfold positions, norm_at, norm_bound. intros H p Hp. destruct s as [i|a b].
  - destruct ((0 <=? _) && (_ <? Z.of_nat n))%Z%bool eqn:E in H; [|discriminate]. cbn in H. injection H as <-. destruct Hp as [<-|[]].
    apply andb_prop in E as [E1 E2]. apply Z.leb_le in E1. apply Z.ltb_lt in E2. lia.
  - injection H as <-. apply in_seq in Hp. destruct a, b; lia.
Qed.
Lemma select_rows_length {R} ix : forall shape sh (rows out : list R), length rows = prod shape -> new_shape shape ix = Ok sh ->
  select_rows shape ix rows = Ok out -> length out = prod sh.
Proof.
  induction ix as [|s ix IH]; intros shape sh rows out L Hn Hs; destruct shape as [|n shape]; cbn [new_shape select_rows] in Hn, Hs; try discriminate.
  - injection Hn as <-; injection Hs as <-; exact L.
  - injection Hn as <-; injection Hs as <-; exact L.
  - destruct (positions n s) as [ps|] eqn:Ep; [|discriminate].
    apply bind_ok in Hn as (sh' & Hn & E). assert (E2 : sh = match s with At _ => sh' | Range _ _ => length ps :: sh' end) by congruence. clear E. subst sh.
    assert (G : forall qs, (forall p, In p qs -> p < n) -> forall out, fold_right (fun p acc => bind acc (fun a =>
              bind (select_rows shape ix (firstn (prod shape) (skipn (p * prod shape) rows))) (fun r => Ok (r ++ a)))) (Ok []) qs = Ok out ->
              length out = length qs * prod sh').
    { induction qs as [|p qs IHq]; intros Hq o Ho; cbn in Ho; [injection Ho as <-; reflexivity|].
      apply bind_ok in Ho as (a & Ha & Ho). apply bind_ok in Ho as (r & Hr & Ho). injection Ho as <-. rewrite app_length. cbn [length Nat.mul].
      assert (Lr : length r = prod sh') by (eapply IH; [|exact Hn|exact Hr]; eapply block_length; [exact L|apply Hq; now left]). rewrite Lr.
      rewrite (IHq (fun p H => Hq p (or_intror H)) a Ha). reflexivity. }
    rewrite (G ps (positions_lt _ _ _ Ep) out Hs). destruct s as [i|a b]; [|reflexivity].
    unfold positions in Ep. destruct (norm_at n i); cbn in Ep; [|discriminate]. injection Ep as <-. cbn. lia.
Qed.
Lemma select_rows_total {R} ix : forall shape sh (rows : list R), new_shape shape ix = Ok sh -> exists out, select_rows shape ix rows = Ok out.
Proof.
  induction ix as [|s ix IH]; intros shape sh rows Hn; destruct shape as [|n shape]; cbn [new_shape select_rows] in *; try discriminate; eauto.
  destruct (positions n s) as [ps|]; [|discriminate]. apply bind_ok in Hn as (sh' & Hn & _).
  induction ps as [|p ps IHp]; cbn; [eauto|]. destruct IHp as [a ->]. cbn [bind].
  destruct (IH shape sh' (firstn (prod shape) (skipn (p * prod shape) rows)) Hn) as [r ->]. cbn. eauto.
Qed.
Lemma pget_sum items k (q : qtype K) : pget K_eq items k = Some q -> dict_start K_eq k items + size q <= list_sum (map (fun x => size (snd x)) items).
Proof.
  induction items as [|[k' q'] r IH]; cbn [pget dict_start map snd]; [discriminate|].
  change (list_sum (size q' :: map (fun x => size (snd x)) r)) with (size q' + list_sum (map (fun x : K * qtype K => size (snd x)) r)).
  destruct (K_eq k' k); intros H; [injection H as ->; lia|]. specialize (IH H). lia.
Qed.
Lemma getitem_length {R} (t q : qtype K) s k (rows out : list R) : length rows = size t -> get_key K_eq t k = Ok (q, s) ->
  getitem_rows K_eq t k rows = Ok out -> length out = size q.
Proof.
  intros L Hk H. unfold getitem_rows in H. rewrite Hk in H. cbn [bind fst snd] in H.
  destruct t as [| |shape t|times t|keys t|items], k as [k|ix]; cbn [get_key] in Hk; try discriminate.
  - apply bind_ok in Hk as (sh & Hn & E). destruct (Nat.eqb_spec (length rows) (prod shape)) as [Er|]; [|discriminate].
    pose proof (select_rows_length _ _ _ _ _ Er Hn H) as Lo. cbn [size] in L.
    destruct (Nat.eq_dec (prod shape) 0) as [Z0|Z0].
    + rewrite Z0 in Er. destruct rows; [|discriminate]. assert (Eo : out = []).
      { destruct out as [|o out]; [reflexivity|]. destruct (select_rows_incl _ _ _ _ H o (or_introl eq_refl)). }
      subst out. cbn in Lo. destruct sh as [|m [|m' sh]].
      * discriminate. * destruct m as [|[|m]]; cbn in Lo, E; [|discriminate|discriminate]; injection E as <- <-; reflexivity.
      * assert (E' : q = QArray (m :: m' :: sh) t) by (destruct m as [|[|m]]; congruence). subst q. cbn [length size]. rewrite <- Lo. reflexivity.
    + assert (Eq : size t = 1) by nia. rewrite Lo. destruct sh as [|m [|m' sh]].
      * injection E as <- <-. cbn. lia.
      * destruct m as [|[|m]]; injection E as <- <-; cbn [size prod fold_right]; rewrite ?Eq; lia.
      * assert (E' : q = QArray (m :: m' :: sh) t) by (destruct m as [|[|m]]; congruence). subst q. cbn [size]. rewrite Eq. lia.
  - destruct (index_of K_eq k times) as [p|] eqn:Ei; [|discriminate]. injection Hk as <- <-. injection H as <-. apply index_of_lt in Ei as [Hp _].
    rewrite firstn_length, skipn_length, L. cbn [size]. nia.
  - destruct (index_of K_eq k keys) as [p|] eqn:Ei; [|discriminate]. injection Hk as <- <-. injection H as <-. apply index_of_lt in Ei as [Hp _].
    rewrite firstn_length, skipn_length, L. cbn [size]. nia.
  - destruct (pget K_eq items k) as [p|] eqn:Ei; [|discriminate]. injection Hk as <- <-. injection H as <-. apply pget_sum in Ei.
    rewrite firstn_length, skipn_length, L. cbn [size]. lia.
Qed.
Lemma moments_length r (ev : V -> list V) d bottom (rows : arr V) : length (moments_rows r ev d bottom rows) = r * length rows.
Proof.
  unfold moments_rows. destruct bottom.
  - induction rows as [|row rows IH]; cbn; [lia|]. rewrite app_length, IH, map_length, seq_length. lia.
  - assert (G : forall l, length (flat_map (fun j => map (map (map (fun v => nth j (ev v) d))) rows) l) = length l * length rows).
    { induction l as [|j l IH]; cbn; [reflexivity|]. rewrite app_length, IH, map_length. reflexivity. }
    rewrite G, seq_length. reflexivity.
Qed.
Lemma concat_op_length (parts : list (arr V)) y : concat_op parts = Ok y -> length y = list_sum (map (@length _) parts).
Proof.
  unfold concat_op. assert (E : length (concat parts) = list_sum (map (@length _) parts)).
  { induction parts as [|p ps IH]; cbn; [reflexivity|]. now rewrite app_length, IH. }
  destruct (concat parts) as [|r l]; [intros H; injection H as <-; exact E|]. destruct (forallb _ _); [|discriminate]. intros H. injection H as <-. exact E.
Qed.

(** * Sizes along a program *)
Definition kind (g : gr) (b : nat) (m : bool) : Prop := exists n, nth_error g b = Some n /\ n_mask n = m.
Definition typed (g : gr) (n : node K V) : Prop :=
  let t := n_type n in
  match n_op n with
  | ORoot _ => n_mask n = false
  | OConst c => n_mask n = false /\ size t = length c
  | OBin _ a b => n_mask n = false /\ kind g a false /\ kind g b false
                  /\ ((size t = sz g a /\ fits g a b) \/ (size t = sz g b /\ fits g b a))
  | OUn _ a | OSub _ a => n_mask n = false /\ kind g a false /\ size t = sz g a
  | OItem k a => n_mask n = false /\ exists na s, nth_error g a = Some na /\ n_mask na = false /\ get_key K_eq (n_type na) k = Ok (t, s)
  | OConcat ps => n_mask n = false /\ (forall p, In p ps -> kind g p false) /\ size t = list_sum (map (sz g) ps)
  | OMoments r _ _ _ a => n_mask n = false /\ kind g a false /\ size t = r * sz g a
  | OCmp _ a b => n_mask n = true /\ kind g a false /\ kind g b false
  | OMask _ a b => n_mask n = true /\ kind g a true /\ kind g b true
  | OSelect a m => n_mask n = false /\ kind g a false /\ kind g m true /\ size t = sz g a
  end.
Definition sizes (g : gr) : Prop := ordered g /\ forall a n, nth_error g a = Some n -> typed g n.

Lemma sz_app (g : gr) l b : b < length g -> sz (g ++ l) b = sz g b.
Proof. intros H. unfold sz. now rewrite nth_app_lt. Qed.
Lemma kind_app (g : gr) l b m : kind g b m -> kind (g ++ l) b m.
Proof. intros (n & E & H). exists n. split; auto. rewrite nth_app_lt; auto. apply nth_error_Some. congruence. Qed.
Lemma kind_lt (g : gr) b m : kind g b m -> b < length g.
Proof. intros (n & E & _). apply nth_error_Some. congruence. Qed.
Lemma sum_app (g : gr) l ps : (forall p, In p ps -> p < length g) -> map (sz (g ++ l)) ps = map (sz g) ps.
Proof. intros H. apply map_ext_in. intros p Hp. now apply sz_app, H. Qed.
Lemma typed_app (g : gr) l n : typed g n -> typed (g ++ l) n.
Proof.
  unfold typed, fits. destruct (n_op n); auto.
  - intros (H1 & H2 & H3 & H4). rewrite !sz_app by (eapply kind_lt; eauto). ands; auto using kind_app.
  - intros (H1 & H2 & H3). rewrite !sz_app by (eapply kind_lt; eauto). ands; auto using kind_app.
  - intros (H1 & na & s & H2 & H3). split; auto. exists na, s. rewrite nth_app_lt; [auto|]. apply nth_error_Some. congruence.
  - intros (H1 & H2 & H3). rewrite sum_app by (intros p Hp; eapply kind_lt; eauto). ands; auto using kind_app.
  - intros (H1 & H2 & H3). rewrite !sz_app by (eapply kind_lt; eauto). ands; auto using kind_app.
  - intros (H1 & H2 & H3). ands; auto using kind_app.
  - intros (H1 & H2 & H3). ands; auto using kind_app.
  - intros (H1 & H2 & H3 & H4). rewrite !sz_app by (eapply kind_lt; eauto). ands; auto using kind_app.
  - intros (H1 & H2 & H3). rewrite !sz_app by (eapply kind_lt; eauto). ands; auto using kind_app.
Qed.
Lemma typed_last (g : gr) n : (forall a m, nth_error g a = Some m -> typed g m) -> typed g n ->
  forall a m, nth_error (g ++ [n]) a = Some m -> typed (g ++ [n]) m.
Proof.
  intros Hg Hn a m E. destruct (Nat.lt_ge_cases a (length g)) as [L|L].
  - rewrite nth_app_lt in E by auto. apply typed_app. eauto.
  - rewrite nth_error_app2 in E by auto. destruct (a - length g) as [|i]; cbn in E; [injection E as <-; now apply typed_app|destruct i; discriminate].
Qed.
Lemma new_quantity_node (g g' : gr) t mask o : new_quantity g t mask o = Ok g' -> exists st sl, g' = g ++ [mkNode o t mask st sl].
Proof.
  unfold new_quantity. destruct (set_selection_id _ _ _); [|discriminate]. cbn [bind]. destruct (check_selection_ids _ _ _ _); [|discriminate].
  intros H. injection H as <-. eauto.
Qed.
Lemma numeric_kind (g : gr) a n : numeric g a = Ok n -> kind g a false /\ nth_error g a = Some n /\ sz g a = size (n_type n).
Proof.
  unfold numeric, kind, sz. destruct (nth_error g a) as [m|] eqn:E; [|discriminate]. destruct (n_mask m) eqn:Em; [discriminate|].
  intros H. injection H as ->. ands; eauto.
Qed.
Lemma masked_kind (g : gr) a n : masked g a = Ok n -> kind g a true.
Proof.
  unfold masked, kind. destruct (nth_error g a) as [m|] eqn:E; [|discriminate]. destruct (n_mask m) eqn:Em; [|discriminate]. eauto.
Qed.
Lemma and_masks_typed ms : forall (g : gr) m g' m', (forall a n, nth_error g a = Some n -> typed g n) -> kind g m true -> and_masks g m ms = Ok (g', m') ->
  (forall a n, nth_error g' a = Some n -> typed g' n) /\ kind g' m' true /\ exists l, g' = g ++ l.
Proof.
  induction ms as [|x ms IH]; intros g m g' m' Hg Hm H; cbn [and_masks] in H.
  - injection H as <- <-. ands; auto. exists []. now rewrite app_nil_r.
  - apply bind_ok in H as (g1 & H1 & H). unfold new_mask in H1. apply bind_ok in H1 as (na & Ea & H1). apply bind_ok in H1 as (nb & Eb & H1).
    apply masked_kind in Ea, Eb. apply new_quantity_node in H1 as (st & sl & ->).
    destruct (IH (g ++ [mkNode (OMask andb m x) QBool true st sl]) (length g) g' m') as (G1 & G2 & l & ->); auto.
    + apply typed_last; auto. cbn. ands; auto.
    + exists (mkNode (OMask andb m x) QBool true st sl). split; [apply nth_last|reflexivity].
    + ands; auto. eexists. now rewrite <- app_assoc.
Qed.
Lemma mapM_In {A B} (f : A -> res B) l : forall r, mapM f l = Ok r -> forall x, In x l -> exists y, f x = Ok y.
Proof.
  induction l as [|a l IH]; cbn; intros r H x Hx; [destruct Hx|]. apply bind_ok in H as (y & Ey & H). apply bind_ok in H as (ys & E & H).
  destruct Hx as [<-|Hx]; eauto.
Qed.
Lemma build_typed (g g' : gr) c : (forall a n, nth_error g a = Some n -> typed g n) -> sensible g c -> build K_eq g c = Ok g' ->
  forall a n, nth_error g' a = Some n -> typed g' n.
Proof.
  intros Hg Hc H. destruct c; cbn [build] in H.
  - injection H as <-. apply typed_last; auto. reflexivity.
  - injection H as <-. apply typed_last; auto. cbn. split; [reflexivity|lia].
  - apply bind_ok in H as (na & Ea & H). apply bind_ok in H as (nb & Eb & H). apply numeric_kind in Ea as (Ka & Na & Sa). apply numeric_kind in Eb as (Kb & Nb & Sb).
    assert (Ec : constant_at g a = match is_const na with Some _ => true | None => false end).
    { unfold constant_at, is_const. rewrite Na. destruct (n_op na); reflexivity. }
    cbn [sensible] in Hc. rewrite Ec in Hc.
    destruct (is_const na); [destruct (is_const nb); [discriminate|]|]; apply new_quantity_node in H as (st & sl & ->); apply typed_last; auto; cbn; ands; auto.
  - apply bind_ok in H as (na & Ea & H). apply numeric_kind in Ea as (Ka & Na & Sa). apply new_quantity_node in H as (st & sl & ->). apply typed_last; auto.
    cbn. ands; auto. lia.
  - apply bind_ok in H as (na & Ea & H). apply numeric_kind in Ea as (Ka & Na & Sa). apply bind_ok in H as ([q s] & Ek & H). cbn [fst] in H.
    apply new_quantity_node in H as (st & sl & ->). apply typed_last; auto. cbn. split; auto. exists na, s. ands; auto. destruct Ka as (m & E & Em). congruence.
  - apply bind_ok in H as (ns & En & H). apply bind_ok in H as (t & Et & H). apply new_quantity_node in H as (st & sl & ->). apply typed_last; auto. cbn. ands; auto.
    + intros p Hp. destruct (mapM_In _ _ _ En p Hp) as (n & E). now apply numeric_kind in E as (? & _).
    + exact (Hc ns t En Et).
  - apply bind_ok in H as (na & Ea & H). apply numeric_kind in Ea as (Ka & Na & Sa). apply new_quantity_node in H as (st & sl & ->). apply typed_last; auto.
    cbn. ands; auto. rewrite Sa. destruct bottom; [rewrite replace_size|]; cbn [size]; lia.
  - apply bind_ok in H as (na & Ea & H). apply bind_ok in H as (nb & Eb & H). apply numeric_kind in Ea as (Ka & Na & Sa). apply numeric_kind in Eb as (Kb & Nb & Sb).
    apply new_quantity_node in H as (st & sl & ->). apply typed_last; auto. cbn. ands; auto.
  - unfold new_mask in H. apply bind_ok in H as (na & Ea & H). apply bind_ok in H as (nb & Eb & H). apply masked_kind in Ea, Eb.
    apply new_quantity_node in H as (st & sl & ->). apply typed_last; auto. cbn. ands; auto.
  - apply bind_ok in H as (na & Ea & H). apply numeric_kind in Ea as (Ka & Na & Sa). destruct ms as [|m ms]; [discriminate|].
    apply bind_ok in H as (ns & En & H). apply bind_ok in H as ([g1 m'] & E1 & H). cbn [fst snd] in H.
    assert (Km : kind g m true) by (destruct (mapM_In _ _ _ En m (or_introl eq_refl)) as (n & E); now apply masked_kind in E).
    destruct (and_masks_typed ms g m g1 m' Hg Km E1) as (Hg1 & Km' & l & ->). apply bind_ok in H as (g2 & E2 & H).
    apply new_quantity_node in E2 as (st & sl & ->). rewrite upd_last in H. injection H as <-. apply typed_last; auto. cbn.
    ands; auto using kind_app. rewrite sz_app; [lia|]. eapply kind_lt; eauto.
  - apply bind_ok in H as (na & Ea & H). apply numeric_kind in Ea as (Ka & Na & Sa). apply new_quantity_node in H as (st & sl & ->). apply typed_last; auto.
    cbn. ands; auto. rewrite replace_size. cbn [size]. lia.
Qed.
Lemma made_sizes (P : gr -> cmd K V -> Prop) (g : gr) : (forall g c, P g c -> sensible g c) -> made P g -> sizes g.
Proof.
  intros HP H. induction H as [|g c g' H IH Hc Hb]; [split; intros [|a] n E; discriminate|]. destruct IH as [Ho Ht]. split.
  - eapply build_ordered; eauto.
  - eapply build_typed; eauto.
Qed.

Lemma num_ok (v : res (val V)) x : num_of v = Ok x -> v = Ok (Num x).
Proof. unfold num_of. intros H. apply bind_ok in H as ([y|m] & -> & H); [injection H as <-; reflexivity|discriminate]. Qed.
(** Whatever is evaluated has as many components as its type says. *)
Lemma sizes_sound env lvl cid (g : gr) : sizes g -> declared g env -> forall a n x, nth_error g a = Some n ->
  samples K_eq env lvl cid g a = Ok (Num x) -> length x = size (n_type n).
Proof.
  intros [Ho Ht] Hd a. induction a as [a IH] using lt_wf_ind. intros n x En Hx. pose proof (Ht a n En) as T. pose proof (Ho a n En) as Hi.
  rewrite (ordered_op K_eq _ _ _ _ _ _ Ho En) in Hx. unfold typed in T.
  assert (G : forall b y, In b (inputs (n_op n)) -> num_of (at_ (eval_all K_eq env lvl cid g) b) = Ok y -> length y = sz g b).
  { intros b y Hb E. apply num_ok in E. unfold sz. destruct (nth_error g b) as [m|] eqn:Em.
    - exact (IH b (Hi b Hb) m y Em E).
    - apply ordered_lt in E. apply nth_error_None in Em. lia. }
  destruct (n_op n) as [r|c|f p q|f p|k p|ps|r ev d bo p|c p q|f p q|p m|pick p] eqn:Eo; cbn [eval_op inputs] in *.
  - injection Hx as <-. eapply Hd; eauto.
  - injection Hx as <-. unfold const_arr. rewrite map_length. destruct T as (_ & T). congruence.
  - apply bind_ok in Hx as (y & Ey & Hx). apply bind_ok in Hx as (z & Ez & Hx). apply bind_ok in Hx as (w & Ew & Hx). injection Hx as <-.
    apply G in Ey; [|now left]. apply G in Ez; [|right; now left]. destruct T as (_ & _ & _ & [[-> F]|[-> F]]); unfold fits in F; rewrite <- Ey, <- Ez in *.
    + exact (bcast_length _ _ _ _ Ew F). + exact (bcast_length_r _ _ _ _ Ew F).
  - apply bind_ok in Hx as (y & Ey & Hx). injection Hx as <-. apply G in Ey; [|now left]. rewrite map_length. destruct T as (_ & _ & T). congruence.
  - apply bind_ok in Hx as (y & Ey & Hx). apply bind_ok in Hx as (z & Ez & Hx). injection Hx as <-. apply G in Ey; [|now left].
    destruct T as (_ & na & s & Ena & _ & Hk). assert (Et : nth p (map n_type g) QScalar = n_type na) by (rewrite (nth_error_nth (map n_type g) p QScalar (x := n_type na)); [reflexivity|now rewrite nth_error_map, Ena]).
    rewrite Et in Ez. eapply getitem_length; eauto. rewrite Ey. unfold sz. now rewrite Ena.
  - apply bind_ok in Hx as (xs & Exs & Hx). apply bind_ok in Hx as (z & Ez & Hx). injection Hx as <-. apply concat_op_length in Ez. rewrite Ez.
    destruct T as (_ & _ & ->). f_equal. clear Ez Eo. revert xs Exs. induction ps as [|p ps IHp]; intros xs E; cbn in E; [injection E as <-; reflexivity|].
    apply bind_ok in E as (y & Ey & E). apply bind_ok in E as (ys & Eys & E). injection E as <-. cbn. f_equal.
    + apply G; auto. now left. + apply IHp; auto. * intros b Hb. apply Hi. now right. * intros b y0 Hb. apply G. now right.
  - apply bind_ok in Hx as (y & Ey & Hx). injection Hx as <-. apply G in Ey; [|now left]. rewrite moments_length. destruct T as (_ & _ & T). congruence.
  - apply bind_ok in Hx as (y & Ey & Hx). apply bind_ok in Hx as (z & Ez & Hx). apply bind_ok in Hx as (w & Ew & Hx). apply bind_ok in Hx as (m & Em & Hx). discriminate.
  - apply bind_ok in Hx as (y & Ey & Hx). apply bind_ok in Hx as (z & Ez & Hx). apply bind_ok in Hx as (w & Ew & Hx). discriminate.
  - apply bind_ok in Hx as (y & Ey & Hx). apply bind_ok in Hx as (z & Ez & Hx). apply bind_ok in Hx as (w & Ew & Hx). injection Hx as <-.
    apply G in Ey; [|now left]. apply mapM_length in Ew. destruct T as (_ & _ & _ & T). congruence.
  - apply bind_ok in Hx as (y & Ey & Hx). apply bind_ok in Hx as (z & Ez & Hx). injection Hx as <-. apply G in Ey; [|now left].
    apply mapM_length in Ez. destruct T as (_ & _ & T). congruence.
Qed.
(** * Careful programs evaluate *)
Definition safe (g : gr) (n : node K V) : Prop :=
  match n_op n with
  | OCmp _ a b => 0 < sz g a /\ 0 < sz g b /\ (fits g a b \/ fits g b a)
  | OItem (Index _) a => match nth_error g a with Some n => match n_type n with QArray _ q => size q = 1 | _ => True end | None => True end
  | _ => True
  end.
Lemma safe_app (g : gr) l n : (forall b, In b (inputs (n_op n)) -> b < length g) -> safe g n -> safe (g ++ l) n.
Proof.
  unfold safe, fits. intros H. destruct (n_op n) as [| | | |[k|ix] p| | |c p q| | |]; cbn [inputs] in H; auto.
  - rewrite nth_app_lt by (apply H; now left). auto.
  - rewrite !sz_app by (apply H; cbn; auto). auto.
Qed.
Lemma safe_last (g : gr) n : ordered g -> (forall a m, nth_error g a = Some m -> safe g m) -> (forall b, In b (inputs (n_op n)) -> b < length g) -> safe g n ->
  forall a m, nth_error (g ++ [n]) a = Some m -> safe (g ++ [n]) m.
Proof.
  intros Ho Hg Hi Hn a m E. destruct (Nat.lt_ge_cases a (length g)) as [L|L].
  - rewrite nth_app_lt in E by auto. apply safe_app; eauto. intros b Hb. specialize (Ho a m E b Hb). lia.
  - rewrite nth_error_app2 in E by auto. destruct (a - length g) as [|i]; cbn in E; [injection E as <-; now apply safe_app|destruct i; discriminate].
Qed.
Lemma and_masks_safe ms : forall (g : gr) m g' m', ordered g -> (forall a n, nth_error g a = Some n -> safe g n) -> and_masks g m ms = Ok (g', m') ->
  forall a n, nth_error g' a = Some n -> safe g' n.
Proof.
  induction ms as [|x ms IH]; intros g m g' m' Ho Hg H; cbn [and_masks] in H.
  - injection H as <- <-. exact Hg.
  - apply bind_ok in H as (g1 & H1 & H). destruct (new_mask_app _ _ _ _ _ Ho H1) as [Ho1 _]. unfold new_mask in H1.
    apply bind_ok in H1 as (na & Ea & H1). apply bind_ok in H1 as (nb & Eb & H1).
    apply masked_kind in Ea, Eb. apply kind_lt in Ea, Eb. apply new_quantity_node in H1 as (st & sl & ->).
    eapply IH; [exact Ho1| |exact H]. apply safe_last; [exact Ho|exact Hg| |exact Logic.I]. intros b [<-|[<-|[]]]; auto.
Qed.
Lemma build_safe (g g' : gr) c : ordered g -> (forall a n, nth_error g a = Some n -> safe g n) -> careful g c -> build K_eq g c = Ok g' ->
  forall a n, nth_error g' a = Some n -> safe g' n.
Proof.
  intros Ho Hg (_ & _ & Hc) H. destruct c; cbn [build] in H.
  - injection H as <-. apply safe_last; [exact Ho|exact Hg|intros b []|exact Logic.I].
  - injection H as <-. apply safe_last; [exact Ho|exact Hg|intros b []|exact Logic.I].
  - apply bind_ok in H as (na & Ea & H). apply bind_ok in H as (nb & Eb & H). apply numeric_lt in Ea as [Ea _]. apply numeric_lt in Eb as [Eb _].
    destruct (is_const na); [destruct (is_const nb); [discriminate|]|]; apply new_quantity_node in H as (st & sl & ->);
      (apply safe_last; [exact Ho|exact Hg|intros x [<-|[<-|[]]]; auto|exact Logic.I]).
  - apply bind_ok in H as (na & Ea & H). apply numeric_lt in Ea as [Ea _]. apply new_quantity_node in H as (st & sl & ->).
    apply safe_last; [exact Ho|exact Hg|intros x [<-|[]]; auto|exact Logic.I].
  - apply bind_ok in H as (na & Ea & H). apply numeric_lt in Ea as [Ea _]. apply bind_ok in H as ([q s] & Ek & H). cbn [fst] in H. apply new_quantity_node in H as (st & sl & ->).
    apply safe_last; [exact Ho|exact Hg|intros x [<-|[]]; auto|exact Hc].
  - apply bind_ok in H as (ns & En & H). apply bind_ok in H as (t & Et & H). apply new_quantity_node in H as (st & sl & ->).
    apply safe_last; [exact Ho|exact Hg| |exact Logic.I]. cbn. eapply mapM_numeric; eauto. intros b n E. now apply numeric_lt in E.
  - apply bind_ok in H as (na & Ea & H). apply numeric_lt in Ea as [Ea _]. apply new_quantity_node in H as (st & sl & ->).
    apply safe_last; [exact Ho|exact Hg|intros x [<-|[]]; auto|exact Logic.I].
  - apply bind_ok in H as (na & Ea & H). apply bind_ok in H as (nb & Eb & H). apply numeric_lt in Ea as [Ea _]. apply numeric_lt in Eb as [Eb _].
    apply new_quantity_node in H as (st & sl & ->). apply safe_last; [exact Ho|exact Hg|intros x [<-|[<-|[]]]; auto|exact Hc].
  - unfold new_mask in H. apply bind_ok in H as (na & Ea & H). apply bind_ok in H as (nb & Eb & H). apply masked_lt in Ea as [Ea _]. apply masked_lt in Eb as [Eb _].
    apply new_quantity_node in H as (st & sl & ->). apply safe_last; [exact Ho|exact Hg|intros x [<-|[<-|[]]]; auto|exact Logic.I].
  - apply bind_ok in H as (na & Ea & H). apply numeric_lt in Ea as [Ea _]. destruct ms as [|m ms]; [discriminate|].
    apply bind_ok in H as (ns & En & H). apply bind_ok in H as ([g1 m'] & E1 & H). cbn [fst snd] in H.
    assert (Hm : m < length g) by (eapply (mapM_numeric g (@masked K V)); [intros b n E; apply masked_lt in E; apply E|exact En|now left]).
    pose proof (and_masks_safe _ _ _ _ _ Ho Hg E1) as Hg1. destruct (and_masks_app _ _ _ _ _ Ho Hm E1) as (Ho1 & Hm' & l1 & ->).
    apply bind_ok in H as (g2 & E2 & H). apply new_quantity_node in E2 as (st & sl & ->). rewrite upd_last in H. injection H as <-.
    apply safe_last; [exact Ho1|exact Hg1| |exact Logic.I]. cbn. intros x [<-|[<-|[]]]; auto. rewrite app_length. lia.
  - apply bind_ok in H as (na & Ea & H). apply numeric_lt in Ea as [Ea _]. apply new_quantity_node in H as (st & sl & ->).
    apply safe_last; [exact Ho|exact Hg|intros x [<-|[]]; auto|exact Logic.I].
Qed.
Lemma made_careful (g : gr) : made careful g -> built K_eq g /\ sizes g /\ forall a n, nth_error g a = Some n -> safe g n.
Proof.
  intros H. assert (Hs : sizes g) by (eapply made_sizes; [|exact H]; intros g0 c (_ & Hc & _); exact Hc). split; [|split; [exact Hs|]].
  - clear Hs. induction H as [|g c g' H IH Hc Hb]; [constructor|]. econstructor; eauto. apply Hc.
  - induction H as [|g c g' H IH Hc Hb]; [intros [|a] n E; discriminate|].
    assert (Hs0 : sizes g) by (eapply made_sizes; [|exact H]; intros g0 c0 (_ & Hc0 & _); exact Hc0).
    eapply build_safe; eauto. apply Hs0.
Qed.

Lemma mapM_exists {A B} (f : A -> res B) l : (forall x, In x l -> exists y, f x = Ok y) -> exists ys, mapM f l = Ok ys.
Proof.
  induction l as [|a l IH]; intros H; cbn; [eauto|]. destruct (H a (or_introl eq_refl)) as [y ->]. cbn [bind].
  destruct IH as [ys ->]; [intros x Hx; apply H; now right|]. cbn. eauto.
Qed.
Lemma mapM_in_inv {A B} (f : A -> res B) l : forall ys, mapM f l = Ok ys -> forall y, In y ys -> exists x, In x l /\ f x = Ok y.
Proof.
  induction l as [|a l IH]; cbn; intros ys H y Hy; [injection H as <-; destruct Hy|]. apply bind_ok in H as (z & Ez & H). apply bind_ok in H as (zs & E & H).
  injection H as <-. destruct Hy as [<-|Hy]; [eauto|]. destruct (IH zs E y Hy) as (x & Hx & Ex). eauto.
Qed.
(** Rows that can be combined: of one width, or constant. *)
Definition rows_or_const (w k : nat) (x : arr V) : Prop := Forall (rowok w k) x \/ exists c, x = const_arr c.
Lemma bin_total {W} (f : V -> V -> W) w k x y : rows_or_const w k x -> rows_or_const w k y ->
  compat (length x) (length y) = true -> bin f x y = Ok (bz (rowz f) x y).
Proof.
  intros Hx Hy Hc. unfold bin. rewrite (bcast_ok _ (rowz f)); [now rewrite Hc|]. intros r t Hr Ht.
  destruct Hx as [Hx|[c ->]], Hy as [Hy|[c' ->]].
  - rewrite Forall_forall in Hx, Hy. apply (row_ok f w k); auto.
  - rewrite Forall_forall in Hx. apply in_map_iff in Ht as (v & <- & _). apply (row_const_r f w k); auto.
  - rewrite Forall_forall in Hy. apply in_map_iff in Hr as (v & <- & _). apply (row_const_l f w k); auto.
  - apply in_map_iff in Hr as (v & <- & _). apply in_map_iff in Ht as (v' & <- & _). reflexivity.
Qed.
Lemma fits_compat a b : b = a \/ b = 1 -> compat a b = true /\ compat b a = true.
Proof. unfold compat. intros [->| ->]; [rewrite Nat.eqb_refl; auto|]. destruct (Nat.eqb a 1); cbn; rewrite ?Bool.orb_true_r; auto. Qed.

Lemma careful_progress env k lvl cid (g : gr) : made careful g -> declared g env -> (forall r, exists M N, shaped M N k (env r)) ->
  forall a n, nth_error g a = Some n -> from_storage g a ->
  if n_mask n then exists m, samples K_eq env lvl cid g a = Ok (Mask m)
  else exists x, samples K_eq env lvl cid g a = Ok (Num x) /\ length x = size (n_type n).
Proof.
  intros Hm Hd He. destruct (made_careful g Hm) as (Hb & Hz & Hsafe). pose proof (built_inv K_eq g Hb) as Hg. destruct Hz as [Ho Ht].
  assert (Snd : forall a n x, nth_error g a = Some n -> samples K_eq env lvl cid g a = Ok (Num x) -> length x = size (n_type n)) by (apply sizes_sound; [split; auto|auto]).
  intros a. induction a as [a IH] using lt_wf_ind. intros n En Hst.
  cut (if n_mask n then exists m, samples K_eq env lvl cid g a = Ok (Mask m) else exists x, samples K_eq env lvl cid g a = Ok (Num x)).
  { destruct (n_mask n); auto. intros [x Hx]. exists x. split; [exact Hx|]. eapply Snd; eauto. }
  pose proof (Ht a n En) as T. pose proof (Hsafe a n En) as Sf. pose proof (Hg a n En) as NI. pose proof (ni_inputs _ _ _ NI) as Hi.
  rewrite (samples_op K_eq env lvl cid g a n Hg En). unfold typed in T.
  destruct (ni_some _ _ _ NI Hst) as [[r Hr]|(s0 & Hin & Hex & _)].
  { rewrite Hr in *. rewrite T. cbn. eauto. }
  set (w := width (samples K_eq env lvl cid g s0)).
  assert (Hnum : forall b, In b (inputs (n_op n)) -> kind g b false -> exists x, num_of (at_ (eval_all K_eq env lvl cid g) b) = Ok x /\ length x = sz g b
                 /\ rows_or_const w k x /\ (store_of g b <> None -> Forall (rowok w k) x)).
  { intros b Hbi (nb & Enb & Kb). assert (Esz : sz g b = size (n_type nb)) by (unfold sz; now rewrite Enb). destruct (Hin b Hbi) as [C|[C1 C2]].
    - destruct (const_value K_eq lvl cid g Hg b env C) as (c & _ & Ec). exists (const_arr c).
      unfold samples in Ec. rewrite Ec. cbn. ands; auto.
      + rewrite Esz. eapply Snd; eauto. + right. eauto. + intros N. destruct (N (const_store _ _ C)).
    - assert (Hsb : from_storage g b) by (unfold from_storage in *; congruence). specialize (IH b (Hi b Hbi) nb Enb Hsb). rewrite Kb in IH. destruct IH as (x & Ex & Lx).
      exists x. assert (R : Forall (rowok w k) x).
      { destruct (claims K_eq k env env _ lvl cid g (chunk_splits k env He) Hg b (ordered_lt K_eq _ _ _ _ _ _ Ex)) as [_ H]. specialize (H s0 Hsb C2). rewrite Ex in H.
        destruct H as [(e & C & _)|[(ps & Hp & E1 & _)|(m1 & m2 & _ & _ & E1 & _)]]; [discriminate| |discriminate]. injection E1 as ->.
        apply Forall_forall. intros row Hrow. apply in_map_iff in Hrow as (p & <- & Hp'). rewrite Forall_forall in Hp. apply (Hp p Hp'). }
      unfold samples in Ex. rewrite Ex. cbn. ands; auto; [congruence|now left]. }
  assert (Hmask : forall b, In b (inputs (n_op n)) -> kind g b true -> exists m, mask_of (at_ (eval_all K_eq env lvl cid g) b) = Ok m /\ length m = w).
  { intros b Hbi (nb & Enb & Kb). destruct (Hin b Hbi) as [(nc & c & C1 & C2)|[C1 C2]].
    - exfalso. pose proof (Ht b nc C1) as T'. unfold typed in T'. rewrite C2 in T'. destruct T' as [T' _]. congruence.
    - assert (Hsb : from_storage g b) by (unfold from_storage in *; congruence). specialize (IH b (Hi b Hbi) nb Enb Hsb). rewrite Kb in IH. destruct IH as (m & Ex).
      exists m. destruct (claims K_eq k env env _ lvl cid g (chunk_splits k env He) Hg b (ordered_lt K_eq _ _ _ _ _ _ Ex)) as [_ H]. specialize (H s0 Hsb C2). rewrite Ex in H.
      destruct H as [(e & C & _)|[(ps & Hp & E1 & _)|(m1 & m2 & L1 & _ & E1 & _)]]; [discriminate|discriminate|]. injection E1 as ->.
      unfold samples in Ex. rewrite Ex. auto. }
  destruct (n_op n) as [r|c|f p q|f p|ky p|ps|r ev d bo p|c p q|f p q|p m|pick p] eqn:Eo; cbn [eval_op inputs] in *.
  - rewrite T. cbn. eauto.
  - destruct T as [-> _]. cbn. eauto.
  - destruct T as (-> & Kp & Kq & F). destruct (Hnum p) as (x & -> & Lx & Rx & _); [cbn; auto|auto|]. cbn [bind]. destruct (Hnum q) as (y & -> & Ly & Ry & _); [cbn; auto|auto|]. cbn [bind].
    assert (C : compat (length x) (length y) = true).
    { rewrite Lx, Ly. destruct F as [[_ F]|[_ F]]; unfold fits in F; apply fits_compat in F; tauto. }
    rewrite (bin_total f w k x y Rx Ry C). cbn. eauto.
  - destruct T as (-> & Kp & _). destruct (Hnum p) as (x & -> & _); [cbn; auto|auto|]. cbn. eauto.
  - destruct T as (-> & na & s & Ena & Kna & Hk). destruct (Hnum p) as (x & -> & Lx & _); [now left|exists na; auto|]. cbn [bind].
    assert (Et : nth p (map n_type g) QScalar = n_type na) by (rewrite (nth_error_nth (map n_type g) p QScalar (x := n_type na)); [reflexivity|now rewrite nth_error_map, Ena]).
    rewrite Et. unfold getitem_rows. rewrite Hk. cbn [bind fst snd]. unfold sz in Lx. unfold safe in Sf. rewrite Eo in Sf. rewrite Ena in *.
    destruct (n_type na) as [| |sh t|ts t|ks t|items], ky as [ky|ix]; cbn [get_key] in Hk; try discriminate; try (cbn; eauto; fail).
    cbn [size] in Lx. rewrite Sf, Nat.mul_1_r in Lx. rewrite Lx, Nat.eqb_refl. apply bind_ok in Hk as (sh' & Hn & _).
    destruct (select_rows_total ix sh sh' x Hn) as [out ->]. cbn. eauto.
  - destruct T as (-> & Kp & _).
    assert (Hall : exists xs, mapM (fun p => num_of (at_ (eval_all K_eq env lvl cid g) p)) ps = Ok xs).
    { apply mapM_exists. intros p Hp. destruct (Hnum p Hp (Kp p Hp)) as (x & -> & _). eauto. }
    destruct Hall as [xs Exs]. rewrite Exs. cbn [bind]. rewrite (concat_op_ok xs w k); [cbn; eauto|].
    apply Forall_forall. intros x Hx. destruct (mapM_in_inv _ _ _ Exs x Hx) as (p & Hp & Ep). destruct (Hnum p Hp (Kp p Hp)) as (x' & Ex' & _ & _ & R).
    assert (x' = x) by congruence. subst x'. apply R. eapply (ni_concat _ _ _ NI); eauto.
  - destruct T as (-> & Kp & _). destruct (Hnum p) as (x & -> & _); [cbn; auto|auto|]. cbn. eauto.
  - destruct T as (-> & Kp & Kq). destruct (Hnum p) as (x & -> & Lx & Rx & _); [cbn; auto|auto|]. cbn [bind]. destruct (Hnum q) as (y & -> & Ly & Ry & _); [cbn; auto|auto|]. cbn [bind].
    unfold safe in Sf. rewrite Eo in Sf. destruct Sf as (P1 & P2 & F).
    assert (C : compat (length x) (length y) = true).
    { rewrite Lx, Ly. destruct F as [F|F]; unfold fits in F; apply fits_compat in F; tauto. }
    assert (B := bin_total c w k x y Rx Ry C). rewrite B. cbn [bind].
    assert (L : 0 < length (bz (rowz c) x y)).
    { destruct F as [F|F]; unfold fits in F; rewrite <- Lx, <- Ly in F.
      - rewrite (bcast_length _ _ _ _ B F). lia. - rewrite (bcast_length_r _ _ _ _ B F). lia. }
    destruct (bz (rowz c) x y) as [|row rows]; [cbn in L; lia|]. cbn. eauto.
  - destruct T as (-> & Kp & Kq). destruct (Hmask p) as (x & -> & Lx); [cbn; auto|auto|]. cbn [bind]. destruct (Hmask q) as (y & -> & Ly); [cbn; auto|auto|]. cbn [bind].
    rewrite (bcast_ok _ f) by auto. unfold compat. rewrite Lx, Ly, Nat.eqb_refl. cbn. eauto.
  - destruct T as (-> & Kp & Km & _). destruct (Hnum p) as (x & -> & Lx & _ & R); [cbn; auto|auto|]. cbn [bind]. destruct (Hmask m) as (y & -> & Ly); [cbn; auto|auto|]. cbn [bind].
    assert (Rx : Forall (rowok w k) x) by (apply R; eapply (ni_select _ _ _ NI); eauto). rewrite Forall_forall in Rx.
    assert (E : exists z, select_op x y = Ok z).
    { apply mapM_exists. intros row Hrow. destruct (Rx row Hrow) as [-> _]. rewrite Ly, Nat.eqb_refl. eauto. }
    destruct E as [z ->]. cbn. eauto.
  - destruct (ni_nosub _ _ _ NI pick p Eo).
Qed.
End Size.
