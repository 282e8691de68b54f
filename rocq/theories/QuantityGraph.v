(** Graphs of quantities: which objects share a selection, and the values of two chunks side by side. *)
From Verif Require Import Base BaseFacts QTypeModel QTypeProofs QuantityModel QuantitySpec QuantityProofs.

Section Graph.
Context {K V : Type} (K_eq : forall a b : K, {a = b} + {a <> b}).
Notation gr := (graph K V).

Definition const_at (g : gr) (b : nat) : Prop := exists n c, nth_error g b = Some n /\ n_op n = OConst c.

Record node_inv (g : gr) (a : nat) (n : node K V) : Prop := {
  ni_inputs : forall b, In b (inputs (n_op n)) -> b < a;
  ni_nosub : forall p x, n_op n <> OSub p x;
  ni_sid : match selection_id g a with
           | None => exists c, n_op n = OConst c
           | Some NoneId => store_of g a = None
           | Some (Obj s) => s <= a /\ store_of g a <> None /\ store_of g s = store_of g a /\ selection_id g s = Some (Obj s)
           end;
  ni_none : store_of g a = None -> forall b, In b (inputs (n_op n)) -> store_of g b = None;
  ni_some : store_of g a <> None -> (exists r, n_op n = ORoot r) \/
              exists s0, (forall b, In b (inputs (n_op n)) -> const_at g b \/ (store_of g b = store_of g a /\ selection_id g b = Some (Obj s0)))
              /\ (exists b, In b (inputs (n_op n)) /\ store_of g b = store_of g a)
              /\ ((selection_id g a = Some (Obj s0) /\ (forall x m, n_op n <> OSelect x m)) \/ (selection_id g a = Some (Obj a) /\ exists x m, n_op n = OSelect x m));
  ni_concat : forall ps, n_op n = OConcat ps -> forall b, In b ps -> store_of g b <> None;
  ni_select : forall x m, n_op n = OSelect x m -> store_of g x <> None
}.
Definition graph_inv (g : gr) : Prop := forall a n, nth_error g a = Some n -> node_inv g a n.

Lemma nth_app_lt {A} (l l' : list A) i : i < length l -> nth_error (l ++ l') i = nth_error l i.
Proof. apply nth_error_app1. Qed.
Lemma store_app (g : gr) l a : a < length g -> store_of (g ++ l) a = store_of g a.
Proof. intros H. unfold store_of. now rewrite nth_app_lt. Qed.
Lemma sid_app (g : gr) l a : a < length g -> selection_id (g ++ l) a = selection_id g a.
Proof. intros H. unfold selection_id. now rewrite nth_app_lt. Qed.
Lemma const_app (g : gr) l a : a < length g -> const_at (g ++ l) a <-> const_at g a.
Proof. intros H. unfold const_at. now rewrite nth_app_lt. Qed.
Lemma nth_last {A} (l : list A) x : nth_error (l ++ [x]) (length l) = Some x.
Proof. rewrite nth_error_app2 by lia. now rewrite Nat.sub_diag. Qed.

Lemma node_inv_app (g : gr) l a n : a < length g -> node_inv g a n -> node_inv (g ++ l) a n.
Proof.
  intros Ha H. pose proof (ni_inputs _ _ _ H) as Hi.
  constructor.
  - exact Hi.
  - apply (ni_nosub _ _ _ H).
  - rewrite sid_app, store_app by auto. pose proof (ni_sid _ _ _ H) as Hs. destruct (selection_id g a) as [[s|]|]; auto.
    destruct Hs as (H1 & H2 & H3 & H4). rewrite !store_app, sid_app by lia. auto.
  - rewrite store_app by auto. intros E b Hb. rewrite store_app by (specialize (Hi b Hb); lia). now apply (ni_none _ _ _ H).
  - rewrite store_app by auto. intros E. destruct (ni_some _ _ _ H E) as [Hr|(s0 & H1 & H2 & H3)]; [now left|right].
    exists s0. ands.
    + intros b Hb. specialize (Hi b Hb). rewrite const_app, store_app, sid_app by lia. now apply H1.
    + destruct H2 as (b & Hb & E2). exists b. specialize (Hi b Hb). rewrite store_app by lia. auto.
    + rewrite sid_app by auto. exact H3.
  - intros ps E b Hb. assert (b < length g) by (specialize (Hi b); rewrite E in Hi; specialize (Hi Hb); lia). rewrite store_app by auto. now apply (ni_concat _ _ _ H ps).
  - intros x m E. assert (x < length g) by (specialize (Hi x); rewrite E in Hi; specialize (Hi (or_introl eq_refl)); lia). rewrite store_app by auto. now apply (ni_select _ _ _ H x m).
Qed.

Lemma set_sel_some (g : gr) l : forall s sel, set_selection_id g l (Some s) = Ok sel ->
  sel = Some s /\ forall b, In b l -> selection_id g b = None \/ selection_id g b = Some s.
Proof.
  induction l as [|a l IH]; intros s sel H; cbn in H; [split; [congruence|intros b []]|].
  destruct (selection_id g a) as [s'|] eqn:E.
  - destruct (oid_eq_dec s s') as [<-|]; [|discriminate]. destruct (IH _ _ H) as [-> H2]. split; auto. intros b [<-|Hb]; auto.
  - destruct (IH _ _ H) as [-> H2]. split; auto. intros b [<-|Hb]; auto.
Qed.
Lemma set_sel_none (g : gr) l : forall sel, set_selection_id g l None = Ok sel ->
  (sel = None /\ forall b, In b l -> selection_id g b = None)
  \/ exists s, sel = Some s /\ (forall b, In b l -> selection_id g b = None \/ selection_id g b = Some s) /\ exists b, In b l /\ selection_id g b = Some s.
Proof.
  induction l as [|a l IH]; intros sel H; cbn in H; [left; split; [congruence|intros b []]|].
  destruct (selection_id g a) as [s|] eqn:E.
  - right. destruct (set_sel_some _ _ _ _ H) as [-> H2]. exists s. ands; auto.
    + intros b [<-|Hb]; auto. + exists a. split; [now left|auto].
  - destruct (IH _ H) as [[-> H2]|(s & -> & H2 & b & Hb & E2)].
    + left. split; auto. intros b [<-|Hb]; auto.
    + right. exists s. ands; auto. * intros b' [<-|Hb']; auto. * exists b. split; [now right|auto].
Qed.
Lemma first_store_none (g : gr) l : first_store g l = None -> forall b, In b l -> store_of g b = None.
Proof. induction l as [|a l IH]; intros H b Hb; [destruct Hb|]. cbn in H. destruct (store_of g a) eqn:E; [discriminate|]. destruct Hb as [<-|Hb]; auto. Qed.
Lemma first_store_some (g : gr) l r : first_store g l = Some r -> exists b, In b l /\ store_of g b = Some r.
Proof.
  induction l as [|a l IH]; intros H; [discriminate|]. cbn in H. destruct (store_of g a) eqn:E.
  - exists a. split; [now left|congruence]. - destruct (IH H) as (b & Hb & E2). exists b. split; [now right|auto].
Qed.

Lemma sid_none_const (g : gr) b : graph_inv g -> b < length g -> selection_id g b = None -> const_at g b.
Proof.
  intros Hg Hb H. destruct (nth_error g b) as [n|] eqn:E; [|apply nth_error_None in E; lia].
  pose proof (ni_sid _ _ _ (Hg _ _ E)) as Hs. rewrite H in Hs. destruct Hs as [c Hc]. exists n, c. auto.
Qed.
Lemma sid_obj (g : gr) b s : graph_inv g -> selection_id g b = Some (Obj s) -> s <= b /\ store_of g b <> None /\ store_of g s = store_of g b /\ selection_id g s = Some (Obj s).
Proof.
  intros Hg H. destruct (nth_error g b) as [n|] eqn:E; [|unfold selection_id in H; rewrite E in H; discriminate].
  pose proof (ni_sid _ _ _ (Hg _ _ E)) as Hs. rewrite H in Hs. exact Hs.
Qed.
Lemma sid_noneid (g : gr) b : graph_inv g -> selection_id g b = Some NoneId -> store_of g b = None.
Proof.
  intros Hg H. destruct (nth_error g b) as [n|] eqn:E; [|unfold selection_id in H; rewrite E in H; discriminate].
  pose proof (ni_sid _ _ _ (Hg _ _ E)) as Hs. rewrite H in Hs. exact Hs.
Qed.
Lemma const_store (g : gr) b : const_at g b -> store_of g b = None.
Proof. intros (n & c & E & Ho). unfold store_of. now rewrite E, Ho. Qed.

(** The new object, before a selection sets its own identity. *)
Lemma new_quantity_inv (g g' : gr) t mask o : graph_inv g -> new_quantity g t mask o = Ok g' ->
  (forall b, In b (inputs o) -> b < length g) -> (forall r, o <> ORoot r) -> (forall c, o <> OConst c) ->
  exists n, g' = g ++ [n] /\ n_op n = o /\ n_store n = first_store g (inputs o)
  /\ ((n_sel n = None /\ first_store g (inputs o) = None /\ (forall b, In b (inputs o) -> const_at g b))
      \/ (n_sel n = Some NoneId /\ first_store g (inputs o) = None)
      \/ exists s r, n_sel n = Some (Obj s) /\ first_store g (inputs o) = Some r /\ s < length g /\ selection_id g s = Some (Obj s) /\ store_of g s = Some r
         /\ forall b, In b (inputs o) -> const_at g b \/ (store_of g b = Some r /\ selection_id g b = Some (Obj s))).
Proof.
  intros Hg H Hin Hnr Hnc. unfold new_quantity in H.
  destruct (set_selection_id g (inputs o) None) as [sel|] eqn:E; [|discriminate]. cbn [bind] in H.
  destruct (check_selection_ids _ _ _ _); [|discriminate]. injection H as <-.
  eexists. split; [reflexivity|]. cbn [n_op n_store n_sel]. split; [reflexivity|]. split; [reflexivity|].
  destruct (set_sel_none _ _ _ E) as [[-> H2]|(s & -> & H2 & b0 & Hb0 & E0)].
  - left. split; [reflexivity|]. assert (Hc : forall b, In b (inputs o) -> const_at g b) by (intros b Hb; apply sid_none_const; auto).
    split; [|exact Hc]. destruct (first_store g (inputs o)) as [r|] eqn:F; [|reflexivity].
    apply first_store_some in F as (b & Hb & Eb). rewrite (const_store g b (Hc b Hb)) in Eb. discriminate.
  - right. destruct s as [s|].
    + right. destruct (sid_obj _ _ _ Hg E0) as (A1 & A2 & A3 & A4).
      destruct (store_of g b0) as [r|] eqn:Er; [|congruence]. exists s, r.
      assert (Hall : forall b, In b (inputs o) -> const_at g b \/ (store_of g b = Some r /\ selection_id g b = Some (Obj s))).
      { intros b Hb. destruct (H2 b Hb) as [N|N]; [left; apply sid_none_const; auto|right]. split; [|exact N].
        destruct (sid_obj _ _ _ Hg N) as (_ & _ & B3 & _). congruence. }
      ands; auto; [|specialize (Hin b0 Hb0); lia].
      destruct (first_store g (inputs o)) as [r'|] eqn:F.
      * apply first_store_some in F as (b & Hb & Eb). destruct (Hall b Hb) as [C|[C _]]; [rewrite (const_store _ _ C) in Eb; discriminate|congruence].
      * rewrite (first_store_none _ _ F b0 Hb0) in Er. discriminate.
    + left. split; [reflexivity|]. destruct (first_store g (inputs o)) as [r|] eqn:F; [|reflexivity].
      apply first_store_some in F as (b & Hb & Eb). destruct (H2 b Hb) as [N|N].
      * rewrite (const_store _ _ (sid_none_const _ _ Hg (Hin b Hb) N)) in Eb. discriminate.
      * rewrite (sid_noneid _ _ Hg N) in Eb. discriminate.
Qed.

Definition is_select (o : op K V) : Prop := exists x m, o = OSelect x m.

Lemma graph_inv_app (g : gr) n : graph_inv g -> node_inv (g ++ [n]) (length g) n -> graph_inv (g ++ [n]).
Proof.
  intros Hg Hn a m Hm. destruct (Nat.lt_ge_cases a (length g)) as [H|H].
  - rewrite nth_app_lt in Hm by auto. apply node_inv_app; auto.
  - destruct (Nat.eq_dec a (length g)) as [->|N].
    + rewrite nth_last in Hm. injection Hm as <-. exact Hn.
    + exfalso. assert (nth_error (g ++ [n]) a = None) by (apply nth_error_None; rewrite app_length; cbn; lia). congruence.
Qed.

Lemma last_store (g : gr) n : (forall r, n_op n <> ORoot r) -> (forall c, n_op n <> OConst c) -> store_of (g ++ [n]) (length g) = n_store n.
Proof. intros H1 H2. unfold store_of. rewrite nth_last. destruct (n_op n) eqn:E; try reflexivity; [now destruct (H1 r)|now destruct (H2 c)]. Qed.
Lemma last_sid (g : gr) n : (forall r, n_op n <> ORoot r) -> (forall c, n_op n <> OConst c) ->
  selection_id (g ++ [n]) (length g) = Some (match n_sel n with Some s => s | None => match n_store n with Some r => Obj r | None => NoneId end end).
Proof. intros H1 H2. unfold selection_id. rewrite nth_last. destruct (n_op n) eqn:E; try reflexivity; [now destruct (H1 r)|now destruct (H2 c)]. Qed.

(** A new object other than a selection keeps the invariant. *)
Lemma new_plain_inv (g g' : gr) t mask o : graph_inv g -> new_quantity g t mask o = Ok g' ->
  (forall b, In b (inputs o) -> b < length g) -> (forall r, o <> ORoot r) -> (forall c, o <> OConst c) ->
  (forall p x, o <> OSub p x) -> (forall x m, o <> OSelect x m) -> (forall ps, o = OConcat ps -> forall b, In b ps -> store_of g b <> None) ->
  graph_inv g' /\ length g' = S (length g).
Proof.
  intros Hg H Hin Hnr Hnc Hns Hnsel Hcat.
  destruct (new_quantity_inv _ _ _ _ _ Hg H Hin Hnr Hnc) as (n & -> & Ho & Hst & Hcase). split; [|rewrite app_length; cbn; lia].
  assert (Hnr' : forall r, n_op n <> ORoot r) by (rewrite Ho; exact Hnr).
  assert (Hnc' : forall c, n_op n <> OConst c) by (rewrite Ho; exact Hnc).
  apply graph_inv_app; auto. constructor; rewrite ?Ho.
  - exact Hin.
  - exact Hns.
  - rewrite last_sid, last_store by auto. rewrite Hst. destruct Hcase as [(-> & -> & _)|[(-> & ->)|(s & r & -> & -> & A1 & A2 & A3 & A4)]]; auto.
    rewrite store_app, sid_app by auto. ands; auto; [lia|congruence].
  - rewrite last_store by auto. rewrite Hst. intros E b Hb. rewrite store_app by auto. now apply (first_store_none g (inputs o)).
  - rewrite last_store by auto. rewrite Hst. intros E. right.
    destruct Hcase as [(_ & C & _)|[(_ & C)|(s & r & Es & Er & A1 & A2 & A3 & A4)]]; try congruence. exists s. ands.
    + intros b Hb. specialize (Hin b Hb). rewrite const_app, store_app, sid_app, Er by lia. now apply A4.
    + destruct (first_store_some _ _ _ Er) as (b & Hb & Eb). exists b. rewrite store_app, Er by auto. auto.
    + left. rewrite last_sid, Es by auto. split; [reflexivity|exact Hnsel].
  - intros ps E b Hb. rewrite store_app; [now apply (Hcat ps)|]. apply Hin. rewrite E. exact Hb.
  - intros x m E. now destruct (Hnsel x m).
Qed.

Lemma upd_last {A} (l : list A) x f : upd (l ++ [x]) (length l) f = l ++ [f x].
Proof. induction l as [|y l IH]; [reflexivity|]. cbn. now rewrite IH. Qed.

Lemma mapM_numeric (g : gr) (f : gr -> nat -> res (node K V)) ps ns : (forall b n, f g b = Ok n -> b < length g) -> mapM (f g) ps = Ok ns -> forall b, In b ps -> b < length g.
Proof.
  intros Hf. revert ns. induction ps as [|p ps IH]; intros ns H b Hb; [destruct Hb|]. cbn in H.
  destruct (f g p) as [n|] eqn:E; [|discriminate]. cbn in H. destruct (mapM (f g) ps) as [l|] eqn:E2; [|discriminate].
  destruct Hb as [<-|Hb]; [eapply Hf; eauto|eapply IH; eauto].
Qed.
Lemma numeric_lt (g : gr) a n : numeric g a = Ok n -> a < length g /\ nth_error g a = Some n.
Proof. unfold numeric. destruct (nth_error g a) eqn:E; [|discriminate]. destruct (n_mask _); [discriminate|]. intros H. split; [apply nth_error_Some; congruence|congruence]. Qed.
Lemma masked_lt (g : gr) a n : masked g a = Ok n -> a < length g /\ nth_error g a = Some n.
Proof. unfold masked. destruct (nth_error g a) eqn:E; [|discriminate]. destruct (n_mask _); [|discriminate]. intros H. split; [apply nth_error_Some; congruence|congruence]. Qed.

Lemma new_mask_inv (g g' : gr) f a b : graph_inv g -> new_mask g f a b = Ok g' -> graph_inv g' /\ length g' = S (length g) /\ exists l, g' = g ++ l.
Proof.
  intros Hg H. unfold new_mask in H. destruct (masked g a) as [na|] eqn:Ea; [|discriminate]. destruct (masked g b) as [nb|] eqn:Eb; [|discriminate].
  cbn [bind] in H. apply masked_lt in Ea as [Ea _]. apply masked_lt in Eb as [Eb _].
  destruct (new_plain_inv _ _ _ _ _ Hg H) as [H1 H2]; try discriminate; auto.
  { intros x [<-|[<-|[]]]; auto. }
  ands; auto. unfold new_quantity in H. destruct (set_selection_id _ _ _); [|discriminate]. cbn [bind] in H. destruct (check_selection_ids _ _ _ _); [|discriminate].
  injection H as <-. eauto.
Qed.

Lemma and_masks_inv ms : forall (g : gr) m g' m', graph_inv g -> m < length g -> and_masks g m ms = Ok (g', m') ->
  graph_inv g' /\ m' < length g' /\ exists l, g' = g ++ l.
Proof.
  induction ms as [|x ms IH]; intros g m g' m' Hg Hm H; cbn in H.
  - injection H as <- <-. ands; auto. exists []. now rewrite app_nil_r.
  - destruct (new_mask g andb m x) as [g1|] eqn:E; [|discriminate]. cbn [bind] in H.
    destruct (new_mask_inv _ _ _ _ _ Hg E) as (H1 & H2 & l1 & ->). assert (H5 : length g < length (g ++ l1)) by lia. destruct (IH _ _ _ _ H1 H5 H) as (H3 & H4 & l2 & ->).
    ands; auto. exists (l1 ++ l2). now rewrite app_assoc.
Qed.

Lemma build_inv (g g' : gr) c : graph_inv g -> plain g c -> build K_eq g c = Ok g' -> graph_inv g' /\ exists l, g' = g ++ l.
Proof.
  intros Hg Hp H.
  assert (Happ : forall t mask o, new_quantity g t mask o = Ok g' -> exists l, g' = g ++ l).
  { intros t mask o E. unfold new_quantity in E. destruct (set_selection_id _ _ _); [|discriminate]. cbn [bind] in E. destruct (check_selection_ids _ _ _ _); [|discriminate].
    injection E as <-. eauto. }
  assert (Hroot : forall r t, graph_inv (g ++ [mkNode (ORoot r) t false None None])).
  { intros r t. apply graph_inv_app; auto. constructor; cbn; try discriminate; try contradiction.
    - unfold selection_id, store_of. rewrite !nth_last. cbn. ands; auto. + discriminate. + rewrite nth_last. reflexivity. + rewrite nth_last. reflexivity.
    - intros _. left. eauto. }
  assert (Hconst : forall v t, graph_inv (g ++ [mkNode (OConst v) t false None None])).
  { intros v t. apply graph_inv_app; auto. constructor; cbn; try discriminate; try contradiction.
    - unfold selection_id. rewrite nth_last. cbn. eauto.
    - intros E. exfalso. apply E. unfold store_of. rewrite nth_last. reflexivity. }
  destruct c; cbn [build plain] in *.
  - injection H as <-. split; [apply Hroot|eauto].
  - injection H as <-. split; [apply Hconst|eauto].
  - destruct (numeric g a) as [na|] eqn:Ea; [|discriminate]. destruct (numeric g b) as [nb|] eqn:Eb; [|discriminate]. cbn [bind] in H.
    apply numeric_lt in Ea as [Ea _]. apply numeric_lt in Eb as [Eb _].
    assert (G : forall t, new_quantity g t false (OBin f a b) = Ok g' -> graph_inv g' /\ exists l, g' = g ++ l).
    { intros t E. split; [|eauto]. eapply new_plain_inv; eauto; try discriminate. intros x [<-|[<-|[]]]; auto. }
    destruct (is_const na), (is_const nb); eauto; discriminate.
  - destruct (numeric g a) as [na|] eqn:Ea; [|discriminate]. cbn [bind] in H. apply numeric_lt in Ea as [Ea _].
    split; [|eauto]. eapply new_plain_inv; eauto; try discriminate. intros x [<-|[]]; auto.
  - destruct (numeric g a) as [na|] eqn:Ea; [|discriminate]. cbn [bind] in H. apply numeric_lt in Ea as [Ea _].
    destruct (get_key K_eq (n_type na) k) as [qs|]; [|discriminate]. cbn [bind] in H.
    split; [|eauto]. eapply new_plain_inv; eauto; try discriminate. intros x [<-|[]]; auto.
  - destruct (mapM (numeric g) parts) as [ns|] eqn:Ea; [|discriminate]. cbn [bind] in H. destruct (mk _) as [t|]; [|discriminate]. cbn [bind] in H.
    assert (Hlt : forall b, In b parts -> b < length g) by (eapply mapM_numeric; eauto; intros b n E; now apply numeric_lt in E).
    split; [|eauto]. eapply new_plain_inv; eauto; try discriminate. intros ps E. injection E as <-. exact Hp.
  - destruct (numeric g a) as [na|] eqn:Ea; [|discriminate]. cbn [bind] in H. apply numeric_lt in Ea as [Ea _].
    split; [|eauto]. eapply new_plain_inv; eauto; try discriminate. intros x [<-|[]]; auto.
  - destruct (numeric g a) as [na|] eqn:Ea; [|discriminate]. destruct (numeric g b) as [nb|] eqn:Eb; [|discriminate]. cbn [bind] in H.
    apply numeric_lt in Ea as [Ea _]. apply numeric_lt in Eb as [Eb _].
    split; [|eauto]. eapply new_plain_inv; eauto; try discriminate. intros x [<-|[<-|[]]]; auto.
  - destruct (new_mask_inv _ _ _ _ _ Hg H) as (H1 & _ & H2). auto.
  - destruct (numeric g a) as [na|] eqn:Ea; [|discriminate]. cbn [bind] in H. apply numeric_lt in Ea as [Ea _].
    destruct ms as [|m ms]; [discriminate|]. destruct (mapM (masked g) (m :: ms)) as [ns|] eqn:Em; [|discriminate]. cbn [bind] in H.
    assert (Hm : m < length g) by (eapply (mapM_numeric g (@masked K V)); [intros b n E; apply masked_lt in E; apply E|exact Em|now left]).
    destruct (and_masks g m ms) as [[g1 m']|] eqn:E1; [|discriminate]. cbn [bind fst snd] in H.
    destruct (and_masks_inv _ _ _ _ _ Hg Hm E1) as (Hg1 & Hm' & l1 & ->). set (g1 := g ++ l1) in *.
    destruct (new_quantity g1 (n_type na) false (OSelect a m')) as [g2|] eqn:E2; [|discriminate]. cbn [bind] in H.
    assert (Hin : forall b, In b (inputs (@OSelect K V a m')) -> b < length g1).
    { intros b [<-|[<-|[]]]; auto. unfold g1. rewrite app_length. lia. }
    destruct (new_quantity_inv _ _ _ _ _ Hg1 E2 Hin) as (n & -> & Ho & Hst & Hcase); try discriminate.
    rewrite upd_last in H. injection H as <-. split; [|exists (l1 ++ [mkNode (n_op n) (n_type n) (n_mask n) (n_store n) (Some (Obj (length g1)))]); unfold g1; now rewrite app_assoc].
    set (n' := mkNode (n_op n) (n_type n) (n_mask n) (n_store n) (Some (Obj (length g1)))).
    assert (Ha : store_of g1 a <> None) by (unfold g1; rewrite store_app by auto; exact Hp).
    assert (Hfs : first_store g1 (inputs (@OSelect K V a m')) = store_of g1 a) by (cbn [inputs first_store]; destruct (store_of g1 a); [reflexivity|congruence]).
    assert (Hnr' : forall r, n_op n' <> ORoot r) by (cbn; rewrite Ho; discriminate).
    assert (Hnc' : forall v, n_op n' <> OConst v) by (cbn; rewrite Ho; discriminate).
    apply graph_inv_app; auto. constructor; change (n_op n') with (n_op n); rewrite ?Ho; try discriminate.
    + exact Hin.
    + rewrite last_sid, last_store by auto. cbn [n_sel n' n_store]. rewrite last_store, last_sid by auto. cbn [n_sel n' n_store]. rewrite Hst, Hfs. ands; auto.
    + rewrite last_store by auto. cbn [n_store n']. rewrite Hst. intros E b Hb. rewrite store_app by auto. now apply (first_store_none g1 (inputs (@OSelect K V a m'))).
    + rewrite last_store by auto. cbn [n_store n']. rewrite Hst. intros E. right.
      destruct Hcase as [(_ & C & _)|[(_ & C)|(s & r & Es & Er & A1 & A2 & A3 & A4)]]; try congruence. exists s. ands.
      * intros b Hb. specialize (Hin b Hb). rewrite const_app, store_app, sid_app, Er by lia. now apply A4.
      * destruct (first_store_some _ _ _ Er) as (b & Hb & Eb). exists b. rewrite store_app, Er by auto. auto.
      * right. rewrite last_sid by auto. cbn [n_sel n']. eauto.
    + intros x m0 E. injection E as <- _. rewrite store_app; [exact Ha|]. unfold g1. rewrite app_length. lia.
  - destruct Hp.
Qed.

Lemma built_inv (g : gr) : built K_eq g -> graph_inv g.
Proof.
  induction 1 as [|g c g' Hb IH Hp H]; [intros [|a] n E; discriminate|]. now apply (build_inv g g' c).
Qed.

(** * Values *)
Definition evs (env : nat -> arr V) lvl cid tys (g : gr) (vals : list (res (val V))) :=
  fold_left (fun vals n => vals ++ [eval_op K_eq env lvl cid tys vals (n_op n)]) g vals.
Lemma evs_prefix env lvl cid tys (g : gr) : forall vals, exists l, evs env lvl cid tys g vals = vals ++ l /\ length l = length g.
Proof.
  induction g as [|n g IH]; intros vals; cbn.
  - exists []. split; [now rewrite app_nil_r|reflexivity].
  - destruct (IH (vals ++ [eval_op K_eq env lvl cid tys vals (n_op n)])) as (l & E & L). unfold evs in E. rewrite E.
    exists (eval_op K_eq env lvl cid tys vals (n_op n) :: l). split; [now rewrite <- app_assoc|cbn; lia].
Qed.
Lemma evs_nth env lvl cid tys (g : gr) : forall vals a n, nth_error g a = Some n ->
  exists l, at_ (evs env lvl cid tys g vals) (length vals + a) = eval_op K_eq env lvl cid tys (vals ++ l) (n_op n) /\ length l = a
  /\ exists l', evs env lvl cid tys g vals = vals ++ l ++ l'.
Proof.
  induction g as [|m g IH]; intros vals a n H; [destruct a; discriminate|]. destruct a as [|a]; cbn in H.
  - injection H as <-. exists []. rewrite app_nil_r. cbn [evs fold_left].
    destruct (evs_prefix env lvl cid tys g (vals ++ [eval_op K_eq env lvl cid tys vals (n_op m)])) as (l & E & L). unfold evs in E.
    ands; auto.
    + unfold at_. cbn. rewrite E, Nat.add_0_r, <- app_assoc, app_nth2, Nat.sub_diag by lia. reflexivity.
    + exists (eval_op K_eq env lvl cid tys vals (n_op m) :: l). cbn. rewrite E, <- app_assoc. reflexivity.
  - destruct (IH (vals ++ [eval_op K_eq env lvl cid tys vals (n_op m)]) a n H) as (l & E & L & l' & E').
    exists (eval_op K_eq env lvl cid tys vals (n_op m) :: l). cbn [evs fold_left]. rewrite <- app_assoc in E. ands.
    + rewrite app_length, <- Nat.add_assoc in E. exact E.
    + cbn. now rewrite L.
    + exists l'. unfold evs in E'. rewrite E', <- app_assoc. reflexivity.
Qed.

Definition agree (vals vals' : list (res (val V))) (l : list nat) : Prop := forall b, In b l -> at_ vals b = at_ vals' b.
Lemma eval_op_ext env env' lvl cid tys vals vals' o : agree vals vals' (inputs o) -> (forall r, o = ORoot r -> env r = env' r) ->
  eval_op K_eq env lvl cid tys vals o = eval_op K_eq env' lvl cid tys vals' o.
Proof.
  intros H Hr. destruct o; cbn [eval_op inputs] in *; try reflexivity.
  - rewrite (Hr r) by reflexivity. reflexivity.
  - rewrite !(H a), !(H b) by (cbn; auto). reflexivity.
  - rewrite !(H a) by (cbn; auto). reflexivity.
  - rewrite !(H a) by (cbn; auto). reflexivity.
  - assert (E : mapM (fun p => num_of (at_ vals p)) parts = mapM (fun p => num_of (at_ vals' p)) parts) by (apply mapM_ext; intros p Hp; now rewrite (H p)).
    rewrite E. reflexivity.
  - rewrite !(H a) by (cbn; auto). reflexivity.
  - rewrite !(H a), !(H b) by (cbn; auto). reflexivity.
  - rewrite !(H a), !(H b) by (cbn; auto). reflexivity.
  - rewrite !(H a), !(H m) by (cbn; auto). reflexivity.
  - rewrite !(H a) by (cbn; auto). reflexivity.
Qed.

(** The samples of an object are its operation applied to the samples of its inputs. *)
Lemma samples_op env lvl cid (g : gr) a n : graph_inv g -> nth_error g a = Some n ->
  samples K_eq env lvl cid g a = eval_op K_eq env lvl cid (map n_type g) (eval_all K_eq env lvl cid g) (n_op n).
Proof.
  intros Hg H. destruct (evs_nth env lvl cid (map n_type g) g [] a n H) as (l & E & L & l' & E'). cbn in E, E'.
  unfold samples, eval_all. unfold evs in E, E'. rewrite E. apply eval_op_ext; [|auto].
  intros b Hb. unfold at_. rewrite E'. apply (ni_inputs _ _ _ (Hg _ _ H)) in Hb. rewrite app_nth1 by lia. reflexivity.
Qed.

Definition width (v : res (val V)) : nat := match v with Ok (Num (r :: _)) => length r | _ => 0 end.
Definition homv (w1 w2 k : nat) (v1 v2 v : res (val V)) : Prop :=
  (exists e, v1 = Err e /\ v2 = Err e /\ v = Err e)
  \/ (exists ps, Forall (pairok w1 w2 k) ps /\ v1 = Ok (Num (map fst ps)) /\ v2 = Ok (Num (map snd ps)) /\ v = Ok (Num (map papp ps)))
  \/ (exists m1 m2, length m1 = w1 /\ length m2 = w2 /\ v1 = Ok (Mask m1) /\ v2 = Ok (Mask m2) /\ v = Ok (Mask (m1 ++ m2))).

Lemma hom_homv w1 w2 k (x1 x2 x : res (arr V)) : hom w1 w2 k x1 x2 x ->
  homv w1 w2 k (bind x1 (fun z => Ok (Num z))) (bind x2 (fun z => Ok (Num z))) (bind x (fun z => Ok (Num z))).
Proof.
  intros [(e & -> & -> & ->)|(ps & Hp & -> & -> & ->)]; [left; exists e; auto|]. right. left. exists ps. auto.
Qed.

Lemma shaped_pairs M n1 n2 k (x y : arr V) : shaped M n1 k x -> shaped M n2 k y ->
  Forall (pairok n1 n2 k) (combine x y) /\ map fst (combine x y) = x /\ map snd (combine x y) = y /\ map papp (combine x y) = beside x y.
Proof.
  intros [Hx Hx'] [Hy Hy']. ands.
  - apply Forall_forall. intros [r t] H. split; cbn.
    + apply Hx'. now apply in_combine_l in H. + apply Hy'. now apply in_combine_r in H.
  - clear Hx' Hy'. subst M. revert y Hy. induction x as [|r x IH]; intros [|t y] E; try discriminate; [reflexivity|]. cbn. f_equal. apply IH. now injection E.
  - clear Hx' Hy'. subst M. revert y Hy. induction x as [|r x IH]; intros [|t y] E; try discriminate; [reflexivity|]. cbn. f_equal. apply IH. now injection E.
  - reflexivity.
Qed.

Lemma pair_width w1 w2 k (ps : list (list (list V) * list (list V))) : Forall (pairok w1 w2 k) ps ->
  Forall (pairok (width (Ok (Num (map fst ps)))) (width (Ok (Num (map snd ps)))) k) ps.
Proof.
  intros H. destruct ps as [|p ps]; [constructor|]. cbn [map width].
  assert (E : length (fst p) = w1 /\ length (snd p) = w2) by (inversion_clear H as [|? ? [[A1 _] [A2 _]] _]; auto).
  destruct E as [-> ->]. exact H.
Qed.

Section Join.
Variables (k : nat) (e1 e2 e : nat -> arr V) (lvl cid : nat) (g : gr).
Hypothesis He : splits k e1 e2 e.
Hypothesis Hg : graph_inv g.
Notation v1 := (samples K_eq e1 lvl cid g).
Notation v2 := (samples K_eq e2 lvl cid g).
Notation v := (samples K_eq e lvl cid g).

Definition claim (a : nat) : Prop :=
  (store_of g a = None -> v1 a = v2 a /\ v2 a = v a)
  /\ forall s, store_of g a <> None -> selection_id g a = Some (Obj s) -> homv (width (v1 s)) (width (v2 s)) k (v1 a) (v2 a) (v a).

Lemma homv_num w1 w2 x1 x2 x (F : arr V -> res (val V)) :
  homv w1 w2 k x1 x2 x ->
  (forall ps, Forall (pairok w1 w2 k) ps -> homv w1 w2 k (F (map fst ps)) (F (map snd ps)) (F (map papp ps))) ->
  homv w1 w2 k (bind (num_of x1) F) (bind (num_of x2) F) (bind (num_of x) F).
Proof.
  intros [(er & -> & -> & ->)|[(ps & Hp & -> & -> & ->)|(m1 & m2 & L1 & L2 & -> & -> & ->)]] HF; cbn [num_of bind].
  - left. exists er. auto. - auto. - left. exists TypeError. auto.
Qed.

Lemma bin_homv {W} w1 w2 x1 x2 x y1 y2 y (f : V -> V -> W) (F : list (list (list W)) -> res (val V)) :
  (homv w1 w2 k x1 x2 x \/ exists c, x1 = Ok (Num (const_arr c)) /\ x2 = x1 /\ x = x1) ->
  (homv w1 w2 k y1 y2 y \/ exists c, y1 = Ok (Num (const_arr c)) /\ y2 = y1 /\ y = y1) ->
  (homv w1 w2 k x1 x2 x \/ homv w1 w2 k y1 y2 y) ->
  (forall ps, Forall (pairok w1 w2 k) ps -> homv w1 w2 k (F (map fst ps)) (F (map snd ps)) (F (map papp ps))) ->
  homv w1 w2 k (bind (num_of x1) (fun a => bind (num_of y1) (fun b => bind (bin f a b) F)))
               (bind (num_of x2) (fun a => bind (num_of y2) (fun b => bind (bin f a b) F)))
               (bind (num_of x) (fun a => bind (num_of y) (fun b => bind (bin f a b) F))).
Proof.
  intros Hx Hy Hxy HF.
  assert (G : forall z1 z2 z, hom w1 w2 k z1 z2 z -> homv w1 w2 k (bind z1 F) (bind z2 F) (bind z F)).
  { intros z1 z2 z [(er & -> & -> & ->)|(ps & Hp & -> & -> & ->)]; cbn [bind]; [left; exists er; auto|auto]. }
  destruct Hx as [[(er & -> & -> & ->)|[(ps & Hp & -> & -> & ->)|(m1 & m2 & L1 & L2 & -> & -> & ->)]]|(c & Ex & -> & ->)].
  - cbn. left. exists er. auto.
  - destruct Hy as [[(er & -> & -> & ->)|[(qs & Hq & -> & -> & ->)|(m1 & m2 & L1 & L2 & -> & -> & ->)]]|(c & -> & -> & ->)]; cbn [num_of bind].
    + left. exists er. auto. + apply G, bin_pairs; auto. + left. exists TypeError. auto. + apply G, bin_const_r; auto.
  - cbn. left. exists TypeError. auto.
  - destruct Hy as [[(er & -> & -> & ->)|[(qs & Hq & -> & -> & ->)|(m1 & m2 & L1 & L2 & -> & -> & ->)]]|(c' & Ey & -> & ->)]; rewrite Ex; cbn [num_of bind].
    + left. exists er. auto. + apply G, bin_const_l; auto. + left. exists TypeError. auto.
    + rewrite Ex, Ey in Hxy. destruct Hxy as [Hxy|Hxy].
      * destruct Hxy as [(er & C & _)|[(ps & Hp & C1 & C2 & C3)|(m1 & m2 & _ & _ & C & _)]]; try discriminate.
        rewrite Ey. cbn [num_of bind]. apply G. 
        assert (E1 : const_arr c = map fst ps) by congruence. rewrite E1 at 1. assert (E2 : const_arr c = map snd ps) by congruence. rewrite E2 at 1.
        assert (E3 : const_arr c = map papp ps) by congruence. rewrite E3. now apply bin_const_r.
      * destruct Hxy as [(er & C & _)|[(ps & Hp & C1 & C2 & C3)|(m1 & m2 & _ & _ & C & _)]]; try discriminate.
        rewrite Ey. cbn [num_of bind]. apply G.
        assert (E1 : const_arr c' = map fst ps) by congruence. rewrite E1 at 1. assert (E2 : const_arr c' = map snd ps) by congruence. rewrite E2 at 1.
        assert (E3 : const_arr c' = map papp ps) by congruence. rewrite E3. now apply bin_const_l.
Qed.

Lemma const_value b env : const_at g b -> exists c, nth_error (map n_op g) b = Some (OConst c) /\ samples K_eq env lvl cid g b = Ok (Num (const_arr c)).
Proof.
  intros (n & c & E & Ho). exists c. rewrite nth_error_map, E. cbn. split; [now rewrite Ho|]. rewrite (samples_op _ _ _ _ _ _ Hg E), Ho. reflexivity.
Qed.

Lemma claims : forall a, a < length g -> claim a.
Proof.
  intros a. induction a as [a IH] using lt_wf_ind. intros Ha.
  destruct (nth_error g a) as [n|] eqn:En; [|apply nth_error_None in En; lia].
  pose proof (Hg _ _ En) as NI. pose proof (ni_inputs _ _ _ NI) as Hi. split.
  - intros Hst. rewrite !(samples_op _ _ _ _ _ _ Hg En).
    assert (Hr : forall r, n_op n <> ORoot r). { intros r E. unfold store_of in Hst. rewrite En, E in Hst. discriminate. }
    assert (Hag : forall b, In b (inputs (n_op n)) -> v1 b = v2 b /\ v2 b = v b).
    { intros b Hb. apply IH; [now apply Hi|specialize (Hi b Hb); lia|]. now apply (ni_none _ _ _ NI). }
    split; apply eval_op_ext; try (intros r E; destruct (Hr r E)); intros b Hb; destruct (Hag b Hb); assumption.
  - intros s Hst Hsid. destruct (ni_some _ _ _ NI Hst) as [[r Hr]|(s0 & Hin & Hex & Hkind)].
    + assert (s = a). { unfold selection_id in Hsid. rewrite En, Hr in Hsid. congruence. } subst s.
      rewrite !(samples_op _ _ _ _ _ _ Hg En), Hr. cbn [eval_op]. destruct (He r) as (M & n1 & n2 & S1 & S2 & ->).
      destruct (shaped_pairs _ _ _ _ _ _ S1 S2) as (P1 & P2 & P3 & P4). right. left. exists (combine (e1 r) (e2 r)).
      rewrite P2, P3, P4. ands; auto. rewrite <- P2 at 1. rewrite <- P3 at 2. now apply (pair_width n1 n2).
    + set (w1 := width (v1 s0)) in *. set (w2 := width (v2 s0)) in *.
      assert (Hb : forall b, In b (inputs (n_op n)) -> homv w1 w2 k (v1 b) (v2 b) (v b) \/ exists c, v1 b = Ok (Num (const_arr c)) /\ v2 b = v1 b /\ v b = v1 b).
      { intros b Hb. destruct (Hin b Hb) as [C|[C1 C2]].
        - right. destruct (const_value b e1 C) as (c & E1 & ->). destruct (const_value b e2 C) as (c' & E2 & ->). destruct (const_value b e C) as (c'' & E3 & ->).
          exists c. rewrite E1 in E2, E3. assert (c' = c) by congruence. assert (c'' = c) by congruence. subst. auto.
        - left. apply IH; auto; [specialize (Hi b Hb); lia|congruence]. }
      assert (Hb' : forall b, In b (inputs (n_op n)) -> store_of g b <> None -> homv w1 w2 k (v1 b) (v2 b) (v b)).
      { intros b Ib Sb. destruct (Hin b Ib) as [C|[C1 C2]]; [rewrite (const_store _ _ C) in Sb; congruence|].
        apply IH; auto. specialize (Hi b Ib); lia. }
      assert (Hone : exists b, In b (inputs (n_op n)) /\ homv w1 w2 k (v1 b) (v2 b) (v b)).
      { destruct Hex as (b & Ib & Eb). exists b. split; auto. apply Hb'; auto. congruence. }
      destruct Hkind as [[Hs Hns]|[Hs (x & m & Hsel)]].
      * assert (s = s0) by congruence. subst s. fold w1 w2. rewrite !(samples_op _ _ _ _ _ _ Hg En).
        unfold samples in Hb, Hb', Hone. 
        destruct (n_op n) as [r|c|f x y|f x|ky x|parts|r ev d bt x|c x y|f x y|x m|p x] eqn:Eo; cbn [eval_op inputs] in *.
        -- exfalso. destruct Hex as (b & [] & _).
        -- exfalso. destruct Hex as (b & [] & _).
        -- apply (bin_homv w1 w2); [apply Hb; cbn; auto|apply Hb; cbn; auto| |].
           ++ destruct Hone as (b & [<-|[<-|[]]] & Hh); auto.
           ++ intros ps Hp. right. left. exists ps. auto.
        -- destruct Hone as (b & [<-|[]] & Hh). apply (homv_num w1 w2); auto. intros ps Hp. right. left.
           exists (map (fun p => (map (map f) (fst p), map (map f) (snd p))) ps). rewrite !map_map. ands; auto.
           ++ rewrite Forall_forall in *. intros q Hq. apply in_map_iff in Hq as (p & <- & Ip). destruct (Hp p Ip) as [[A1 A1'] [A2 A2']].
              split; cbn; (split; [now rewrite map_length|]); intros t Ht; apply in_map_iff in Ht as (t' & <- & Ht); rewrite map_length; auto.
           ++ do 2 f_equal. apply map_ext. intros p. unfold papp. apply map_app.
        -- destruct Hone as (b & [<-|[]] & Hh). apply (homv_num w1 w2); auto. intros ps Hp. apply hom_homv. now apply item_pairs.
        -- assert (G : forall l, incl l parts ->
              (exists er, mapM (fun p => num_of (at_ (eval_all K_eq e1 lvl cid g) p)) l = Err er /\ mapM (fun p => num_of (at_ (eval_all K_eq e2 lvl cid g) p)) l = Err er /\ mapM (fun p => num_of (at_ (eval_all K_eq e lvl cid g) p)) l = Err er)
              \/ exists pss, Forall (Forall (pairok w1 w2 k)) pss /\ mapM (fun p => num_of (at_ (eval_all K_eq e1 lvl cid g) p)) l = Ok (map (map fst) pss)
                 /\ mapM (fun p => num_of (at_ (eval_all K_eq e2 lvl cid g) p)) l = Ok (map (map snd) pss) /\ mapM (fun p => num_of (at_ (eval_all K_eq e lvl cid g) p)) l = Ok (map (map papp) pss)).
           { induction l as [|q l IHl]; intros Hl; [right; exists []; ands; auto|].
             assert (Hq : homv w1 w2 k (at_ (eval_all K_eq e1 lvl cid g) q) (at_ (eval_all K_eq e2 lvl cid g) q) (at_ (eval_all K_eq e lvl cid g) q)).
             { apply Hb'; [apply Hl; now left|]. apply (ni_concat _ _ _ NI parts Eo). apply Hl. now left. }
             cbn [mapM]. destruct Hq as [(er & -> & -> & ->)|[(ps & Hp & -> & -> & ->)|(m1 & m2 & _ & _ & -> & -> & ->)]]; cbn [num_of bind].
             - left. exists er. auto.
             - destruct IHl as [(er & -> & -> & ->)|(pss & H0 & -> & -> & ->)]; [intros z Hz; apply Hl; now right|left; exists er; auto|].
               right. exists (ps :: pss). ands; auto.
             - left. exists TypeError. auto. }
           destruct (G parts (incl_refl _)) as [(er & -> & -> & ->)|(pss & H0 & -> & -> & ->)]; cbn [bind]; [left; exists er; auto|].
           apply hom_homv. now apply concat_pairs.
        -- destruct Hone as (b & [<-|[]] & Hh). apply (homv_num w1 w2); auto. intros ps Hp.
           apply (hom_homv w1 w2 k (Ok _) (Ok _) (Ok _)). now apply moments_pairs.
        -- apply (bin_homv w1 w2); [apply Hb; cbn; auto|apply Hb; cbn; auto| |].
           ++ destruct Hone as (b & [<-|[<-|[]]] & Hh); auto.
           ++ intros ps Hp. destruct (process_mask_pairs w1 w2 k ps Hp) as [(er & -> & -> & ->)|(m1 & m2 & L1 & L2 & -> & -> & ->)]; cbn [bind].
              ** left. exists er. auto. ** right. right. exists m1, m2. auto.
        -- assert (Hx := Hb x (or_introl eq_refl)). assert (Hy := Hb y (or_intror (or_introl eq_refl))).
           destruct Hx as [[(er & -> & -> & ->)|[(ps & Hp & -> & -> & ->)|(m1 & m2 & L1 & L2 & -> & -> & ->)]]|(c & -> & -> & ->)]; cbn [mask_of bind];
             try (left; eexists; auto; fail).
           destruct Hy as [[(er & -> & -> & ->)|[(ps & Hp & -> & -> & ->)|(m3 & m4 & L3 & L4 & -> & -> & ->)]]|(c & -> & -> & ->)]; cbn [mask_of bind];
             try (left; eexists; auto; fail).
           rewrite !(bcast_ok _ f) by auto. unfold compat. rewrite !app_length, L1, L2, L3, L4, !Nat.eqb_refl. cbn [orb bind].
           rewrite !bz_eq by (rewrite ?app_length; congruence). right. right. exists (zipw f m1 m3), (zipw f m2 m4). rewrite !zipw_length by congruence.
           ands; auto. rewrite zipw_app by congruence. reflexivity.
        -- destruct (Hns x m eq_refl).
        -- destruct (ni_nosub _ _ _ NI p x Eo).
      * assert (s = a) by congruence. subst s. rewrite !(samples_op _ _ _ _ _ _ Hg En). rewrite Hsel in *. cbn [eval_op inputs] in *.
        assert (Hx := Hb' x (or_introl eq_refl) (ni_select _ _ _ NI x m Hsel)). assert (Hm := Hb m (or_intror (or_introl eq_refl))). unfold samples in Hx, Hm.
        destruct Hx as [(er & -> & -> & ->)|[(ps & Hp & -> & -> & ->)|(m1 & m2 & L1 & L2 & -> & -> & ->)]]; cbn [num_of bind];
          try (left; eexists; auto; fail).
        destruct Hm as [[(er & -> & -> & ->)|[(qs & Hq & -> & -> & ->)|(m1 & m2 & L1 & L2 & -> & -> & ->)]]|(c & -> & -> & ->)]; cbn [mask_of bind];
          try (left; eexists; auto; fail).
        destruct (select_pairs w1 w2 k ps m1 m2 Hp L1 L2) as (ps' & Hp' & -> & -> & ->). cbn [bind]. right. left. exists ps'. ands; auto.
        eapply pair_width; eauto.
Qed.
End Join.

Lemma papp_beside (ps : list (list (list V) * list (list V))) : map papp ps = beside (map fst ps) (map snd ps).
Proof. unfold beside. induction ps as [|p l IH]; [reflexivity|]. cbn. now rewrite IH. Qed.

Lemma joined_samples k e1 e2 e lvl cid (g : gr) a : splits k e1 e2 e -> built K_eq g -> from_storage g a ->
  joined (samples K_eq e1 lvl cid g a) (samples K_eq e2 lvl cid g a) (samples K_eq e lvl cid g a).
Proof.
  intros He Hb Hs. pose proof (built_inv _ Hb) as Hg. unfold from_storage in Hs.
  assert (Ha : a < length g). { destruct (Nat.lt_ge_cases a (length g)); auto. exfalso. apply Hs. unfold store_of. rewrite (proj2 (nth_error_None g a)); auto. }
  destruct (nth_error g a) as [n|] eqn:En; [|apply nth_error_None in En; lia].
  pose proof (ni_sid _ _ _ (Hg _ _ En)) as Hsid. destruct (selection_id g a) as [[s|]|] eqn:Es; [|congruence|].
  - destruct (claims k e1 e2 e lvl cid g He Hg a Ha) as [_ H]. specialize (H s Hs Es).
    destruct H as [(er & -> & -> & ->)|[(ps & Hp & -> & -> & ->)|(m1 & m2 & L1 & L2 & -> & -> & ->)]]; cbn; auto.
    split; [now rewrite !map_length|apply papp_beside].
  - destruct Hsid as [c Hc]. exfalso. apply Hs. unfold store_of. now rewrite En, Hc.
Qed.
End Graph.
