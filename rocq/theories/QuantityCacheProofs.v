(** The cache returns what an evaluation without it would return. *)
From Verif Require Import Base BaseFacts QTypeModel QuantityModel QuantitySpec QuantityProofs QuantityGraph QuantityCache.

Section Cached.
Context {K V : Type} (K_eq : forall a b : K, {a = b} + {a <> b}).
Notation gr := (graph K V).

(** Objects refer to older ones only, whatever was built. *)
Definition ordered (g : gr) : Prop := forall a n, nth_error g a = Some n -> forall b, In b (inputs (n_op n)) -> b < a.

Lemma ordered_app (g : gr) n : ordered g -> (forall b, In b (inputs (n_op n)) -> b < length g) -> ordered (g ++ [n]).
Proof.
  intros Hg Hn a m Hm b Hb. destruct (Nat.lt_ge_cases a (length g)) as [H|H].
  - rewrite nth_app_lt in Hm by auto. eapply Hg; eauto.
  - destruct (Nat.eq_dec a (length g)) as [->|N].
    + rewrite nth_last in Hm. injection Hm as <-. auto.
    + assert (nth_error (g ++ [n]) a = None) by (apply nth_error_None; rewrite app_length; cbn; lia). congruence.
Qed.
Lemma new_quantity_app (g g' : gr) t mask o : new_quantity g t mask o = Ok g' -> exists n, g' = g ++ [n] /\ n_op n = o.
Proof.
  unfold new_quantity. destruct (set_selection_id _ _ _); [|discriminate]. cbn [bind]. destruct (check_selection_ids _ _ _ _); [|discriminate].
  intros H. injection H as <-. eexists. split; reflexivity.
Qed.
Lemma new_mask_app (g g' : gr) f a b : ordered g -> new_mask g f a b = Ok g' -> ordered g' /\ exists n, g' = g ++ [n].
Proof.
  intros Hg H. unfold new_mask in H. destruct (masked g a) as [na|] eqn:Ea; [|discriminate]. destruct (masked g b) as [nb|] eqn:Eb; [|discriminate].
  cbn [bind] in H. apply masked_lt in Ea as [Ea _]. apply masked_lt in Eb as [Eb _]. apply new_quantity_app in H as (n & -> & Ho).
  split; [|eauto]. apply ordered_app; auto. rewrite Ho. intros x [<-|[<-|[]]]; auto.
Qed.
Lemma and_masks_app ms : forall (g : gr) m g' m', ordered g -> m < length g -> and_masks g m ms = Ok (g', m') -> ordered g' /\ m' < length g' /\ exists l, g' = g ++ l.
Proof.
  induction ms as [|x ms IH]; intros g m g' m' Hg Hm H; cbn in H.
  - injection H as <- <-. ands; auto. exists []. now rewrite app_nil_r.
  - destruct (new_mask g andb m x) as [g1|] eqn:E; [|discriminate]. cbn [bind] in H.
    destruct (new_mask_app _ _ _ _ _ Hg E) as (H1 & n & ->). assert (H5 : length g < length (g ++ [n])) by (rewrite app_length; cbn; lia).
    destruct (IH _ _ _ _ H1 H5 H) as (H3 & H4 & l2 & ->). ands; auto. exists (n :: l2). now rewrite <- app_assoc.
Qed.
Lemma build_ordered (g g' : gr) c : ordered g -> build K_eq g c = Ok g' -> ordered g' /\ exists l, g' = g ++ l.
Proof.
  intros Hg H.
  assert (G : forall t mask o, new_quantity g t mask o = Ok g' -> (forall b, In b (inputs o) -> b < length g) -> ordered g' /\ exists l, g' = g ++ l).
  { intros t mask o E Hi. apply new_quantity_app in E as (n & -> & Ho). split; [|eauto]. apply ordered_app; auto. now rewrite Ho. }
  destruct c; cbn [build] in H.
  - injection H as <-. split; [|eauto]. apply ordered_app; auto. intros b [].
  - injection H as <-. split; [|eauto]. apply ordered_app; auto. intros b [].
  - destruct (numeric g a) as [na|] eqn:Ea; [|discriminate]. destruct (numeric g b) as [nb|] eqn:Eb; [|discriminate]. cbn [bind] in H.
    apply numeric_lt in Ea as [Ea _]. apply numeric_lt in Eb as [Eb _].
    assert (Hi : forall x, In x (inputs (@OBin K V f a b)) -> x < length g) by (intros x [<-|[<-|[]]]; auto).
    destruct (is_const na), (is_const nb); eauto; discriminate.
  - destruct (numeric g a) as [na|] eqn:Ea; [|discriminate]. cbn [bind] in H. apply numeric_lt in Ea as [Ea _].
    eapply G; eauto. intros x [<-|[]]; auto.
  - destruct (numeric g a) as [na|] eqn:Ea; [|discriminate]. cbn [bind] in H. apply numeric_lt in Ea as [Ea _].
    destruct (get_key K_eq (n_type na) k) as [qs|]; [|discriminate]. cbn [bind] in H.
    eapply G; eauto. intros x [<-|[]]; auto.
  - destruct (mapM (numeric g) parts) as [ns|] eqn:Ea; [|discriminate]. cbn [bind] in H. destruct (mk _) as [t|]; [|discriminate]. cbn [bind] in H.
    eapply G; eauto. eapply mapM_numeric; eauto. intros b n E. now apply numeric_lt in E.
  - destruct (numeric g a) as [na|] eqn:Ea; [|discriminate]. cbn [bind] in H. apply numeric_lt in Ea as [Ea _].
    eapply G; eauto. intros x [<-|[]]; auto.
  - destruct (numeric g a) as [na|] eqn:Ea; [|discriminate]. destruct (numeric g b) as [nb|] eqn:Eb; [|discriminate]. cbn [bind] in H.
    apply numeric_lt in Ea as [Ea _]. apply numeric_lt in Eb as [Eb _].
    eapply G; eauto. intros x [<-|[<-|[]]]; auto.
  - destruct (new_mask_app _ _ _ _ _ Hg H) as (H1 & n & ->). eauto.
  - destruct (numeric g a) as [na|] eqn:Ea; [|discriminate]. cbn [bind] in H. apply numeric_lt in Ea as [Ea _].
    destruct ms as [|m ms]; [discriminate|]. destruct (mapM (masked g) (m :: ms)) as [ns|] eqn:Em; [|discriminate]. cbn [bind] in H.
    assert (Hm : m < length g) by (eapply (mapM_numeric g (@masked K V)); [intros b n E; apply masked_lt in E; apply E|exact Em|now left]).
    destruct (and_masks g m ms) as [[g1 m']|] eqn:E1; [|discriminate]. cbn [bind fst snd] in H.
    destruct (and_masks_app _ _ _ _ _ Hg Hm E1) as (Hg1 & Hm' & l1 & ->).
    destruct (new_quantity (g ++ l1) (n_type na) false (OSelect a m')) as [g2|] eqn:E2; [|discriminate]. cbn [bind] in H.
    apply new_quantity_app in E2 as (n & -> & Ho). rewrite upd_last in H. injection H as <-. split; [|rewrite <- app_assoc; eauto].
    apply ordered_app; auto. cbn. rewrite Ho. intros x [<-|[<-|[]]]; auto. rewrite app_length. lia.
  - destruct (numeric g a) as [na|] eqn:Ea; [|discriminate]. cbn [bind] in H. apply numeric_lt in Ea as [Ea _].
    eapply G; eauto. intros x [<-|[]]; auto.
Qed.

Lemma op_ext env lvl cid tys tys' vals vals' o : agree vals vals' (inputs o) -> (forall b, In b (inputs o) -> nth b tys QScalar = nth b tys' QScalar) ->
  eval_op K_eq env lvl cid tys vals o = eval_op K_eq (V:=V) env lvl cid tys' vals' o.
Proof.
  intros H Ht. rewrite (eval_op_ext K_eq env env lvl cid tys vals vals' o H) by auto.
  destruct o; try reflexivity. cbn [eval_op]. rewrite (Ht a) by (cbn; auto). reflexivity.
Qed.
Lemma ordered_op env lvl cid (g : gr) a n : ordered g -> nth_error g a = Some n ->
  samples K_eq env lvl cid g a = eval_op K_eq env lvl cid (map n_type g) (eval_all K_eq env lvl cid g) (n_op n).
Proof.
  intros Hg H. destruct (evs_nth K_eq env lvl cid (map n_type g) g [] a n H) as (l & E & L & l' & E'). cbn in E, E'.
  unfold samples, eval_all. unfold evs in E, E'. rewrite E. apply eval_op_ext; [|auto].
  intros b Hb. unfold at_. rewrite E'. apply (Hg _ _ H) in Hb. rewrite app_nth1 by lia. reflexivity.
Qed.
(** Building further quantities does not change the samples of the existing ones. *)
Lemma samples_app env lvl cid (g : gr) l a : ordered (g ++ l) -> ordered g -> a < length g -> samples K_eq env lvl cid (g ++ l) a = samples K_eq env lvl cid g a.
Proof.
  intros Hgl Hg. induction a as [a IH] using lt_wf_ind. intros Ha.
  destruct (nth_error g a) as [n|] eqn:En; [|apply nth_error_None in En; lia].
  assert (En' : nth_error (g ++ l) a = Some n) by (rewrite nth_app_lt; auto).
  rewrite (ordered_op _ _ _ _ _ _ Hgl En'), (ordered_op _ _ _ _ _ _ Hg En). apply op_ext.
  - intros b Hb. pose proof (Hg _ _ En b Hb). apply IH; lia.
  - intros b Hb. pose proof (Hg _ _ En b Hb). rewrite map_app, app_nth1 by (rewrite map_length; lia). reflexivity.
Qed.

Lemma num_of_ok (v : res (val V)) x : num_of v = Ok x -> exists w, v = Ok w.
Proof. destruct v; [eauto|discriminate]. Qed.
Lemma mask_of_ok (v : res (val V)) x : mask_of v = Ok x -> exists w, v = Ok w.
Proof. destruct v; [eauto|discriminate]. Qed.
Lemma bind_ok {A B} (x : res A) (f : A -> res B) y : bind x f = Ok y -> exists a, x = Ok a /\ f a = Ok y.
Proof. destruct x; [eauto|discriminate]. Qed.
Lemma eval_op_inputs env lvl cid tys vals o v : eval_op K_eq env lvl cid tys vals o = Ok v -> forall b, In b (inputs o) -> exists w, at_ (V:=V) vals b = Ok w.
Proof.
  intros H b Hb. destruct o; cbn [eval_op inputs] in *; try contradiction.
  - apply bind_ok in H as (x & H1 & H). apply bind_ok in H as (y & H2 & _). destruct Hb as [<-|[<-|[]]]; eapply num_of_ok; eauto.
  - apply bind_ok in H as (x & H1 & H). destruct Hb as [<-|[]]; eapply num_of_ok; eauto.
  - apply bind_ok in H as (x & H1 & H). destruct Hb as [<-|[]]; eapply num_of_ok; eauto.
  - apply bind_ok in H as (x & H1 & _). revert x H1 Hb. induction parts as [|p ps IH]; intros x H1 Hb; [destruct Hb|]. cbn in H1.
    apply bind_ok in H1 as (z & H2 & H1). apply bind_ok in H1 as (zs & H3 & _). destruct Hb as [<-|Hb]; [eapply num_of_ok; eauto|eapply IH; eauto].
  - apply bind_ok in H as (x & H1 & H). destruct Hb as [<-|[]]; eapply num_of_ok; eauto.
  - apply bind_ok in H as (x & H1 & H). apply bind_ok in H as (y & H2 & _). destruct Hb as [<-|[<-|[]]]; eapply num_of_ok; eauto.
  - apply bind_ok in H as (x & H1 & H). apply bind_ok in H as (y & H2 & _). destruct Hb as [<-|[<-|[]]]; eapply mask_of_ok; eauto.
  - apply bind_ok in H as (x & H1 & H). apply bind_ok in H as (y & H2 & _). destruct Hb as [<-|[<-|[]]]; [eapply num_of_ok|eapply mask_of_ok]; eauto.
  - apply bind_ok in H as (x & H1 & H). destruct Hb as [<-|[]]; eapply num_of_ok; eauto.
Qed.

Section Valid.
Variables (addr : nat -> nat) (data : spec -> nat -> arr V).
Variables (P : nat -> Prop) (Used : spec -> Prop).
Hypothesis Hinj : forall a b, P a -> P b -> addr a = addr b -> a = b.
Hypothesis Hused : forall s s', Used s -> Used s' -> cache_key s 0 = cache_key s' 0 -> s = s'.
Notation val_of g s a := (samples K_eq (data s) (s_level s) (s_chunk s) g a).

Definition valid (g : gr) (c : cache (V:=V)) : Prop :=
  forall s a v, Used s -> P a -> lookup c (cache_key s (addr a)) = Some v -> a < length g /\ val_of g s a = Ok v.

Lemma key_inj s s' a a' : Used s -> Used s' -> P a -> P a' -> cache_key s (addr a) = cache_key s' (addr a') -> s = s' /\ a = a'.
Proof.
  intros H1 H2 H3 H4 E. unfold cache_key in E. injection E as E1 E2 E3 E4. split; [|auto]. apply Hused; auto.
  unfold cache_key. now rewrite E1, E2, E3.
Qed.

Lemma csamples_valid (g : gr) : ordered g -> (forall a n b, P a -> nth_error g a = Some n -> In b (inputs (n_op n)) -> P b) ->
  forall a fuel c s, a < fuel -> a < length g -> P a -> Used s -> valid g c ->
  let r := csamples K_eq addr fuel data g s c a in
  valid g (fst r) /\ forall v, snd r = Ok v <-> val_of g s a = Ok v.
Proof.
  intros Hg Hcl a. induction a as [a IH] using lt_wf_ind. intros fuel c s Hf Ha Pa Us Hv.
  destruct fuel as [|fuel]; [lia|]. destruct (nth_error g a) as [n|] eqn:En; [|apply nth_error_None in En; lia].
  assert (Hin : forall l c0, incl l (inputs (n_op n)) -> valid g c0 ->
    valid g (fst (ask_inputs (csamples K_eq addr fuel data g s) c0 l))
    /\ ((exists ws, snd (ask_inputs (csamples K_eq addr fuel data g s) c0 l) = Ok ws /\ map fst ws = l /\ (forall b w, In (b, w) ws -> val_of g s b = Ok w))
        \/ exists e, snd (ask_inputs (csamples K_eq addr fuel data g s) c0 l) = Err e /\ exists b, In b l /\ forall w, val_of g s b <> Ok w)).
  { induction l as [|b l IHl]; intros c0 Hl Hc0; cbn [ask_inputs].
    - cbn. split; auto. left. exists []. ands; auto. intros b w [].
    - assert (Ib : In b (inputs (n_op n))) by (apply Hl; now left). assert (Hba : b < a) by (eapply Hg; eauto).
      pose proof (IH b Hba fuel c0 s ltac:(lia) ltac:(lia) (Hcl _ _ _ Pa En Ib) Us Hc0) as [H1 H2].
      destruct (csamples K_eq addr fuel data g s c0 b) as [c1 r] eqn:Er. cbn [fst snd] in H1, H2. destruct r as [w|e].
      + destruct (IHl c1 ltac:(intros x Hx; apply Hl; now right) H1) as [H3 H4].
        destruct (ask_inputs (csamples K_eq addr fuel data g s) c1 l) as [c2 q] eqn:Eq. cbn [fst snd] in *. split; auto.
        destruct H4 as [(ws & -> & E1 & E2)|(e & -> & b' & Hb' & E2)]; cbn [bind].
        * left. exists ((b, w) :: ws). ands; auto. { cbn. now rewrite E1. }
          intros b0 w0 [E|Hb0]; [injection E as <- <-; now apply H2|auto].
        * right. exists e. split; auto. exists b'. split; [now right|auto].
      + cbn [fst snd]. split; auto. right. exists e. split; auto. exists b. split; [now left|]. intros w C. apply H2 in C. discriminate. }
  cbn [csamples]. rewrite En. cbn zeta.
  assert (Hop := ordered_op (data s) (s_level s) (s_chunk s) g a n Hg En).
  assert (G : match lookup c (cache_key s (addr a)) with
              | Some v => (c, Ok v)
              | None => let (c1, ws) := ask_inputs (csamples K_eq addr fuel data g s) c (inputs (n_op n)) in
                  match bind ws (fun ws => eval_op K_eq (data s) (s_level s) (s_chunk s) (map n_type g) (map (given ws) (seq 0 a)) (n_op n)) with
                  | Ok v => ((cache_key s (addr a), v) :: c1, Ok v)
                  | Err e => (c1, Err e)
                  end
              end = csamples K_eq addr (S fuel) data g s c a \/ exists r, n_op n = ORoot r).
  { cbn [csamples]. rewrite En. destruct (n_op n); eauto. }
  destruct G as [G|[r Hr]].
  - assert (Goal' : valid g (fst (csamples K_eq addr (S fuel) data g s c a)) /\ (forall v, snd (csamples K_eq addr (S fuel) data g s c a) = Ok v <-> val_of g s a = Ok v)).
    { rewrite <- G. destruct (lookup c (cache_key s (addr a))) as [v|] eqn:El.
      - cbn. split; auto. destruct (Hv s a v Us Pa El) as [_ E]. rewrite E. tauto.
      - destruct (Hin (inputs (n_op n)) c (incl_refl _) Hv) as [H1 H2].
        destruct (ask_inputs (csamples K_eq addr fuel data g s) c (inputs (n_op n))) as [c1 q]. cbn [fst snd] in *.
        destruct H2 as [(ws & -> & E1 & E2)|(e & -> & b & Hb & E2)]; cbn [bind].
        + assert (Hag : agree (map (given ws) (seq 0 a)) (eval_all K_eq (data s) (s_level s) (s_chunk s) g) (inputs (n_op n))).
          { intros b Hb. assert (Hba : b < a) by (eapply Hg; eauto). unfold at_ at 1.
            rewrite (nth_indep _ _ (given ws 0)), map_nth, seq_nth by (rewrite ?map_length, ?seq_length; lia). cbn [Nat.add].
            unfold given. rewrite <- E1 in Hb. destruct (find (fun p => fst p =? b) ws) as [[b' w]|] eqn:Ef.
            - apply find_some in Ef as [If Eb]. cbn in Eb. apply Nat.eqb_eq in Eb as ->. symmetry. apply E2. exact If.
            - exfalso. apply in_map_iff in Hb as ([b' w] & <- & Hb). apply find_none with (x := (b', w)) in Ef; auto. cbn in Ef. now rewrite Nat.eqb_refl in Ef. }
          rewrite (eval_op_ext K_eq _ (data s) _ _ _ _ _ (n_op n) Hag), <- Hop by auto.
          destruct (val_of g s a) as [v|e] eqn:Ev; cbn [fst snd].
          * split; [|tauto]. intros s' a' v' Us' Pa' El'. cbn [lookup] in El'. destruct (ckey_eq_dec _ _) as [Ek|Nk].
            -- injection El' as <-. destruct (key_inj s' s a' a Us' Us Pa' Pa Ek) as [-> ->]. auto.
            -- eapply H1; eauto.
          * split; auto. intros v. split; discriminate.
        + cbn [fst snd]. split; auto. intros v. split; [discriminate|]. intros C. rewrite Hop in C.
          destruct (eval_op_inputs _ _ _ _ _ _ _ C b Hb) as [w Hw]. destruct (E2 w). exact Hw. }
    cbn [csamples] in Goal'. rewrite En in Goal'. exact Goal'.
  - rewrite Hop, Hr. cbn [eval_op fst snd]. split; [exact Hv|tauto].
Qed.
End Valid.

(** ** Sessions *)
Section Sessions.
Variables (addr : nat -> nat) (P : nat -> Prop) (Used : spec -> Prop).
Hypothesis Hinj : forall a b, P a -> P b -> addr a = addr b -> a = b.
Hypothesis Hused : forall s s', Used s -> Used s' -> cache_key s 0 = cache_key s' 0 -> s = s'.

Definition quiet (e : event K V) : Prop := match e with Store _ => False | Ask a s => P a /\ Used s | _ => True end.

Lemma happen_graph (w : session K V) e : ordered (ss_graph w) -> let w' := fst (happen K_eq addr w e) in ordered (ss_graph w') /\ exists l, ss_graph w' = ss_graph w ++ l.
Proof.
  intros Hg. destruct e; cbn.
  - destruct (build K_eq (ss_graph w) c) as [g|] eqn:E; cbn; [|split; auto; exists []; now rewrite app_nil_r]. now apply (build_ordered _ _ c).
  - destruct (nth_error (ss_graph w) a) as [n|]; cbn; [|split; auto; exists []; now rewrite app_nil_r].
    match goal with |- context [let (c, v) := ?x in _] => destruct x end. cbn. split; auto. exists []. now rewrite app_nil_r.
  - split; auto. exists []. now rewrite app_nil_r.
  - split; auto. exists []. now rewrite app_nil_r.
Qed.
Lemma run_graph h : forall (w : session K V), ordered (ss_graph w) -> ordered (ss_graph (run_session K_eq addr w h)) /\ exists l, ss_graph (run_session K_eq addr w h) = ss_graph w ++ l.
Proof.
  induction h as [|e h IH]; intros w Hw; cbn; [split; auto; exists []; now rewrite app_nil_r|].
  destruct (happen_graph w e Hw) as [H1 [l1 H2]]. destruct (IH _ H1) as [H3 [l2 H4]]. split; auto. exists (l1 ++ l2). rewrite H4, H2. now rewrite app_assoc.
Qed.
Lemma run_app h1 : forall h2 (w : session K V), run_session K_eq addr w (h1 ++ h2) = run_session K_eq addr (run_session K_eq addr w h1) h2.
Proof. induction h1 as [|e h1 IH]; intros h2 w; [reflexivity|]. cbn. apply IH. Qed.

Definition good (w : session K V) : Prop := ordered (ss_graph w) /\ valid addr (ss_data w) P Used (ss_graph w) (ss_cache w).
(** The objects an object of [P] is computed from are again in [P]. *)
Definition closed (g : gr) : Prop := forall a n b, P a -> nth_error g a = Some n -> In b (inputs (n_op n)) -> P b.

Lemma happen_good (w : session K V) e : good w -> quiet e -> closed (ss_graph w) -> good (fst (happen K_eq addr w e)).
Proof.
  intros [Hg Hv] He Hc. destruct (happen_graph w e Hg) as [Hg' [l Hl]]. split; [exact Hg'|].
  destruct e; cbn [quiet] in He; [| | |destruct He].
  - cbn in *. destruct (build K_eq (ss_graph w) c) as [g|] eqn:E; cbn in *; [|exact Hv]. subst g. intros s a v Us Pa El. destruct (Hv s a v Us Pa El) as [H1 H2].
    split; [rewrite app_length; lia|]. rewrite samples_app; auto.
  - destruct He as [Pa Us]. cbn [happen].
    destruct (Nat.lt_ge_cases a (length (ss_graph w))) as [Ha|Ha].
    + destruct (csamples_valid addr (ss_data w) P Used Hinj Hused (ss_graph w) Hg Hc a (S a) (ss_cache w) s ltac:(lia) Ha Pa Us Hv) as [H1 _].
      destruct (csamples K_eq addr (S a) (ss_data w) (ss_graph w) s (ss_cache w) a). exact H1.
    + cbn [csamples]. rewrite (proj2 (nth_error_None _ _) Ha). exact Hv.
  - intros s a v _ _ C. discriminate.
Qed.
Lemma run_good h : forall (w : session K V), good w -> Forall quiet h -> closed (ss_graph (run_session K_eq addr w h)) -> good (run_session K_eq addr w h).
Proof.
  induction h as [|e h IH]; intros w Hw Hh Hc; cbn in *; [exact Hw|]. inversion_clear Hh as [|? ? He Hh'].
  apply IH; auto. apply happen_good; auto. destruct Hw as [Hg _].
  destruct (happen_graph w e Hg) as [Hg1 [l1 E1]]. destruct (run_graph h _ Hg1) as [_ [l2 E2]].
  intros a n b Pa En Hb. apply (Hc a n b Pa); auto. rewrite E2, E1. rewrite !nth_app_lt; auto.
  - apply nth_error_Some. congruence.
  - rewrite app_length. apply Nat.lt_lt_add_r. apply nth_error_Some. congruence.
Qed.
Lemma ask_good (w : session K V) a s : good w -> closed (ss_graph w) -> P a -> Used s -> a < length (ss_graph w) ->
  exists r, snd (happen K_eq addr w (Ask a s)) = Some r /\ forall v, r = Ok v <-> samples K_eq (ss_data w s) (s_level s) (s_chunk s) (ss_graph w) a = Ok v.
Proof.
  intros [Hg Hv] Hc Pa Us Ha. cbn [happen].
  destruct (csamples_valid addr (ss_data w) P Used Hinj Hused (ss_graph w) Hg Hc a (S a) (ss_cache w) s ltac:(lia) Ha Pa Us Hv) as [_ H2].
  destruct (csamples K_eq addr (S a) (ss_data w) (ss_graph w) s (ss_cache w) a) as [c r]. exists r. split; [reflexivity|exact H2].
Qed.
End Sessions.
End Cached.
