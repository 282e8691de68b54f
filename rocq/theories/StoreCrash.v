(** Crash points while a batch of results is saved: save_samples split into its file writes
    (sample_storage_hdf.py:115-133, hdf5.py:303-340). One dataset append is taken as one write,
    although [_append_dataset] resizes first and fills afterwards. *)
From Verif Require Import Base BaseFacts HdfModel HdfProofs StoreModel StoreSpec StoreProofs.

Section Crash.
Context {X : Type}.
Notation pairx := (list X * list X)%type.
Notation G := (lgroup pairx).

Definition write := (nat * (G -> G))%type.
Definition ok_writes (x : nat * list (pystr * pairx)) : list write :=
  match snd x with [] => [] | _ => map (pair (fst x)) (succ_writes (snd x)) end.
Definition bad_writes (x : nat * list (pystr * pystr)) : list write :=
  match snd x with [] => [] | _ => [(fst x, append_failed (snd x))] end.
Definition save_writes (ok : dict (list (pystr * pairx))) (bad : dict (list (pystr * pystr))) : list write :=
  flat_map ok_writes ok ++ flat_map bad_writes bad.
Definition do_write (o : hobj) (w : write) : st (hfile pairx) unit := with_group o (fst w) (snd w).

(** Killed after [k] writes of save_samples, then opened again by a new process. *)
Definition crash_saving (o : hobj) (ok : dict (list (pystr * pairx))) (bad : dict (list (pystr * pystr)))
  (k : nat) (f : hfile pairx) : res (hobj * hfile pairx) :=
  hdf_open (fst (sfor (firstn k (save_writes ok bad)) (do_write o) f)).

(** The writes of one level applied to its group. *)
Definition apply_writes (ws : list write) (l : nat) (g : G) : G :=
  fold_left (fun g w => if Nat.eqb l (fst w) then snd w g else g) ws g.

Lemma apply_writes_app ws ws' l g : apply_writes (ws ++ ws') l g = apply_writes ws' l (apply_writes ws l g).
Proof. apply fold_left_app. Qed.

Lemma do_writes_Full L o ws : forall f gs, Full L o f gs -> (forall w, In w ws -> fst w < L) ->
  exists f' gs', sfor ws (do_write o) f = (f', Ok tt) /\ Full L o f' gs'
    /\ forall l g, nth_error gs l = Some g -> nth_error gs' l = Some (apply_writes ws l g).
Proof.
  induction ws as [|[l w] ws IH]; intros f gs HF Hw; cbn [sfor].
  - exists f, gs. ands; auto.
  - destruct (Full_nth _ _ _ _ l HF) as [g Eg]; [apply (Hw (l, w)); now left|].
    destruct (with_group_Full _ _ _ _ _ _ w HF Eg) as (f1 & E1 & HF1).
    unfold sbind, do_write at 1. cbn [fst snd]. rewrite E1.
    destruct (IH f1 _ HF1) as (f2 & gs2 & E2 & HF2 & H2); [intros x Hx; apply Hw; now right|].
    exists f2, gs2. ands; auto. intros i gi Hi. unfold apply_writes. cbn [fold_left fst snd]. apply H2.
    rewrite nth_upd_const by (apply nth_error_Some; congruence).
    destruct (Nat.eqb_spec i l) as [e|N]; [|auto]. subst i. congruence.
Qed.

Lemma flat_apply {A} (blk : nat * A -> list write) (Hb : forall x w, In w (blk x) -> fst w = fst x) (d : dict A) l g :
  NoDup (dkeys d) ->
  apply_writes (flat_map blk d) l g = match dget d l with Some x => apply_writes (blk (l, x)) l g | None => g end.
Proof.
  assert (Hn : forall ws l g, (forall w, In w ws -> fst w <> l) -> apply_writes ws l g = g).
  { clear. induction ws as [|w ws IH]; intros l g H; auto. unfold apply_writes. cbn.
    destruct (Nat.eqb_spec l (fst w)) as [e|e]; [exfalso; eapply H; [left; eauto|auto]|].
    apply IH. intros x Hx. apply H. now right. }
  revert g. induction d as [|[k x] d IH]; intros g Hd; auto. inversion_clear Hd as [|? ? Hk Hd'].
  cbn [flat_map]. rewrite apply_writes_app. cbn [dget]. rewrite (Nat.eqb_sym l k).
  destruct (Nat.eqb_spec k l) as [e|N].
  - subst k. rewrite IH by auto. apply dget_None in Hk. cbn [fst] in Hk. now rewrite Hk.
  - rewrite IH by auto. rewrite Hn; auto. intros w Hw. apply Hb in Hw. cbn in Hw. congruence.
Qed.

Lemma ok_writes_level x w : In w (ok_writes x) -> fst w = fst x.
Proof. unfold ok_writes. destruct (snd x); [intros []|]. intros H. apply in_map_iff in H as (y & <- & _). reflexivity. Qed.
Lemma bad_writes_level x w : In w (bad_writes x) -> fst w = fst x.
Proof. unfold bad_writes. destruct (snd x); [intros []|]. intros [<-|[]]. reflexivity. Qed.

Lemma save_writes_levels L ok bad : good_dict L ok -> good_dict L bad -> forall w, In w (save_writes ok bad) -> fst w < L.
Proof.
  intros [_ H1] [_ H2] w Hw. unfold save_writes in Hw. apply in_app_or in Hw as [Hw|Hw]; apply in_flat_map in Hw as (x & Hx & Hw).
  - rewrite (ok_writes_level _ _ Hw). apply H1. now apply in_map.
  - rewrite (bad_writes_level _ _ Hw). apply H2. now apply in_map.
Qed.

Lemma apply_ok_block l (s : list (pystr * pairx)) g : apply_writes (ok_writes (l, s)) l g = app_level append_successful s g.
Proof.
  unfold ok_writes, app_level, append_successful. cbn [fst snd]. destruct s as [|x s]; auto. unfold apply_writes.
  cbn [succ_writes map fold_left fst snd]. now rewrite Nat.eqb_refl.
Qed.
Lemma apply_bad_block l s g : apply_writes (bad_writes (l, s)) l g = app_level append_failed s g.
Proof. unfold bad_writes, app_level. cbn [fst snd]. destruct s as [|x s]; auto. unfold apply_writes. cbn. now rewrite Nat.eqb_refl. Qed.

Lemma apply_save_writes ok bad l g : NoDup (dkeys ok) -> NoDup (dkeys bad) ->
  apply_writes (save_writes ok bad) l g = saved ok bad l g.
Proof.
  intros H1 H2. unfold save_writes, saved, dlist. rewrite apply_writes_app.
  rewrite (flat_apply ok_writes ok_writes_level), (flat_apply bad_writes bad_writes_level) by auto.
  destruct (dget ok l), (dget bad l); rewrite ?apply_ok_block, ?apply_bad_block; reflexivity.
Qed.

(** All writes together are save_samples. *)
Lemma writes_are_save L h o f ok bad : SInv L h o f -> good_dict L ok -> good_dict L bad ->
  sfor (save_writes ok bad) (do_write o) f = save_samples o ok bad f.
Proof.
  intros (gs & HF & _) H1 H2.
  destruct (do_writes_Full L o _ f gs HF (save_writes_levels L ok bad H1 H2)) as (f1 & g1 & E1 & HF1 & K1).
  destruct H1 as [N1 M1], H2 as [N2 M2].
  destruct (save_samples_Full L o f gs ok bad HF N1 M1 N2 M2) as (f2 & g2 & E2 & HF2 & K2).
  rewrite E2. etransitivity; [exact E1|]. f_equal. destruct HF1 as (_ & -> & L1), HF2 as (_ & -> & L2). f_equal. f_equal.
  destruct HF as (_ & _ & L0). apply nth_error_ext. intros i.
  destruct (nth_error gs i) as [g|] eqn:Eg.
  - rewrite (K1 _ _ Eg), (K2 _ _ Eg). f_equal. now apply apply_save_writes.
  - apply nth_error_None in Eg. rewrite (proj2 (nth_error_None g1 i)), (proj2 (nth_error_None g2 i)); auto; lia.
Qed.

(** A prefix of the concatenated blocks: whole blocks and part of one. *)
Lemma firstn_flat_map {A B} (blk : A -> list B) (xs : list A) : forall k,
  exists ys, (exists zs, xs = ys ++ zs) /\
    (firstn k (flat_map blk xs) = flat_map blk ys
     \/ exists x zs r, xs = ys ++ x :: zs /\ r < length (blk x) /\ firstn k (flat_map blk xs) = flat_map blk ys ++ firstn r (blk x)).
Proof.
  induction xs as [|x xs IH]; intros k.
  - exists []. split; [now exists []|]. left. now rewrite firstn_nil.
  - cbn [flat_map]. rewrite firstn_app. destruct (Nat.le_gt_cases (length (blk x)) k) as [H|H].
    + rewrite firstn_all2 by lia. destruct (IH (k - length (blk x))) as (ys & (zs & Ez) & Hy). exists (x :: ys). split.
      * exists zs. cbn. now rewrite Ez.
      * destruct Hy as [->|(x' & zs' & r & A1 & A2 & A3)]; [now left|]. right. exists x', zs', r. ands; auto.
        -- cbn. now rewrite A1.
        -- cbn. now rewrite A3, app_assoc.
    + exists []. split; [now exists (x :: xs)|]. right. exists x, xs, k. ands; auto.
      replace (k - length (blk x)) with 0 by lia. cbn. now rewrite app_nil_r.
Qed.

Lemma dget_prefix {A} (d1 d2 : dict A) l : NoDup (dkeys (d1 ++ d2)) -> dget d1 l = dget (d1 ++ d2) l \/ dget d1 l = None.
Proof.
  intros H. destruct (dget d1 l) as [x|] eqn:E; [left|now right]. symmetry. apply In_dget; auto.
  apply in_or_app. left. now apply dget_In.
Qed.
Lemma NoDup_prefix {A} (d1 d2 : dict A) : NoDup (dkeys (d1 ++ d2)) -> NoDup (dkeys d1).
Proof. unfold dkeys. rewrite map_app. intros H. now apply NoDup_app_iff in H. Qed.

(** State of a level after a crash inside save_samples: nothing of its batch, everything, or
    only the identifiers. *)
Inductive level_crash (h : list (sop X)) (ok : dict (list (pystr * pairx))) (bad : dict (list (pystr * pystr))) (l : nat) (g : G) : bool -> Prop :=
| lc_clean s : g_sched g = scheduled_on l h ->
    In s [collected_on l h; collected_on l h ++ dlist ok l] ->
    g_cids g = map fst s -> g_cvals g = vals_of s ->
    In (g_failed g) [failed_on l h; failed_on l h ++ dlist bad l] -> level_crash h ok bad l g true
| lc_torn : g_sched g = scheduled_on l h ->
    dlist ok l <> [] ->
    g_cids g = map fst (collected_on l h ++ dlist ok l) ->
    match g_cvals g with None => [] | Some v => v end = map snd (collected_on l h) ->
    g_failed g = failed_on l h -> level_crash h ok bad l g false.

Lemma lc_of_holds h ok bad l g : holds l h g -> level_crash h ok bad l g true.
Proof. intros [A B C D F]. apply (lc_clean _ _ _ _ _ (collected_on l h)); cbn; auto. Qed.

Lemma app_succ_clean h ok bad l g : holds l h g -> level_crash h ok bad l (app_level append_successful (dlist ok l) g) true.
Proof.
  intros [H1 H2 H3 H4 H5]. destruct (dlist ok l) as [|x s] eqn:Ed; cbn [app_level].
  - apply lc_of_holds. split; auto.
  - rewrite append_successful_eq.
    apply (lc_clean _ _ _ _ _ (collected_on l h ++ dlist ok l)); cbn [g_sched g_cids g_cvals g_failed In]; auto.
    + rewrite Ed, map_app, H2. reflexivity.
    + rewrite Ed, H3. unfold vals_of. destruct (collected_on l h) as [|y c]; [reflexivity|].
      cbn [app]. now rewrite app_comm_cons, map_app.
Qed.

Lemma app_failed_clean h ok bad l g : level_crash h ok bad l g true -> g_failed g = failed_on l h ->
  level_crash h ok bad l (app_level append_failed (dlist bad l) g) true.
Proof.
  intros H Hf. inversion H as [s A B C D F Hg|]. destruct (dlist bad l) as [|x b] eqn:Ed; cbn [app_level]; auto.
  apply (lc_clean _ _ _ _ _ s); cbn [append_failed g_sched g_cids g_cvals g_failed]; auto.
  rewrite Hf, Ed. cbn; auto.
Qed.

Lemma app_succ_failed s (g : G) : g_failed (app_level append_successful s g) = g_failed g.
Proof. destruct s; [reflexivity|]. unfold app_level. now rewrite append_successful_eq. Qed.

Lemma crash_saving_spec L h o f ok bad k : SInv L h o f -> good_dict L ok -> good_dict L bad ->
  exists o' f' gs, crash_saving o ok bad k f = Ok (o', f') /\ Full L o' f' gs
    /\ exists torn, forall l g, nth_error gs l = Some g ->
         if Nat.eqb l torn then exists b, level_crash h ok bad l g b else level_crash h ok bad l g true.
Proof.
  intros (gs & HF & Hg) H1 H2.
  assert (Hlev : forall w, In w (firstn k (save_writes ok bad)) -> fst w < L).
  { intros w Hw. apply (save_writes_levels L ok bad H1 H2). rewrite <- (firstn_skipn k). apply in_or_app. now left. }
  destruct (do_writes_Full L o _ f gs HF Hlev) as (f1 & g1 & E1 & HF1 & K1).
  assert (Ec : crash_saving o ok bad k f = hdf_open f1) by (unfold crash_saving; exact (f_equal (fun r => hdf_open (fst r)) E1)).
  rewrite Ec, (hdf_open_Full L o f1 g1 HF1).
  exists (mkObj true (seq 0 L)), f1, g1. split; [reflexivity|]. split; [destruct HF1 as (_ & B & C); unfold Full; auto|].
  destruct H1 as [N1 M1], H2 as [N2 M2].
  assert (Hget : forall l g', nth_error g1 l = Some g' -> exists g, nth_error gs l = Some g /\ g' = apply_writes (firstn k (save_writes ok bad)) l g).
  { intros l g' Hl. destruct HF as (_ & _ & L0), HF1 as (_ & _ & L1).
    assert (l < length gs) by (rewrite L0, <- L1; apply nth_error_Some; congruence).
    apply nth_error_Some in H. destruct (nth_error gs l) as [g|] eqn:Eg; [|congruence]. exists g. split; auto.
    rewrite (K1 _ _ Eg) in Hl. congruence. }
  unfold save_writes in Hget. rewrite firstn_app in Hget.
  destruct (Nat.le_gt_cases (length (flat_map ok_writes ok)) k) as [Hk|Hk].
  - rewrite firstn_all2 in Hget by lia.
    destruct (firstn_flat_map bad_writes bad (k - length (flat_map ok_writes ok))) as (ys & (zs & Ez) & Hy).
    assert (Hy' : firstn (k - length (flat_map ok_writes ok)) (flat_map bad_writes bad) = flat_map bad_writes ys).
    { destruct Hy as [->|(x & zs' & r & A1 & A2 & A3)]; auto. rewrite A3.
      assert (length (bad_writes x) <= 1) by (unfold bad_writes; destruct (snd x); cbn; lia).
      replace r with 0 by lia. cbn. now rewrite app_nil_r. }
    rewrite Hy' in Hget. exists 0. intros l g' Hl. destruct (Hget _ _ Hl) as (g & Eg & ->).
    assert (level_crash h ok bad l (apply_writes (flat_map ok_writes ok ++ flat_map bad_writes ys) l g) true).
    { rewrite apply_writes_app, (flat_apply ok_writes ok_writes_level) by auto.
      subst bad. rewrite (flat_apply bad_writes bad_writes_level) by (eapply NoDup_prefix; eauto).
      set (gx := match dget ok l with Some x => apply_writes (ok_writes (l, x)) l g | None => g end).
      assert (Egx : gx = app_level append_successful (dlist ok l) g).
      { unfold gx, dlist. destruct (dget ok l); [apply apply_ok_block|reflexivity]. }
      destruct (dget_prefix ys zs l N2) as [Ed|Ed].
      - replace (match dget ys l with Some x => apply_writes (bad_writes (l, x)) l gx | None => gx end)
          with (app_level append_failed (dlist (ys ++ zs) l) gx).
        + apply app_failed_clean; rewrite Egx; [apply app_succ_clean; auto|].
          rewrite app_succ_failed. apply (ho_failed _ _ _ (Hg _ _ Eg)).
        + unfold dlist. rewrite <- Ed. destruct (dget ys l); [symmetry; apply apply_bad_block|reflexivity].
      - rewrite Ed, Egx. apply app_succ_clean; auto. }
    destruct (Nat.eqb l 0); eauto.
  - replace (k - length (flat_map ok_writes ok)) with 0 in Hget by lia. cbn [firstn] in Hget. rewrite app_nil_r in Hget.
    destruct (firstn_flat_map ok_writes ok k) as (ys & (zs & Ez) & Hy).
    assert (Hclean : forall l g, nth_error gs l = Some g -> level_crash h ok bad l (apply_writes (flat_map ok_writes ys) l g) true).
    { intros l g Eg. rewrite (flat_apply ok_writes ok_writes_level) by (subst ok; eapply NoDup_prefix; eauto).
      destruct (dget_prefix ys zs l) as [Ed|Ed]; [now subst ok| |].
      - rewrite <- Ez in Ed. replace (match dget ys l with Some x => apply_writes (ok_writes (l, x)) l g | None => g end)
          with (app_level append_successful (dlist ok l) g); [apply app_succ_clean; auto|].
        unfold dlist. rewrite <- Ed. destruct (dget ys l); [symmetry; apply apply_ok_block|reflexivity].
      - rewrite Ed. apply lc_of_holds. auto. }
    destruct Hy as [Hy|(x & zs' & r & A1 & A2 & A3)].
    + rewrite Hy in Hget. exists 0. intros l g' Hl. destruct (Hget _ _ Hl) as (g & Eg & ->).
      destruct (Nat.eqb l 0); eauto.
    + rewrite A3 in Hget. exists (fst x). intros l g' Hl. destruct (Hget _ _ Hl) as (g & Eg & ->).
      rewrite apply_writes_app. destruct (Nat.eqb_spec l (fst x)) as [El|El].
      * assert (Hys : apply_writes (flat_map ok_writes ys) l g = g).
        { rewrite (flat_apply ok_writes ok_writes_level) by (subst ok; eapply NoDup_prefix; eauto).
          replace (dget ys l) with (@None (list (pystr * pairx))); auto. symmetry. apply dget_None. intros Hin.
          rewrite A1 in N1. unfold dkeys in N1. rewrite map_app in N1. apply NoDup_app_iff in N1 as (_ & _ & Hn).
          apply (Hn l Hin). cbn. left. auto. }
        rewrite Hys. clear Hys.
        assert (Hs : dlist ok l = snd x).
        { unfold dlist. rewrite (In_dget ok l (snd x)); auto. rewrite A1. apply in_or_app. right. left. subst l. now destruct x. }
        unfold ok_writes in *. destruct (snd x) as [|y s] eqn:Ex; [cbn in A2; lia|].
        destruct (Hg _ _ Eg) as [B1 B2 B3 B4 B5]. cbn [succ_writes map length] in A2.
        assert (Hr : r = 0 \/ r = 1 \/ r = 2) by lia. destruct Hr as [->|[->| ->]]; cbn [succ_writes map firstn]; unfold apply_writes;
          cbn [fold_left fst snd]; rewrite ?El, ?Nat.eqb_refl; rewrite <- ?El.
        -- exists true. apply lc_of_holds. split; auto.
        -- exists false. apply lc_torn; cbn [write_ids g_sched g_cids g_cvals g_failed]; auto.
           ++ rewrite Hs. discriminate.
           ++ rewrite Hs, B2, map_app. reflexivity.
           ++ rewrite B3. destruct (collected_on l h); reflexivity.
        -- exists false. apply lc_torn; cbn [write_ids make_values g_sched g_cids g_cvals g_failed]; auto.
           ++ rewrite Hs. discriminate.
           ++ rewrite Hs, B2, map_app. reflexivity.
           ++ rewrite B3. destruct (collected_on l h); reflexivity.
      * assert (Hn : forall ws g, (forall w, In w ws -> fst w <> l) -> apply_writes ws l g = g).
        { clear. induction ws as [|w ws IH]; intros g H; auto. unfold apply_writes. cbn.
          destruct (Nat.eqb_spec l (fst w)) as [e|e]; [exfalso; eapply H; [left; eauto|auto]|].
          apply IH. intros x Hx. apply H. now right. }
        rewrite (Hn (firstn r (ok_writes x))); [apply Hclean; auto|]. intros w Hw.
        assert (In w (ok_writes x)) by (rewrite <- (firstn_skipn r); apply in_or_app; now left).
        rewrite (ok_writes_level _ _ H). auto.
Qed.

End Crash.
