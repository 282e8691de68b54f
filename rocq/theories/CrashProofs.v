From Verif Require Import Base BaseFacts TagModel TagProofs PoolModel PoolProofs HdfModel HdfProofs
  SamplerModel SamplerProofs SamplerSpec SamplerFacts CrashModel.

Section Crash.
Context (E : env) (ps : list (param E)).
Notation pairv := (arr (value E) * arr (value E))%type.
Notation L := (length ps).
Notation S_ := (sampler E).
Notation G := (lgroup pairv).
Notation BInv := (BInv E ps).
Notation Inv := (Inv E ps).

(** The unrolled effects are the loops. *)
Lemma sfor_app {S A} (a b : list A) (body : A -> st S unit) s :
  sfor (a ++ b) body s = match sfor a body s with (s', Ok _) => sfor b body s' | r => r end.
Proof.
  revert s. induction a as [|x a IH]; intros s; cbn [sfor app]; auto.
  unfold sbind. destruct (body x s) as [s1 [u|e]]; auto.
Qed.

Lemma do_hands c : forall level s acc,
  sfor (repeat (Hand level) c) (do_act E) (s, acc)
  = match schedule_many E level c acc s with
    | (s', Ok acc') => ((s', acc'), Ok tt)
    | (s', Err e) => let (x, r) := sfor (repeat (Hand level) c) (do_act E) (s, acc) in (x, r)
    end.
Proof.
  induction c as [|c IH]; intros level s acc; cbn [repeat sfor schedule_many]; auto.
  unfold sbind. cbn [do_act]. destruct (schedule_one E level s) as [s1 [id|e]]; auto.
Qed.

Lemma do_hands_err c : forall level s acc s' e,
  schedule_many E level c acc s = (s', Err e) ->
  exists acc', sfor (repeat (Hand level) c) (do_act E) (s, acc) = ((s', acc'), Err e).
Proof.
  induction c as [|c IH]; intros level s acc s' e H; cbn [repeat sfor schedule_many] in *; [discriminate|].
  unfold sbind in *. cbn [do_act]. destruct (schedule_one E level s) as [s1 [id|e1]].
  - eapply IH; eauto.
  - injection H as <- <-. eauto.
Qed.

Lemma acts_are_loops plan : forall level s,
  let r := do_acts E (acts level plan) (s, []) in
  schedule_levels E level plan s = (fst (fst r), snd r).
Proof.
  induction plan as [|q plan IH]; intros level s; [reflexivity|].
  cbn [acts schedule_levels]. unfold do_acts. rewrite sfor_app. unfold sbind.
  pose proof (do_hands (Z.to_nat (Qtrunc q)) level s []) as Hh.
  destruct (schedule_many E level (Z.to_nat (Qtrunc q)) [] s) as [s1 [ids|e]] eqn:E1.
  - rewrite Hh. cbn [sfor]. unfold sbind. cbn [do_act].
    destruct (save_sched E level ids s1) as [s2 [u|e]]; [|reflexivity]. apply IH.
  - destruct (do_hands_err _ _ _ _ _ _ E1) as [acc' ->]. reflexivity.
Qed.

(** A prefix of the effects: everything of earlier levels recorded, part of one level handed out. *)
Definition pending (l n c : nat) : nat -> list pystr := fupd none l (map (tagn l) (seq n c)).

Lemma firstn_repeat {A} (x : A) k c : firstn k (repeat x c) = repeat x (Nat.min k c).
Proof. revert k; induction c as [|c IH]; intros [|k]; cbn; auto. now rewrite IH. Qed.

Lemma sched_grows_refl gs : sched_grows E gs gs.
Proof. intros k g Hg. exists g, []. rewrite app_nil_r. auto. Qed.

Lemma sched_grows_trans a b c : sched_grows E a b -> sched_grows E b c -> sched_grows E a c.
Proof.
  intros H1 H2 k g Hg. destruct (H1 k g Hg) as (g1 & m1 & A1 & A2 & A3 & A4 & A5).
  destruct (H2 k g1 A1) as (g2 & m2 & B1 & B2 & B3 & B4 & B5).
  exists g2, (m1 ++ m2). rewrite B2, A2, app_assoc. ands; auto; congruence.
Qed.

Lemma prefix_Inv plan : forall k pre post s gs F lost,
  Inv s gs none F lost -> s_nsched s = pre ++ post ->
  exists gs2 l n c, let s2 := fst (fst (do_acts E (firstn k (acts (length pre) plan)) (s, []))) in
    Inv s2 gs2 (pending l n c) F lost /\ sched_grows E gs gs2
    /\ (forall g, nth_error gs2 l = Some g -> length (g_sched g) = n)
    /\ exists new, s_handed s2 = s_handed s ++ new /\
         forall id, In id new -> exists l' n', id = tagn l' n'
           /\ exists m m', nth_error (s_nsched s) l' = Some m /\ nth_error (s_nsched s2) l' = Some m' /\ m <= n' < m'.
Proof.
  assert (Stay : forall s gs F lost, Inv s gs none F lost -> 
    exists gs2 l n c, Inv s gs2 (pending l n c) F lost /\ sched_grows E gs gs2
    /\ (forall g, nth_error gs2 l = Some g -> length (g_sched g) = n)
    /\ exists new, s_handed s = s_handed s ++ new /\
         forall id, In id new -> exists l' n', id = tagn l' n'
           /\ exists m m', nth_error (s_nsched s) l' = Some m /\ nth_error (s_nsched s) l' = Some m' /\ m <= n' < m').
  { intros s gs F lost HI. exists gs, L, 0, 0. ands.
    - eapply Inv_ext; [exact HI| | |]; auto. intros l _. unfold pending, fupd, none. cbn. now destruct (Nat.eqb l L).
    - apply sched_grows_refl.
    - intros g Hg. exfalso. destruct (iv_full _ _ _ _ _ _ _ HI) as (_ & _ & Hl).
      assert (L < length gs) by (apply nth_error_Some; congruence). lia.
    - exists []. rewrite app_nil_r. split; auto. intros id []. }
  induction plan as [|q plan IH]; intros k pre post s gs F lost HI Hns.
  - cbn [acts]. rewrite firstn_nil. cbn. now apply Stay.
  - cbn [acts]. set (c := Z.to_nat (Qtrunc q)). rewrite firstn_app, repeat_length, firstn_repeat.
    destruct post as [|n post].
    { (* no such level: the first effect fails *)
      assert (Hbad : nth_error (s_nsched s) (length pre) = None)
        by (apply nth_error_None; rewrite Hns, app_length; cbn; lia).
      assert (Hsame : fst (fst (do_acts E (repeat (Hand (length pre)) (Nat.min k c)
          ++ firstn (k - c) (Record (length pre) :: acts (S (length pre)) plan)) (s, []))) = s).
      { unfold do_acts. destruct (Nat.min k c) as [|x] eqn:Em; cbn [repeat app].
        - destruct (k - c) as [|y]; cbn [firstn sfor]; [reflexivity|].
          unfold sbind. cbn [do_act]. unfold save_sched, save_scheduled.
          destruct (iv_full _ _ _ _ _ _ _ HI) as (Ho & _ & _). rewrite Ho, nth_error_seq.
          rewrite <- (iv_len _ _ _ _ _ _ _ HI), Hns, app_nil_r, Nat.ltb_irrefl. destruct s; reflexivity.
        - cbn [sfor]. unfold sbind. cbn [do_act]. unfold schedule_one. rewrite Hbad. reflexivity. }
      rewrite Hsame. now apply Stay. }
    assert (Hl : length pre < L).
    { rewrite <- (iv_len _ _ _ _ _ _ _ HI), Hns, app_length. cbn [length]. lia. }
    assert (Hn : nth_error (s_nsched s) (length pre) = Some n).
    { rewrite Hns, nth_error_app2, Nat.sub_diag by lia. reflexivity. }
    destruct (schedule_many_Inv E ps (Nat.min k c) _ _ _ _ _ _ _ HI Hl Hn)
      as (s1 & E1 & HI1 & A1 & A2 & A3 & A4 & A5 & A6).
    change (none (length pre)) with (@nil pystr) in *. cbn [app] in *.
    unfold do_acts. rewrite sfor_app, do_hands, E1.
    assert (Hs0 : forall g, nth_error gs (length pre) = Some g -> length (g_sched g) = n).
    { intros g Hg. pose proof (li_sched _ _ _ _ _ _ _ _ _ _ (iv_lev _ _ _ _ _ _ _ HI _ _ _ Hg Hn)) as Hs.
      unfold none in Hs. rewrite app_nil_r in Hs. now rewrite Hs, map_length, seq_length. }
    assert (Hnew : forall id, In id (map (tagn (length pre)) (seq n (Nat.min k c))) ->
       exists l' n', id = tagn l' n' /\ exists m m', nth_error (s_nsched s) l' = Some m
         /\ nth_error (s_nsched s1) l' = Some m' /\ m <= n' < m').
    { intros id Hid. apply in_map_iff in Hid as (i & <- & Hi). apply in_seq in Hi.
      exists (length pre), i. split; auto. exists n, (n + Nat.min k c). ands; auto; try lia.
      rewrite A1. unfold bump. now rewrite nth_error_upd_eq, Hn. }
    destruct (k - c) as [|y] eqn:Ey; cbn [firstn].
    + cbn [sfor fst]. exists gs, (length pre), n, (Nat.min k c). ands; auto.
      * apply sched_grows_refl.
      * exists (map (tagn (length pre)) (seq n (Nat.min k c))). auto.
    + cbn [sfor]. unfold sbind. cbn [do_act].
      destruct (save_sched_Inv E ps _ _ _ _ _ (length pre) HI1 Hl)
        as (s2 & gs2 & E2 & HI2 & B0 & BG & B1 & B2 & B3 & B4 & B5).
      rewrite fupd_eq in E2, BG. rewrite E2.
      assert (HI2' : Inv s2 gs2 none F lost).
      { eapply Inv_ext; [exact HI2| | |]; auto. intros j _. unfold none.
        destruct (Nat.eq_dec j (length pre)) as [->|N]; [now rewrite fupd_eq|now rewrite !fupd_neq]. }
      assert (Hns2 : s_nsched s2 = (pre ++ [n + Nat.min k c]) ++ post).
      { rewrite B1, A1, Hns. unfold bump. rewrite upd_app_mid, <- app_assoc. reflexivity. }
      destruct (IH y _ post s2 gs2 F lost HI2' Hns2) as (gs3 & l3 & n3 & c3 & HI3 & G3 & N3 & new3 & H3 & K3).
      rewrite app_length in HI3, H3, K3. cbn [length] in HI3, H3, K3. rewrite Nat.add_1_r in HI3, H3, K3.
      exists gs3, l3, n3, c3. split; [exact HI3|]. split; [|split; [exact N3|]].
      * eapply sched_grows_trans; [|exact G3]. intros j g Hg.
        destruct (BG j g Hg) as (g2 & H1 & H2 & H4 & H5 & H6).
        destruct (Nat.eqb j (length pre)).
        -- eexists g2, _. split; [auto|]. split; [exact H2|]. auto.
        -- exists g2, []. rewrite app_nil_r. auto.
      * exists (map (tagn (length pre)) (seq n (Nat.min k c)) ++ new3). split.
        { unfold do_acts in H3. rewrite H3, B4, A4, <- app_assoc. reflexivity. }
        assert (Hmono : forall j m, nth_error (s_nsched s1) j = Some m -> exists m',
          nth_error (s_nsched (fst (fst (do_acts E (firstn y (acts (S (length pre)) plan)) (s2, []))))) j = Some m' /\ m <= m').
        { intros j m Hj. rewrite <- B1 in Hj.
          destruct (Full_nth _ _ _ _ j (iv_full _ _ _ _ _ _ _ HI2')) as [g Hg].
          { rewrite <- (iv_len _ _ _ _ _ _ _ HI2'). apply nth_error_Some. congruence. }
          destruct (G3 j g Hg) as (g3 & more & Hg3 & Hs3 & _).
          assert (Hj3 : j < length (s_nsched (fst (fst (do_acts E (firstn y (acts (S (length pre)) plan)) (s2, [])))))).
          { rewrite (iv_len _ _ _ _ _ _ _ HI3), <- (iv_len _ _ _ _ _ _ _ HI2'). apply nth_error_Some. congruence. }
          apply nth_error_Some in Hj3.
          destruct (nth_error (s_nsched (fst (fst (do_acts E (firstn y (acts (S (length pre)) plan)) (s2, []))))) j) as [m'|] eqn:Em; [|congruence].
          exists m'. split; auto.
          pose proof (li_sched _ _ _ _ _ _ _ _ _ _ (iv_lev _ _ _ _ _ _ _ HI2' _ _ _ Hg Hj)) as P1.
          pose proof (li_sched _ _ _ _ _ _ _ _ _ _ (iv_lev _ _ _ _ _ _ _ HI3 _ _ _ Hg3 Em)) as P2.
          apply (f_equal (@length _)) in P1, P2. rewrite app_length, map_length, seq_length in P1, P2.
          rewrite Hs3, app_length in P2. unfold none in P1. cbn in P1. lia. }
        intros id Hid. apply in_app_iff in Hid as [Hid|Hid].
        -- destruct (Hnew id Hid) as (l' & n' & -> & m & m' & Q1 & Q2 & Q3).
           destruct (Hmono _ _ Q2) as (m'' & Q4 & Q5). exists l', n'. split; auto. exists m, m''. ands; auto; lia.
        -- destruct (K3 id Hid) as (l' & n' & -> & m & m' & Q1 & Q2 & Q3). exists l', n'. split; auto.
           rewrite B1, A1 in Q1. unfold bump in Q1.
           destruct (Nat.eq_dec l' (length pre)) as [e|N].
           ++ subst l'. rewrite nth_error_upd_eq, Hn in Q1. injection Q1 as <-. exists n, m'. ands; auto; lia.
           ++ rewrite nth_error_upd_neq in Q1 by auto. exists m, m'. ands; auto; lia.
Qed.

(** Restarting on a file whose schedule lists were extended since a consistent state. *)
Definition not_in (a : list pystr) (x : pystr) : bool := negb (mem_str x a).

Lemma Permutation_split (a s : list pystr) : NoDup s -> NoDup a -> incl a s ->
  Permutation s (a ++ filter (not_in a) s).
Proof.
  intros Hs Ha Hi. apply NoDup_Permutation; auto.
  - apply NoDup_app_iff. ands; auto using NoDup_filter.
    intros x Hx H. apply filter_In in H as [_ H]. unfold not_in, mem_str in H.
    destruct (in_dec pystr_eq_dec x a); [discriminate|contradiction].
  - intros x. rewrite in_app_iff, filter_In. unfold not_in, mem_str.
    destruct (in_dec pystr_eq_dec x a); cbn; intuition.
Qed.

Lemma restart_grown s1 gs1 lost1 s2 gs2 pend F lost :
  BInv s1 gs1 lost1 -> Inv s2 gs2 pend F lost -> sched_grows E gs1 gs2 ->
  exists s3 lost3, restart E ps s2 = (s3, ONone) /\ BInv s3 gs2 lost3
    /\ s_file s3 = s_file s2 /\ s_handed s3 = s_handed s2.
Proof.
  intros H1 H2 HG. unfold restart.
  pose proof (iv_full _ _ _ _ _ _ _ H2) as Hfull.
  pose proof (iv_full _ _ _ _ _ _ _ H1) as Hfull1.
  rewrite (hdf_open_Full _ _ _ _ Hfull). cbn [bind].
  assert (HF' : Full L (mkObj true (seq 0 L)) (s_file s2) gs2).
  { destruct Hfull as (_ & K2 & K3). unfold Full. ands; auto. }
  rewrite (sampler_init_Full _ _ _ _ _ _ _ HF' eq_refl).
  eexists _, (fun l => match nth_error gs2 l with
                       | Some g => filter (not_in (g_cids g ++ map fst (g_failed g))) (g_sched g)
                       | None => [] end).
  split; [reflexivity|]. split; [|cbn; auto].
  constructor; cbn [s_obj s_file s_sims s_nsched s_pool new_pool queues failed_queues times n_running]; auto.
  - rewrite map_length. apply Hfull.
  - split; [constructor|intros ? []].
  - split; [constructor|intros ? []].
  - split; [constructor|intros ? []].
  - intros l g n Hg Hn. rewrite nth_error_map, Hg in Hn. cbn in Hn. injection Hn as <-.
    assert (Hl : l < L). { destruct Hfull as (_ & _ & <-). apply nth_error_Some. congruence. }
    destruct (Full_nth _ _ _ _ _ Hfull1 Hl) as [g1 Hg1].
    destruct (HG l g1 Hg1) as (g2 & more & Hg2 & Hs & Hc & Hv & Hf). rewrite Hg in Hg2. injection Hg2 as <-.
    apply (BInv_level _ _ _ _ _ _ _ H1) in Hg1 as Hlev1.
    destruct (BInv_lev _ _ _ _ _ _ _ H1 Hlev1) as (n1 & Hn1 & HL1 & Hs1 & _).
    destruct (nth_error (s_nsched s2) l) as [n2|] eqn:En2.
    2:{ apply nth_error_None in En2. rewrite (iv_len _ _ _ _ _ _ _ H2) in En2. lia. }
    pose proof (iv_lev _ _ _ _ _ _ _ H2 l g n2 Hg En2) as HL2.
    pose proof (li_sched _ _ _ _ _ _ _ _ _ _ HL2) as Hs2.
    assert (Hpre : g_sched g = map (tagn l) (seq 0 (length (g_sched g)))).
    { set (a := length (g_sched g)) in *.
      assert (Ea : a <= n2).
      { apply (f_equal (@length _)) in Hs2. rewrite app_length, map_length, seq_length in Hs2. unfold a. lia. }
      replace n2 with (a + (n2 - a)) in Hs2 by lia. rewrite seq_app, map_app in Hs2.
      apply (f_equal (firstn a)) in Hs2. unfold a in Hs2 at 1. rewrite firstn_app, Nat.sub_diag, firstn_all in Hs2.
      rewrite firstn_app, map_length, seq_length, Nat.sub_diag in Hs2. cbn [firstn] in Hs2.
      rewrite !app_nil_r in Hs2. rewrite firstn_all2 in Hs2 by (rewrite map_length, seq_length; lia). exact Hs2. }
    assert (Hfail : failed_of E gs2 l = map fst (g_failed g)) by (unfold failed_of; now rewrite Hg).
    rewrite Hfail, Hg.
    assert (Hnd : NoDup (g_sched g)) by (rewrite Hpre; apply NoDup_tags).
    pose proof (li_perm _ _ _ _ _ _ _ _ _ _ HL1) as HP. rewrite app_nil_r in HP.
    assert (Hnd1 : NoDup (g_sched g1)) by (rewrite Hs1; apply NoDup_tags).
    assert (Hnda : NoDup (g_cids g1 ++ map fst (g_failed g1)
        ++ map fst (dlist (queues (s_pool s1)) l) ++ map fst (dlist (failed_queues (s_pool s1)) l) ++ lost1 l)).
    { eapply Permutation_NoDup; eauto. }
    rewrite app_assoc in Hnda.
    assert (Hincl : incl (g_cids g1 ++ map fst (g_failed g1)) (g_sched g1)).
    { intros x Hx. eapply Permutation_in; [symmetry; exact HP|]. rewrite app_assoc. apply in_app_iff. auto. }
    assert (Hsplit : Permutation (g_sched g) ((g_cids g ++ map fst (g_failed g))
              ++ filter (not_in (g_cids g ++ map fst (g_failed g))) (g_sched g))).
    { apply Permutation_split; auto; rewrite Hc, Hf.
      - now apply NoDup_app_iff in Hnda.
      - intros x Hx. rewrite Hs. apply in_app_iff. left. now apply Hincl. }
    constructor; auto.
    + rewrite app_nil_r. exact Hpre.
    + rewrite app_nil_r. cbn [map app dlist dget]. rewrite app_assoc. exact Hsplit.
    + apply (li_vals _ _ _ _ _ _ _ _ _ _ HL2).
    + constructor.
    + constructor.
    + rewrite Hf. apply (li_bad _ _ _ _ _ _ _ _ _ _ HL1).
    + rewrite Hf. apply (li_F _ _ _ _ _ _ _ _ _ _ HL1).
    + intros Hd Hempty. rewrite Hempty, app_nil_r in Hsplit.
      assert (Hmore : more = []).
      { destruct more as [|x more]; auto. exfalso.
        rewrite Hs in Hnd. apply NoDup_app_iff in Hnd as (_ & _ & Hdis). apply (Hdis x); [|now left].
        apply Hincl. rewrite <- Hc, <- Hf. eapply Permutation_in; [exact Hsplit|].
        rewrite Hs. apply in_app_iff. right. now left. }
      subst more. rewrite app_nil_r in Hs. rewrite Hs, Hc, Hf in Hsplit. rewrite app_assoc, Hsplit in HP.
      rewrite <- (app_nil_r (g_cids g1 ++ _)) in HP at 1. apply Permutation_app_inv_l in HP.
      apply Permutation_nil in HP. apply app_eq_nil in HP as [Q1 Q2]. apply app_eq_nil in Q2 as [Q2 Q3].
      pose proof (li_det _ _ _ _ _ _ _ _ _ _ HL1 Hd Q3) as HD. rewrite Q1, !app_nil_r in HD.
      cbn [map dlist dget]. rewrite !app_nil_r, Hs, Hc. exact HD.
Qed.

Lemma crash_BInv clk t fuel k s gs lost plan : BInv s gs lost -> plan_samples E s = Ok plan ->
  exists (s2 s3 : S_) gs3 lost3 l c, crash_schedule E ps clk t fuel k s = (s3, ONone)
    /\ BInv s3 gs3 lost3
    /\ (forall j g, level s j g -> exists g' more, level s3 j g' /\ g_sched g' = g_sched g ++ more)
    /\ exists new, s_handed s3 = s_handed s ++ new
    /\ (forall id, In id new -> exists j n, id = tagn j n
         /\ exists m m', nth_error (s_nsched s) j = Some m /\ nth_error (s_nsched s2) j = Some m' /\ m <= n < m')
    /\ (forall j m, nth_error (s_nsched s3) j = Some m ->
          nth_error (s_nsched s2) j = Some (if Nat.eqb j l then m + c else m)).
Proof.
  intros HI Hp. unfold crash_schedule.
  destruct (ask_Inv E ps clk t fuel s gs lost HI) as (s1 & gs1 & r1 & Ea & HI1 & Hask & _ & D1 & D2 & D3 & D4).
  rewrite Ea. cbn [fst]. rewrite (plan_samples_same E s s1), Hp by auto.
  destruct (prefix_Inv plan k [] (s_nsched s1) s1 gs1 _ _ HI1 eq_refl)
    as (gs2 & l & n & c & HI2 & HG & Hlen & new & Hnew & Hids).
  cbn [length] in *. set (s2 := fst (fst (do_acts E (firstn k (acts 0 plan)) (s1, [])))) in *.
  destruct (restart_grown s1 gs1 lost s2 gs2 _ _ _ HI1 HI2 HG) as (s3 & lost3 & E3 & HI3 & Hf3 & Hh3).
  exists s2, s3, gs2, lost3, l, c. split; [exact E3|]. split; [exact HI3|]. split.
  { intros j g Hg. apply (BInv_level _ _ _ _ _ _ _ HI) in Hg.
    destruct (asked_sched _ _ _ _ _ _ _ Hask Hg) as (g1 & Hg1 & Hs1).
    destruct (HG j g1 Hg1) as (g2 & more & Hg2 & Hs2 & _). exists g2, more.
    split; [|congruence]. now apply (BInv_level _ _ _ _ _ _ _ HI3). }
  exists new. split; [congruence|]. split.
  { intros id Hid. destruct (Hids id Hid) as (j & i & -> & m & m' & Q1 & Q2 & Q3). exists j, i. split; auto.
    exists m, m'. rewrite <- D1. auto. }
  intros j m Hj.
  assert (Hl : j < L) by (rewrite <- (iv_len _ _ _ _ _ _ _ HI3); apply nth_error_Some; congruence).
  destruct (BInv_has_level _ _ _ _ _ _ HI3 Hl) as [g Hg].
  pose proof (sched_length _ _ _ _ _ _ _ _ HI3 Hg Hj) as Hm.
  apply (BInv_level _ _ _ _ _ _ _ HI3) in Hg.
  destruct (nth_error (s_nsched s2) j) as [m2|] eqn:Em2.
  2:{ apply nth_error_None in Em2. rewrite (iv_len _ _ _ _ _ _ _ HI2) in Em2. lia. }
  pose proof (li_sched _ _ _ _ _ _ _ _ _ _ (iv_lev _ _ _ _ _ _ _ HI2 _ _ _ Hg Em2)) as P.
  apply (f_equal (@length _)) in P. rewrite app_length, map_length, seq_length in P.
  unfold pending, fupd in P. destruct (Nat.eqb_spec j l).
  - rewrite map_length, seq_length in P. f_equal. lia.
  - unfold none in P. cbn in P. f_equal. lia.
Qed.

(** From a consistent state on, identifiers handed out later are new counters (no renewals). *)
Lemma run_new fuel ops : forall s gs lost, BInv s gs lost -> (forall o, In o ops -> o <> Renew) ->
  exists new, s_handed (run E ps fuel s ops) = s_handed s ++ new /\ NoDup new
    /\ forall id, In id new -> exists l n m, id = tagn l n /\ nth_error (s_nsched s) l = Some m /\ m <= n.
Proof.
  induction ops as [|o ops IH]; intros s gs lost HI Hno.
  - exists []. cbn. rewrite app_nil_r. ands; auto; [constructor|intros ? []].
  - destruct (step_Inv E ps fuel s o gs lost HI) as (gs' & HI' & Hh).
    assert (Hgrew : grew E s (fst (step E ps fuel s o))).
    { destruct o; try exact Hh. exfalso. apply (Hno Renew); cbn; auto. }
    destruct Hgrew as (plan & Hn & Hd).
    destruct (IH _ _ _ HI') as (new & H1 & H2 & H3); [intros; apply Hno; cbn; auto|].
    exists (new_ids 0 (s_nsched s) plan ++ new).
    change (run E ps fuel s (o :: ops)) with (run E ps fuel (fst (step E ps fuel s o)) ops).
    rewrite H1, Hd, <- app_assoc. split; auto. split.
    + apply NoDup_app_iff. ands; auto using new_ids_NoDup.
      intros id K1 K2. apply new_ids_in in K1 as (l & n & m & m' & A1 & A2 & A3 & ->).
      apply H3 in K2 as (l2 & n2 & m2 & B1 & B2 & B3). apply tagn_inj in B1 as [<- <-].
      rewrite Hn in B2. cbn [plus] in B2. rewrite A2 in B2. injection B2 as <-. lia.
    + intros id K. apply in_app_iff in K as [K|K].
      * apply new_ids_in in K as (l & n & m & m' & A1 & A2 & A3 & ->). exists l, n, m. ands; auto; lia.
      * apply H3 in K as (l2 & n2 & m2 & B1 & B2 & B3). rewrite Hn in B2.
        assert (Hl : l2 < length (s_nsched s)).
        { rewrite <- (bump_all_length plan). apply nth_error_Some. congruence. }
        apply nth_error_Some in Hl. destruct (nth_error (s_nsched s) l2) as [m|] eqn:Em; [|congruence].
        destruct (bump_all_mono plan _ _ _ Em) as (m' & A' & Hm). exists l2, n2, m. rewrite A' in B2.
        injection B2 as ->. ands; auto; lia.
Qed.

End Crash.
