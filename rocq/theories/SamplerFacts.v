From Verif Require Import Base BaseFacts TagModel TagProofs PoolModel PoolProofs HdfModel HdfProofs
  SamplerModel SamplerProofs SamplerSpec.
From Coq Require Import Lqa Qminmax.

Section Facts.
Context (E : env) (ps : list (param E)).
Notation pairv := (arr (value E) * arr (value E))%type.
Notation L := (length ps).
Notation S_ := (sampler E).
Notation G := (lgroup pairv).
Notation BInv := (BInv E ps).

Lemma reached_BInv fuel ops s : reached E ps fuel ops s ->
  exists gs lost, BInv s gs lost /\ ((forall o, In o ops -> o <> Restart) -> lost = none).
Proof.
  intros (s0 & H0 & ->). destruct (start_Inv E ps) as (s0' & H0' & HI & _).
  rewrite H0 in H0'. injection H0' as <-. clear H0.
  destruct (run_Inv E ps fuel ops _ _ _ HI) as [gs' HI'].
  exists gs', (lost_run E ps fuel s0 none ops). split; auto.
  clear HI HI'. generalize (@none). intros n0. revert s0. induction ops as [|o ops IH]; intros s0 Hno; auto.
  cbn [lost_run].
  assert (Hl : lost_after E s0 n0 o = n0).
  { destruct o; auto. exfalso. apply (Hno Restart); cbn; auto. }
  rewrite Hl. apply IH. intros; apply Hno; cbn; auto.
Qed.

Lemma BInv_level s gs lost l g : BInv s gs lost -> level s l g <-> nth_error gs l = Some g.
Proof.
  intros HI. destruct (iv_full _ _ _ _ _ _ _ HI) as (_ & Hf & _). unfold level. rewrite Hf.
  cbn [f_groups]. rewrite nth_error_map. destruct (nth_error gs l); cbn; split; congruence.
Qed.

Lemma BInv_lev s gs lost l g : BInv s gs lost -> level s l g -> exists n, nth_error (s_nsched s) l = Some n
  /\ LInv E ps l n g (dlist (queues (s_pool s)) l) (dlist (failed_queues (s_pool s)) l) [] (map fst (g_failed g)) (lost l)
  /\ g_sched g = map (tagn l) (seq 0 n) /\ l < L.
Proof.
  intros HI Hl. apply (BInv_level _ _ _ _ _ HI) in Hl.
  assert (Hlt : l < L).
  { destruct (iv_full _ _ _ _ _ _ _ HI) as (_ & _ & <-). apply nth_error_Some. congruence. }
  assert (Hn : l < length (s_nsched s)) by (rewrite (iv_len _ _ _ _ _ _ _ HI); auto).
  apply nth_error_Some in Hn. destruct (nth_error (s_nsched s) l) as [n|] eqn:En; [|congruence].
  exists n. pose proof (iv_lev _ _ _ _ _ _ _ HI l g n Hl En) as HL. unfold failed_of in HL. rewrite Hl in HL.
  repeat split; auto; try apply HL. pose proof (li_sched _ _ _ _ _ _ _ _ _ _ HL) as Hs.
  cbn in Hs. now rewrite app_nil_r in Hs.
Qed.

Lemma BInv_has_level s gs lost l : BInv s gs lost -> l < L -> exists g, level s l g.
Proof.
  intros HI Hl. destruct (Full_nth _ _ _ _ _ (iv_full _ _ _ _ _ _ _ HI) Hl) as [g Hg].
  exists g. now apply (BInv_level _ _ _ _ _ HI).
Qed.

Lemma NoDup_tags l n m : NoDup (map (tagn l) (seq n m)).
Proof.
  apply FinFun.Injective_map_NoDup; [|apply seq_NoDup].
  intros a b H. apply tagn_inj in H. lia.
Qed.

(** C01 *)
Lemma ids_counted fuel ops s l : reached E ps fuel ops s -> l < L ->
  exists g n, level s l g /\ nth_error (s_nsched s) l = Some n /\ g_sched g = map (tag l) (seq 0 n).
Proof.
  intros Hr Hl. destruct (reached_BInv _ _ _ Hr) as (gs & lost & HI & _).
  destruct (BInv_has_level _ _ _ _ HI Hl) as [g Hg].
  destruct (BInv_lev _ _ _ _ _ HI Hg) as (n & Hn & _ & Hs & _). exists g, n. auto.
Qed.

Lemma nth_error_tags l n i id : nth_error (map (tagn l) (seq 0 n)) i = Some id -> id = tagn l i.
Proof.
  rewrite nth_error_map, nth_error_seq. destruct (Nat.ltb i n); [|discriminate].
  cbn. intros [= <-]. reflexivity.
Qed.

Lemma ids_unique fuel ops s l1 l2 g1 g2 i j id : reached E ps fuel ops s ->
  level s l1 g1 -> level s l2 g2 -> nth_error (g_sched g1) i = Some id ->
  nth_error (g_sched g2) j = Some id -> l1 = l2 /\ i = j.
Proof.
  intros Hr H1 H2 Hi Hj. destruct (reached_BInv _ _ _ Hr) as (gs & lost & HI & _).
  destruct (BInv_lev _ _ _ _ _ HI H1) as (n1 & _ & _ & S1 & _).
  destruct (BInv_lev _ _ _ _ _ HI H2) as (n2 & _ & _ & S2 & _).
  rewrite S1 in Hi. rewrite S2 in Hj. apply nth_error_tags in Hi, Hj. apply tagn_inj. congruence.
Qed.

Definition HInv (s : S_) : Prop :=
  forall id, In id (s_handed s) <-> exists l n m, nth_error (s_nsched s) l = Some m /\ n < m /\ id = tagn l n.

Lemma new_ids_in plan : forall v i id, In id (new_ids i v plan) <->
  exists l n m m', nth_error v l = Some m /\ nth_error (bump_all v plan) l = Some m' /\ m <= n < m'
    /\ id = tagn (i + l) n.
Proof.
  induction plan as [|q plan IH]; intros [|x v] i id; cbn [new_ids bump_all].
  - split; [intros []|intros ([|?] & ? & ? & ? & H & _); discriminate H].
  - split; [intros []|]. intros (l & n & m & m' & H & H' & Hn & _). rewrite H in H'. injection H' as <-. lia.
  - split; [intros []|intros ([|?] & ? & ? & ? & H & _); discriminate H].
  - rewrite in_app_iff, in_map_iff. split.
    + intros [(n & <- & Hn)|H].
      * apply in_seq in Hn. exists 0, n, x, (x + Z.to_nat (Qtrunc q)). rewrite Nat.add_0_r. cbn. ands; auto; lia.
      * apply IH in H. destruct H as (l & n & m & m' & H1 & H2 & H3 & ->).
        exists (S l), n, m, m'. ands; auto; try lia. f_equal; lia.
    + intros ([|l] & n & m & m' & H1 & H2 & H3 & ->); cbn in H1, H2.
      * injection H1 as <-. injection H2 as <-. left. exists n. rewrite Nat.add_0_r. split; auto.
        apply in_seq. lia.
      * right. apply IH. exists l, n, m, m'. ands; auto; try lia. f_equal; lia.
Qed.

Lemma bump_all_mono plan : forall v l m, nth_error v l = Some m ->
  exists m', nth_error (bump_all v plan) l = Some m' /\ m <= m'.
Proof.
  induction plan as [|q plan IH]; intros [|x v] [|l] m H; cbn in *; try discriminate; eauto.
  injection H as <-. eexists; split; [reflexivity|]. lia.
Qed.
Lemma bump_all_length plan : forall v, length (bump_all v plan) = length v.
Proof. induction plan as [|q plan IH]; intros [|x v]; cbn; auto. Qed.

Lemma new_ids_NoDup plan : forall v i, NoDup (new_ids i v plan).
Proof.
  induction plan as [|q plan IH]; intros [|x v] i; cbn [new_ids]; try constructor.
  apply NoDup_app_iff. ands; auto using NoDup_tags.
  intros id H1 H2. apply in_map_iff in H1 as (n & <- & _). apply new_ids_in in H2.
  destruct H2 as (l & n' & m & m' & _ & _ & _ & H). apply tagn_inj in H. lia.
Qed.

Lemma grew_HInv s s' : HInv s -> grew E s s' -> HInv s'.
Proof.
  intros H (plan & H1 & H2) id. rewrite H2, in_app_iff, (H id), new_ids_in, H1. cbn [plus]. split.
  - intros [(l & n & m & A & B & C)|(l & n & m & m' & A & B & C & D)].
    + destruct (bump_all_mono plan _ _ _ A) as (m' & A' & Hm). exists l, n, m'. ands; auto; lia.
    + exists l, n, m'. ands; auto; lia.
  - intros (l & n & m' & A & B & C).
    assert (Hl : l < length (s_nsched s)).
    { rewrite <- (bump_all_length plan). apply nth_error_Some. congruence. }
    apply nth_error_Some in Hl. destruct (nth_error (s_nsched s) l) as [m|] eqn:Em; [|congruence].
    destruct (Nat.lt_ge_cases n m); [left; exists l, n, m; auto|right; exists l, n, m, m'; auto].
Qed.

Lemma grew_NoDup s s' : HInv s -> NoDup (s_handed s) -> grew E s s' -> NoDup (s_handed s').
Proof.
  intros H Hn (plan & H1 & H2). rewrite H2. apply NoDup_app_iff. ands; auto using new_ids_NoDup.
  intros id K1 K2. apply H in K1. apply new_ids_in in K2.
  destruct K1 as (l & n & m & A & B & C). destruct K2 as (l' & n' & m1 & m' & A' & B' & C' & D').
  rewrite C in D'. apply tagn_inj in D' as [-> ->]. cbn [plus] in A. rewrite A in A'. injection A' as <-. lia.
Qed.

Lemma step_HInv fuel s o gs lost : BInv s gs lost -> HInv s -> HInv (fst (step E ps fuel s o))
  /\ (o <> Renew -> NoDup (s_handed s) -> NoDup (s_handed (fst (step E ps fuel s o)))).
Proof.
  intros HI H. destruct (step_Inv E ps fuel s o gs lost HI) as (gs' & HI' & Hh).
  destruct o; cbn [handed_after] in Hh;
    try (solve [split; [eapply grew_HInv; eauto|intros _ Hn; eapply grew_NoDup; eauto]]).
  split; [|now intros []]. destruct Hh as [H1 H2]. intros id. rewrite H2, H1, in_app_iff.
  split; [|intros K; left; now apply (H id)]. intros [K|K]; [now apply (H id)|].
  apply in_concat in K; destruct K as (x & Hx & Hid). apply in_map_iff in Hx as (g & <- & Hg).
  apply In_nth_error in Hg as [l Hl]. apply (BInv_level _ _ _ _ _ HI) in Hl.
  destruct (BInv_lev _ _ _ _ _ HI Hl) as (n & Hn & HL & Hs & _).
  assert (Hin : In id (g_sched g)).
  { pose proof (li_perm _ _ _ _ _ _ _ _ _ _ HL) as HP. rewrite app_nil_r in HP.
    eapply Permutation_in; [symmetry; exact HP|]. apply in_app_iff. right. apply in_app_iff. auto. }
  rewrite Hs in Hin. apply in_map_iff in Hin as (i & <- & Hi). apply in_seq in Hi.
  exists l, i, n. ands; auto; lia.
Qed.

Lemma run_HInv fuel ops : forall s gs lost, BInv s gs lost -> HInv s -> HInv (run E ps fuel s ops)
  /\ ((forall o, In o ops -> o <> Renew) -> NoDup (s_handed s) -> NoDup (s_handed (run E ps fuel s ops))).
Proof.
  induction ops as [|o ops IH]; intros s gs lost HI H; [auto|].
  destruct (step_HInv fuel s o gs lost HI H) as [H1 H2].
  destruct (step_Inv E ps fuel s o gs lost HI) as (gs' & HI' & _).
  destruct (IH _ _ _ HI' H1) as [H3 H4]. split; [exact H3|].
  intros Hno Hn. apply H4; [intros; apply Hno; cbn; auto|]. apply H2; auto. apply Hno; cbn; auto.
Qed.

Lemma reached_HInv fuel ops s : reached E ps fuel ops s -> HInv s
  /\ ((forall o, In o ops -> o <> Renew) -> NoDup (s_handed s)).
Proof.
  intros (s0 & H0 & ->). destruct (start_Inv E ps) as (s0' & H0' & HI & Hh & Hn & _).
  rewrite H0 in H0'. injection H0' as <-.
  assert (H : HInv s0).
  { intros id. rewrite Hh. split; [intros []|]. intros (l & n & m & A & B & _).
    rewrite Hn in A. apply nth_error_In, repeat_spec in A. lia. }
  destruct (run_HInv fuel ops s0 _ _ HI H) as [H1 H2]. split; auto.
  intros Hno. apply H2; auto. rewrite Hh. constructor.
Qed.

Lemma handed_scheduled fuel ops s id : reached E ps fuel ops s ->
  In id (s_handed s) <-> exists l g, level s l g /\ In id (g_sched g).
Proof.
  intros Hr. destruct (reached_HInv _ _ _ Hr) as [H _]. rewrite (H id).
  destruct (reached_BInv _ _ _ Hr) as (gs & lost & HI & _). split.
  - intros (l & n & m & A & B & ->).
    assert (Hl : l < L) by (rewrite <- (iv_len _ _ _ _ _ _ _ HI); apply nth_error_Some; congruence).
    destruct (BInv_has_level _ _ _ _ HI Hl) as [g Hg]. exists l, g. split; auto.
    destruct (BInv_lev _ _ _ _ _ HI Hg) as (n' & Hn' & _ & -> & _). rewrite A in Hn'. injection Hn' as <-.
    apply in_map, in_seq. lia.
  - intros (l & g & Hg & Hin). destruct (BInv_lev _ _ _ _ _ HI Hg) as (n' & Hn' & _ & Hs & _).
    rewrite Hs in Hin. apply in_map_iff in Hin as (i & <- & Hi). apply in_seq in Hi. exists l, i, n'. ands; auto; lia.
Qed.

(** C03 *)
Lemma Qfloor_minus_nat q (n : nat) : Qfloor (q - nat_Q n) = (Qfloor q - Z.of_nat n)%Z.
Proof.
  unfold nat_Q. pose proof (Qfloor_le q) as H1. pose proof (Qlt_floor q) as H2.
  pose proof (Qfloor_le (q - inject_Z (Z.of_nat n))) as H3.
  pose proof (Qlt_floor (q - inject_Z (Z.of_nat n))) as H4.
  rewrite inject_Z_plus in H2, H4. change (inject_Z 1) with 1%Q in *.
  set (a := Qfloor q) in *. set (b := Qfloor (q - inject_Z (Z.of_nat n))) in *.
  assert (K1 : (inject_Z b < inject_Z (a - Z.of_nat n + 1))%Q).
  { rewrite inject_Z_plus. unfold Z.sub. rewrite inject_Z_plus, inject_Z_opp. change (inject_Z 1) with 1%Q. lra. }
  assert (K2 : (inject_Z (a - Z.of_nat n) < inject_Z (b + 1))%Q).
  { rewrite inject_Z_plus. unfold Z.sub. rewrite inject_Z_plus, inject_Z_opp. change (inject_Z 1) with 1%Q. lra. }
  rewrite <- Zlt_Qlt in K1, K2. lia.
Qed.

Lemma floor_target q n : n + Z.to_nat (Qtrunc (q - nat_Q n)) = Nat.max n (Z.to_nat (Qfloor q)).
Proof.
  unfold Qtrunc. destruct (Qle_bool 0 (q - nat_Q n)) eqn:Eq.
  - apply Qle_bool_iff in Eq. rewrite Qfloor_minus_nat.
    assert (0 <= Qfloor (q - nat_Q n))%Z.
    { change 0%Z with (Qfloor 0). now apply Qfloor_resp_le. }
    rewrite Qfloor_minus_nat in H. lia.
  - assert (Hlt : (q - nat_Q n < 0)%Q).
    { apply Qnot_le_lt. intros H. apply Qle_bool_iff in H. congruence. }
    assert (Hc : (Qceiling (q - nat_Q n) <= 0)%Z).
    { change 0%Z with (Qceiling 0). apply Qceiling_resp_le. lra. }
    assert (Hf : (Qfloor q <= Z.of_nat n)%Z).
    { rewrite <- (Qfloor_Z (Z.of_nat n)). apply Qfloor_resp_le. unfold nat_Q in Hlt. lra. }
    lia.
Qed.

Lemma bump_all_minus t : forall v l q n, length t = length v -> nth_error t l = Some q -> nth_error v l = Some n ->
  nth_error (bump_all v (minus_vec t v)) l = Some (Nat.max n (Z.to_nat (Qfloor q))).
Proof.
  induction t as [|x t IH]; intros [|y v] [|l] q n Hl Hq Hn; cbn in Hl, Hq, Hn; try discriminate.
  - injection Hq as <-. injection Hn as <-. cbn [minus_vec bump_all nth_error]. now rewrite floor_target.
  - cbn [minus_vec bump_all nth_error]. apply IH; auto.
Qed.

Lemma sched_length s gs lost l g n : BInv s gs lost -> level s l g -> nth_error (s_nsched s) l = Some n ->
  length (g_sched g) = n.
Proof.
  intros HI Hg Hn. destruct (BInv_lev _ _ _ _ _ HI Hg) as (n' & Hn' & _ & -> & _).
  rewrite map_length, seq_length. congruence.
Qed.

Lemma asked_sched s gs s' gs' l g : asked E s gs s' gs' -> nth_error gs l = Some g ->
  exists g', nth_error gs' l = Some g' /\ g_sched g' = g_sched g.
Proof.
  intros [-> ->|_ _ H] Hg; eauto. destruct (H l g Hg) as (g' & Hg' & P1 & _). eauto.
Qed.

Lemma schedule_to_target fuel ops s clk t :
  reached E ps (S fuel) ops s -> length (s_targets s) = L ->
  exists s', step E ps (S fuel) s (Schedule clk t) = (s', ONone)
    /\ s_targets s' = s_targets s
    /\ forall l g q, level s l g -> nth_error (s_targets s) l = Some q ->
       exists g' more, level s' l g' /\ g_sched g' = g_sched g ++ more
         /\ length (g_sched g') = Nat.max (length (g_sched g)) (Z.to_nat (Qfloor q)).
Proof.
  intros Hr Ht. destruct (reached_BInv _ _ _ Hr) as (gs & lost & HI & _).
  destruct (schedule_samples_Inv E ps clk t (S fuel) s gs lost HI)
    as (s1 & gs1 & s' & gs' & r & E1 & _ & HI1 & Hask & HI' & Hg & HT & _ & Hcase).
  pose proof (iv_len _ _ _ _ _ _ _ HI) as Hlen.
  assert (Hp : plan_samples E s = Ok (minus_vec (s_targets s) (s_nsched s))).
  { unfold plan_samples. rewrite Hlen, Ht, Nat.eqb_refl. reflexivity. }
  destruct Hcase as [(_ & H0 & _)|[(plan & Hp' & -> & Hns & _)|(e & Hp' & _)]]; [lia| |congruence].
  rewrite Hp in Hp'. injection Hp' as <-. rewrite minus_vec_length in E1 by lia.
  rewrite Hlen, Nat.leb_refl in E1. cbn [step]. exists s'. split; [exact E1|]. split; [exact HT|].
  intros l g q Hlg Hq.
  apply (BInv_level _ _ _ _ _ HI) in Hlg as Hgl.
  destruct (asked_sched _ _ _ _ _ _ Hask Hgl) as (g1 & Hg1 & Hs1).
  destruct (Hg l g1 Hg1) as (g' & more & Hg' & Hs' & _).
  apply (BInv_level _ _ _ _ _ HI') in Hg'.
  exists g', more. split; [auto|]. split; [congruence|].
  destruct (BInv_lev _ _ _ _ _ HI Hlg) as (n & Hn & _).
  rewrite (sched_length _ _ _ _ _ _ HI Hlg Hn).
  apply (sched_length _ _ _ _ _ _ HI' Hg'). rewrite Hns. apply bump_all_minus; auto. lia.
Qed.

Lemma schedule_wrong_length fuel ops s clk t :
  reached E ps (S fuel) ops s -> length (s_targets s) <> L -> length (s_targets s) <> 1 -> L <> 1 ->
  exists s', step E ps (S fuel) s (Schedule clk t) = (s', OErr ValueError)
    /\ s_handed s' = s_handed s
    /\ forall l g, level s l g -> exists g', level s' l g' /\ g_sched g' = g_sched g.
Proof.
  intros Hr Ht Ht1 HL1. destruct (reached_BInv _ _ _ Hr) as (gs & lost & HI & _).
  destruct (schedule_samples_Inv E ps clk t (S fuel) s gs lost HI)
    as (s1 & gs1 & s' & gs' & r & E1 & _ & HI1 & Hask & HI' & Hg & HT & _ & Hcase).
  pose proof (iv_len _ _ _ _ _ _ _ HI) as Hlen.
  assert (Hp : plan_samples E s = Err ValueError).
  { unfold plan_samples. rewrite Hlen. destruct (Nat.eqb_spec (length (s_targets s)) L); [congruence|].
    destruct (s_nsched s) as [|a [|b v]]; cbn in Hlen; try lia;
    destruct (s_targets s) as [|x [|y w]]; cbn in *; try lia; reflexivity. }
  destruct Hcase as [(_ & H0 & _)|[(plan & Hp' & _)|(e & Hp' & -> & -> & Hns & Hh)]]; [lia|congruence|].
  rewrite Hp in Hp'. injection Hp' as <-. cbn [step]. exists s1. ands; auto.
  intros l g Hlg. apply (BInv_level _ _ _ _ _ HI) in Hlg.
  destruct (asked_sched _ _ _ _ _ _ Hask Hlg) as (g1 & Hg1 & Hs1).
  exists g1. split; auto. now apply (BInv_level _ _ _ _ _ HI1).
Qed.

(** targets *)
Definition integral (q : Q) : Prop := exists z, q = inject_Z z.
Definition TInv (s : S_) : Prop := s_tint s = true -> Forall integral (s_targets s).

Lemma raise_targets_spec isint v : forall t t' r, raise_targets isint t v = (t', r) ->
  (isint = true -> Forall integral t) ->
  (isint = true -> Forall integral t') /\ length t' = length t
  /\ (r = Ok tt <-> length v <= length t)
  /\ forall l q, nth_error t l = Some q -> exists q', nth_error t' l = Some q' /\ (q <= q')%Q
       /\ match nth_error v l with
          | None => q' = q
          | Some n => q' = (let m := if Qle_bool n q then q else n in
                            if isint then inject_Z (Qtrunc m) else m)
          end.
Proof.
  induction v as [|n v IH]; intros t t' r.
  - assert (Hz : raise_targets isint t [] = (t, Ok tt)) by now destruct t.
    rewrite Hz. intros Heq Hi. injection Heq as <- <-. ands; auto.
    + split; auto. cbn. lia.
    + intros l q Hq. exists q. ands; auto; [apply Qle_refl|]. now destruct l.
  - destruct t as [|x t].
    + intros Heq Hi. cbn in Heq. injection Heq as <- <-. ands; auto.
      * split; [discriminate|cbn; lia].
      * intros [|l] q; discriminate.
    + cbn [raise_targets]. cbv zeta. destruct (raise_targets isint t v) as [t2 r2] eqn:Er.
      intros Heq Hi. injection Heq as <- <-.
      assert (Hi' : isint = true -> Forall integral t) by (intros K; specialize (Hi K); now inversion Hi).
      destruct (IH t t2 r2 Er Hi') as (A & B & C & D). ands.
      * intros K. constructor; [|auto]. rewrite K. eexists; reflexivity.
      * cbn. lia.
      * rewrite C. cbn. lia.
      * intros [|l] q; cbn [nth_error]; [|apply D]. intros [= <-].
        eexists. split; [reflexivity|]. split; [|reflexivity].
        assert (Hm : (x <= (if Qle_bool n x then x else n))%Q).
        { destruct (Qle_bool n x) eqn:En; [apply Qle_refl|].
          apply Qlt_le_weak, Qnot_le_lt. intros K. apply Qle_bool_iff in K. congruence. }
        destruct isint; auto.
        destruct (Forall_inv (Hi eq_refl)) as [z ->]. rewrite <- Zle_Qle.
        set (m := if Qle_bool n (inject_Z z) then inject_Z z else n) in *. unfold Qtrunc.
        destruct (Qle_bool 0 m) eqn:E0.
        -- rewrite <- (Qfloor_Z z). now apply Qfloor_resp_le.
        -- rewrite <- (Qceiling_Z z). now apply Qceiling_resp_le.
Qed.

Lemma set_level_target_TInv v s : TInv s -> TInv (fst (set_level_target E v s)).
Proof.
  intros H. unfold set_level_target. destruct (raise_targets _ _ v) as [t r] eqn:Er.
  cbn. intros K. cbn in K. eapply raise_targets_spec; eauto.
Qed.

Lemma TInv_same s s' : TInv s -> s_targets s' = s_targets s -> s_tint s' = s_tint s -> TInv s'.
Proof. intros H H1 H2 K. rewrite H1. rewrite H2 in K. auto. Qed.

Lemma Forall_integral_map l : Forall integral (map inject_Z l).
Proof. induction l; cbn; constructor; auto. eexists; reflexivity. Qed.

Lemma set_scheduled_and_wait_TInv clk t af fuel plan items s gs lost :
  BInv s gs lost -> TInv s -> TInv (fst (set_scheduled_and_wait E clk t af fuel plan items s)).
Proof.
  intros HI HT. unfold set_scheduled_and_wait.
  pose proof (set_level_target_TInv plan s HT) as H1.
  destruct (set_level_target_Inv E ps plan s gs lost HI) as (tg & r & Es & _ & HI1).
  rewrite Es in *. cbn [fst] in H1. destruct r; [|exact H1].
  destruct (schedule_samples_Inv E ps (clk 1) t af _ gs lost HI1)
    as (s1 & gs1 & s2 & gs2 & r2 & -> & _ & _ & _ & HI2 & _ & K1 & K2 & _).
  assert (H2 : TInv s2) by (eapply TInv_same; [exact H1| |]; congruence).
  destruct r2; try exact H2.
  destruct (wait_half_Inv E ps clk t af items plan fuel 2 s2 gs2 lost HI2) as (s3 & gs3 & r3 & -> & HI3 & J1 & J2 & J3 & _).
  eapply TInv_same; eauto.
Qed.

Lemma step_TInv fuel s o gs lost : BInv s gs lost -> TInv s -> TInv (fst (step E ps fuel s o)).
Proof.
  intros HI HT. destruct o as [v|v|clk t|clk t| |clk t c est|]; cbn [step].
  - cbn [fst]. unfold set_initial.
    assert (Hint : forall l, TInv (set_targets E s (map inject_Z l) true)).
    { intros l _. apply Forall_integral_map. }
    assert (Hfl : forall l, TInv (set_targets E s l false)).
    { intros l K. discriminate K. }
    destruct v as [[l|l]|]; cbn [nums_Q].
    + destruct l as [|x [|y [|z l]]]; cbn [map]; try apply (Hint []); try apply Hint.
      apply (Hint (x :: y :: z :: l)).
    + destruct l as [|x [|y [|z l]]]; auto.
    + auto.
  - pose proof (set_level_target_TInv v s HT) as H. destruct (set_level_target E v s) as [s' [u|e]]; exact H.
  - destruct (schedule_samples_Inv E ps clk t fuel s gs lost HI)
      as (s1 & gs1 & s' & gs' & r & -> & _ & _ & _ & HI' & _ & K1 & K2 & _). eapply TInv_same; eauto.
  - destruct (ask_Inv E ps clk t fuel s gs lost HI) as (s' & gs' & r & -> & HI' & _ & _ & D1 & D2 & D3 & D4).
    assert (TInv s') by (eapply TInv_same; eauto). destruct r as [[?|?]|]; auto.
  - destruct (renew_failed_Inv E ps s gs lost HI) as (s' & -> & HI' & D1 & D2 & D3 & _).
    eapply TInv_same; eauto.
  - unfold process_adding.
    destruct (ask_Inv E ps (clk 0) t fuel s gs lost HI) as (s1 & gs1 & r1 & -> & HI1 & _ & _ & D1 & D2 & D3 & D4).
    assert (H1 : TInv s1) by (eapply TInv_same; eauto).
    destruct r1 as [[n|e]|]; auto. destruct (Nat.eqb _ _); auto.
    pose proof (set_scheduled_and_wait_TInv clk t fuel fuel (planned_vec c est (s_nsched s1))
       (greater_items 0 est (planned_vec c est (s_nsched s1))) s1 gs1 lost HI1 H1) as H2.
    destruct (set_scheduled_and_wait E clk t fuel fuel _ _ s1) as [s2 r2]. destruct r2; exact H2.
  - destruct (restart_Inv E ps s gs lost HI) as (s' & E1 & HI' & _ & D1 & D2 & _). rewrite E1. cbn [fst].
    intros _. rewrite D2. apply Forall_forall. intros x Hx. apply repeat_spec in Hx. subst. now exists 0%Z.
Qed.

Lemma reached_TInv fuel ops s : reached E ps fuel ops s -> TInv s.
Proof.
  intros (s0 & H0 & ->). destruct (start_Inv E ps) as (s0' & H0' & HI & _ & _ & Ht).
  rewrite H0 in H0'. injection H0' as <-.
  assert (HT : TInv s0).
  { intros _. rewrite Ht. apply Forall_forall. intros x Hx. apply repeat_spec in Hx. subst. now exists 0%Z. }
  clear H0 Ht. revert s0 HI HT. generalize (repeat (@empty_group pairv) L) (none).
  induction ops as [|o ops IH]; intros gs lost s0 HI HT; auto.
  destruct (step_Inv E ps fuel s0 o gs lost HI) as (gs' & HI' & _).
  apply (IH _ _ _ HI'). eapply step_TInv; eauto.
Qed.

Lemma targets_rise fuel ops s v : reached E ps fuel ops s ->
  let s' := fst (step E ps fuel s (SetTarget v)) in
  snd (step E ps fuel s (SetTarget v)) = (if Nat.leb (length v) (length (s_targets s)) then ONone else OErr IndexError)
  /\ length (s_targets s') = length (s_targets s)
  /\ (forall l q, nth_error (s_targets s) l = Some q -> exists q', nth_error (s_targets s') l = Some q' /\ (q <= q')%Q
       /\ forall n, nth_error v l = Some n -> s_tint s = false -> (q' == Qmax q n)%Q)
  /\ s_file s' = s_file s /\ s_pool s' = s_pool s /\ s_handed s' = s_handed s.
Proof.
  intros Hr. pose proof (reached_TInv _ _ _ Hr) as HT. cbn [step]. unfold set_level_target.
  destruct (raise_targets (s_tint s) (s_targets s) v) as [t r] eqn:Er.
  destruct (raise_targets_spec _ _ _ _ _ Er HT) as (A & B & C & D).
  assert (Hr2 : forall x y e, r = Err e -> raise_targets x y v = (t, r) -> e = IndexError).
  { clear. intros x. revert t r. induction v as [|n v IH]; intros t r y e -> H.
    - destruct y; discriminate.
    - destruct y as [|z y]; cbn in H; [congruence|]. destruct (raise_targets x y v) as [t2 r2] eqn:E2.
      injection H as _ ->. eapply IH; eauto. }
  split; [|split; [|split]].
  - destruct (Nat.leb_spec (length v) (length (s_targets s))) as [Hl|Hl].
    + apply C in Hl. subst r. reflexivity.
    + destruct r as [[]|e]; [exfalso; assert (length v <= length (s_targets s)) by (apply C; reflexivity); lia|].
      cbn. f_equal. eapply Hr2; eauto.
  - destruct r; exact B.
  - intros l q Hq. destruct (D l q Hq) as (q' & H1 & H2 & H3). exists q'. ands; auto; [destruct r; exact H1|].
    intros n Hn Hf. rewrite Hn, Hf in H3. cbn zeta in H3. subst q'.
    destruct (Qle_bool n q) eqn:En.
    + apply Qle_bool_iff in En. symmetry. now apply Q.max_l.
    + symmetry. apply Q.max_r. apply Qlt_le_weak, Qnot_le_lt. intros K. apply Qle_bool_iff in K. congruence.
  - destruct r; auto.
Qed.

(** C04 *)
Lemma conservation fuel ops s l g : reached E ps fuel ops s -> (forall o, In o ops -> o <> Restart) ->
  level s l g ->
  Permutation (g_sched g) (g_cids g ++ map fst (g_failed g) ++ waiting s l) /\ NoDup (g_sched g).
Proof.
  intros Hr Hno Hg. destruct (reached_BInv _ _ _ Hr) as (gs & lost & HI & Hl). rewrite (Hl Hno) in HI.
  destruct (BInv_lev _ _ _ _ _ HI Hg) as (n & Hn & HL & Hs & _). split.
  - pose proof (li_perm _ _ _ _ _ _ _ _ _ _ HL) as HP. unfold none in HP. rewrite !app_nil_r in HP. exact HP.
  - rewrite Hs. apply NoDup_tags.
Qed.

Lemma conservation_lost fuel ops s : reached E ps fuel ops s ->
  exists lost : nat -> list pystr, forall l g, level s l g ->
  Permutation (g_sched g) (g_cids g ++ map fst (g_failed g) ++ waiting s l ++ lost l) /\ NoDup (g_sched g).
Proof.
  intros Hr. destruct (reached_BInv _ _ _ Hr) as (gs & lost & HI & _). exists lost. intros l g Hg.
  destruct (BInv_lev _ _ _ _ _ HI Hg) as (n & Hn & HL & Hs & _). split.
  - pose proof (li_perm _ _ _ _ _ _ _ _ _ _ HL) as HP. rewrite !app_nil_r in HP.
    unfold waiting. rewrite <- app_assoc. exact HP.
  - rewrite Hs. apply NoDup_tags.
Qed.

Lemma n_finished_read s gs lost : BInv s gs lost ->
  n_finished (s_obj s) (s_file s) = Ok (map (fun g => length (finished_ids g)) gs).
Proof. intros HI. apply (n_finished_Full _ _ _ _ (iv_full _ _ _ _ _ _ _ HI)). Qed.

Lemma Inv_waiting_empty s l : empty_queues E (s_pool s) -> waiting s l = [].
Proof. intros [H1 H2]. unfold waiting. now rewrite (qtotal_zero _ H1), (qtotal_zero _ H2). Qed.

Lemma ask_all fuel ops s clk : reached E ps (S fuel) ops s ->
  exists s', step E ps (S fuel) s (Ask clk None) = (s', OInt 0)
    /\ (forall l, waiting s' l = [])
    /\ (forall l g, level s l g -> exists g', level s' l g' /\ g_sched g' = g_sched g)
    /\ ((forall o, In o ops -> o <> Restart) ->
        (forall l g', level s' l g' -> Permutation (g_sched g') (g_cids g' ++ map fst (g_failed g')))
        /\ n_finished (s_obj s') (s_file s') = Ok (s_nsched s')).
Proof.
  intros Hr. destruct (reached_BInv _ _ _ Hr) as (gs & lost & HI & Hl).
  destruct (ask_Inv E ps clk None (S fuel) s gs lost HI)
    as (s' & gs' & r & Ea & HI' & Hask & Hcase & D1 & _ & _ & D4).
  cbn [step]. rewrite Ea.
  destruct r as [[n|e]|]; [|contradiction|destruct Hcase; lia].
  destruct Hcase as [(_ & _ & q & Hq & _)|(-> & He & _ & _)]; [discriminate|].
  exists s'. split; [reflexivity|]. split; [intros l; now apply Inv_waiting_empty|]. split.
  - intros l g Hg. apply (BInv_level _ _ _ _ _ HI) in Hg.
    destruct (asked_sched _ _ _ _ _ _ Hask Hg) as (g1 & Hg1 & Hs1). exists g1. split; auto.
    now apply (BInv_level _ _ _ _ _ HI').
  - intros Hno. rewrite (Hl Hno) in HI'.
    assert (HP : forall l g', level s' l g' -> Permutation (g_sched g') (g_cids g' ++ map fst (g_failed g'))).
    { intros l g' Hg'. destruct (BInv_lev _ _ _ _ _ HI' Hg') as (n & Hn & HL & Hs & _).
      pose proof (li_perm _ _ _ _ _ _ _ _ _ _ HL) as HP. destruct He as [H1 H2].
      rewrite (qtotal_zero _ H1), (qtotal_zero _ H2) in HP. unfold none in HP. cbn [map app] in HP.
      rewrite !app_nil_r in HP. exact HP. }
    split; [exact HP|]. rewrite (n_finished_read _ _ _ HI'). f_equal.
    apply nth_error_ext. intros i. rewrite nth_error_map.
    destruct (nth_error gs' i) as [g|] eqn:Eg; cbn.
    + apply (BInv_level _ _ _ _ _ HI') in Eg. specialize (HP _ _ Eg).
      destruct (BInv_lev _ _ _ _ _ HI' Eg) as (n & Hn & _ & Hs & _). rewrite Hn. f_equal.
      unfold finished_ids. rewrite <- (Permutation_length HP), Hs, map_length, seq_length. reflexivity.
    + symmetry. apply nth_error_None. rewrite (iv_len _ _ _ _ _ _ _ HI').
      destruct (iv_full _ _ _ _ _ _ _ HI') as (_ & _ & <-). now apply nth_error_None.
Qed.

(** C05 *)
Lemma level_sims_config (l : list (param E)) : forall prev i k,
  option_map ls_config (nth_error (level_sims E prev i l) k)
  = match nth_error l k with
    | None => None
    | Some p => Some (level_instance E p (match k with 0 => prev | S j => nth j l prev end))
    end.
Proof.
  induction l as [|x l IH]; intros prev i [|k]; cbn [level_sims nth_error option_map]; auto.
  rewrite IH. destruct (nth_error l k) as [p|] eqn:Ek; auto. destruct k as [|k]; auto.
  cbn [nth]. do 2 f_equal. apply nth_indep. apply Nat.lt_le_incl. apply nth_error_Some. congruence.
Qed.

Lemma sims_config l ls : nth_error (create_level_sims E ps) l = Some ls -> level_config E ps l = Some (ls_config ls).
Proof.
  intros H. pose proof (level_sims_config ps (zero_param E) 0 l) as Hc.
  unfold create_level_sims in H. rewrite H in Hc. cbn in Hc.
  unfold level_config. destruct l as [|k].
  - destruct (nth_error ps 0); cbn; congruence.
  - destruct (nth_error ps (S k)) as [p|] eqn:Ep; [|discriminate].
    assert (Hk : k < L) by (apply Nat.lt_trans with (S k); [lia|]; apply nth_error_Some; congruence).
    rewrite (nth_error_nth' ps (zero_param E) Hk). congruence.
Qed.

Lemma sample_ok k id ls f c : fst (calculate_sample k id ls 0) = SOk f c <->
  calculate E k (ls_config ls) (seed_of E id) = Returned f c /\ acceptable E f c = true.
Proof.
  unfold calculate_sample. destruct (calculate E k (ls_config ls) (seed_of E id)) as [f' c'|m]; cbn.
  - destruct f' as [f'|f'], c' as [c'|c'];
      try (cbn [fst]; split; [intros [= <- <-]; auto|intros [[= <- <-] _]; auto]).
    assert (Hb : (Nat.eqb (length f') (length c') && Nat.eqb (length c') (expected_len E))%bool
                 = acceptable E (NdArray f') (NdArray c')).
    { cbn. destruct (Nat.eqb_spec (length c') (expected_len E)), (Nat.eqb_spec (length f') (length c')),
        (Nat.eqb_spec (length f') (expected_len E)); cbn; auto; lia. }
    rewrite Hb. destruct (acceptable E (NdArray f') (NdArray c')) eqn:Ea; cbn [fst].
    + split; [intros [= <- <-]; auto|intros [[= <- <-] _]; auto].
    + split; [discriminate|]. intros [[= <- <-] K]. congruence.
  - split; [discriminate|intros [? _]; discriminate].
Qed.

Lemma good_record l ls id : nth_error (create_level_sims E ps) l = Some ls ->
  map fst (sample_record E ps (calculate E 0) l id) = if good E ps l id then [id] else [].
Proof.
  intros Hls. unfold good, sample_record. rewrite Hls, (sims_config _ _ Hls).
  destruct (fst (calculate_sample 0 id ls 0)) as [f c|m] eqn:Eo.
  - apply sample_ok in Eo as [-> ->]. reflexivity.
  - destruct (calculate E 0 (ls_config ls) (seed_of E id)) as [f c|m'] eqn:Ec; auto.
    destruct (acceptable E f c) eqn:Ea; auto.
    assert (K : fst (calculate_sample 0 id ls 0) = SOk f c) by (apply sample_ok; auto). congruence.
Qed.

Lemma rec_ok_record l r : deterministic E -> rec_ok E ps l r -> sample_record E ps (calculate E 0) l (fst r) = [r].
Proof.
  intros Hd (ls & k & Hls & Hc). apply sample_ok in Hc as [Hc Ha].
  unfold sample_record. rewrite (sims_config _ _ Hls), (Hd 0 k), Hc, Ha. destruct r as [id [f c]]. reflexivity.
Qed.

Lemma records_expected fuel ops s l g n : deterministic E -> reached E ps fuel ops s ->
  (forall o, In o ops -> o <> Restart) -> level s l g -> nth_error (s_nsched s) l = Some n ->
  waiting s l = [] ->
  records g = expected_records E ps (calculate E 0) l n /\ n_records g = length (g_cids g).
Proof.
  intros Hd Hr Hno Hg Hn Hw. destruct (reached_BInv _ _ _ Hr) as (gs & lost & HI & Hl). rewrite (Hl Hno) in HI.
  destruct (BInv_lev _ _ _ _ _ HI Hg) as (n' & Hn' & HL & Hs & HlL). rewrite Hn in Hn'. injection Hn' as <-.
  unfold waiting in Hw. apply app_eq_nil in Hw as [Hq _].
  pose proof (li_det _ _ _ _ _ _ _ _ _ _ HL Hd eq_refl) as Hf. rewrite Hq, !app_nil_r in Hf.
  pose proof (li_vals _ _ _ _ _ _ _ _ _ _ HL) as Hv.
  assert (Hrec : n_records g = length (g_cids g) /\ Forall (rec_ok E ps l) (records g)
                 /\ map fst (records g) = g_cids g).
  { unfold vals_ok in Hv. unfold n_records, records. destruct (g_cvals g) as [vs|].
    - destruct Hv as [H1 H2]. ands; auto. clear - H1. revert vs H1. induction (g_cids g) as [|x c IH];
      intros [|v vs] H; cbn in *; try lia; auto. f_equal. apply IH. lia.
    - rewrite Hv. cbn. auto. }
  destruct Hrec as (H1 & H2 & H3). split; auto.
  destruct (sims_nth E ps l HlL) as (ls & Hls & _).
  assert (Hflat : records g = flat_map (sample_record E ps (calculate E 0) l) (map fst (records g))).
  { clear - H2 Hd. induction (records g) as [|r rs IH]; cbn; auto. inversion H2; subst.
    rewrite (rec_ok_record l r Hd) by auto. cbn. f_equal. auto. }
  rewrite Hflat, H3, Hf, Hs. unfold expected_records.
  change (fun i => sample_record E ps (calculate E 0) l (tag l i))
    with (fun i => sample_record E ps (calculate E 0) l (tagn l i)).
  clear - Hls. induction (seq 0 n) as [|i is IH]; cbn [map filter flat_map]; auto.
  pose proof (good_record l ls (tagn l i) Hls) as Hgr.
  destruct (good E ps l (tagn l i)).
  - cbn [flat_map]. now rewrite IH.
  - rewrite IH. apply map_eq_nil in Hgr. now rewrite Hgr.
Qed.

(** Without determinism each stored record still is some answer of its level's simulation
    at the seed of its identifier. *)
Lemma record_is_answer fuel ops s l g id f c : reached E ps fuel ops s -> level s l g ->
  In (id, (f, c)) (records g) ->
  exists cfg k, level_config E ps l = Some cfg /\ calculate E k cfg (seed_of E id) = Returned f c
             /\ acceptable E f c = true.
Proof.
  intros Hr Hg Hin. destruct (reached_BInv _ _ _ Hr) as (gs & lost & HI & _).
  destruct (BInv_lev _ _ _ _ _ HI Hg) as (n & Hn & HL & _).
  pose proof (li_vals _ _ _ _ _ _ _ _ _ _ HL) as Hv. unfold vals_ok in Hv. unfold records in Hin.
  destruct (g_cvals g) as [vs|]; [|rewrite combine_nil in Hin; destruct Hin].
  destruct Hv as [_ Hf]. rewrite Forall_forall in Hf. destruct (Hf _ Hin) as (ls & k & Hls & Hc).
  cbn in Hc. apply sample_ok in Hc as [Hc Ha]. exists (ls_config ls), k. ands; auto. now apply sims_config.
Qed.

(** C14 *)
Lemma renew_step fuel ops s : reached E ps fuel ops s ->
  exists s', step E ps fuel s Renew = (s', ONone)
    /\ s_handed s' = s_handed s
         ++ flat_map (fun l => match nth_error (f_groups (s_file s)) l with
                               | Some (GFull g) => map fst (g_failed g) | _ => [] end) (seq 0 L)
    /\ s_nsched s' = s_nsched s
    /\ (forall l g, level s l g -> level s' l (mkLG (g_sched g) (g_cids g) (g_cvals g) [] (g_nops g)))
    /\ (forall l g, level s l g -> Permutation (waiting s' l) (waiting s l ++ map fst (g_failed g))).
Proof.
  intros Hr. destruct (reached_BInv _ _ _ Hr) as (gs & lost & HI & Hl).
  destruct (renew_failed_Inv E ps s gs lost HI) as (s' & E1 & HI' & D1 & D2 & D3 & D4).
  cbn [step]. rewrite E1. exists s'. split; [reflexivity|]. split; [|split; [auto|split]].
  - rewrite D4. f_equal. destruct (iv_full _ _ _ _ _ _ _ HI) as (_ & Hf & Hgl). rewrite Hf. cbn [f_groups].
    rewrite <- Hgl. clear. rewrite <- flat_map_concat_map.
    assert (H : forall pre, flat_map (fun g => map fst (g_failed g)) gs
      = flat_map (fun l => match nth_error (map GFull (pre ++ gs)) l with
                           | Some (GFull g) => map fst (g_failed g) | _ => [] end) (seq (length pre) (length gs))).
    { induction gs as [|g gs IH]; intros pre; cbn [flat_map length seq]; auto.
      rewrite nth_error_map, nth_error_app2, Nat.sub_diag by lia. cbn [nth_error option_map]. f_equal.
      specialize (IH (pre ++ [g])). rewrite <- app_assoc, app_length in IH. cbn [app length] in IH.
      rewrite Nat.add_1_r in IH. exact IH. }
    exact (H []).
  - intros l g Hg. apply (BInv_level _ _ _ _ _ HI) in Hg. apply (BInv_level _ _ _ _ _ HI').
    rewrite nth_error_map, Hg. reflexivity.
  - intros l g Hg.
    assert (Hg' : level s' l (clear_failed_group g)).
    { apply (BInv_level _ _ _ _ _ HI) in Hg. apply (BInv_level _ _ _ _ _ HI').
      rewrite nth_error_map, Hg. reflexivity. }
    destruct (BInv_lev _ _ _ _ _ HI Hg) as (n & _ & HL & _).
    destruct (BInv_lev _ _ _ _ _ HI' Hg') as (n' & _ & HL' & _).
    pose proof (li_perm _ _ _ _ _ _ _ _ _ _ HL) as HP.
    pose proof (li_perm _ _ _ _ _ _ _ _ _ _ HL') as HP'.
    cbn [clear_failed_group g_sched g_cids g_failed map] in HP'.
    rewrite app_nil_r in HP, HP'. cbn [app] in HP'. rewrite HP in HP'. apply Permutation_app_inv_l in HP'.
    rewrite !app_assoc in HP'. apply Permutation_app_inv_r in HP'.
    unfold waiting. rewrite <- HP', <- app_assoc. apply Permutation_app_comm.
Qed.

Lemma reached_step fuel ops s o : reached E ps fuel ops s ->
  reached E ps fuel (ops ++ [o]) (fst (step E ps fuel s o)).
Proof.
  intros (s0 & H0 & ->). exists s0. split; auto. unfold run. rewrite fold_left_app. reflexivity.
Qed.

Lemma records_ids g : n_records g = length (g_cids g) -> map fst (records (E := E) g) = g_cids g.
Proof.
  unfold n_records, records. destruct (g_cvals g) as [vs|].
  - revert vs. induction (g_cids g) as [|x c IH]; intros [|v vs] H; cbn in *; try lia; auto.
    f_equal. apply IH. lia.
  - destruct (g_cids g); [auto|discriminate].
Qed.

Lemma renew_same_failures fuel ops s clk : deterministic E -> reached E ps (S fuel) ops s ->
  (forall o, In o ops -> o <> Restart) -> (forall l, waiting s l = []) ->
  exists s1 s2, step E ps (S fuel) s Renew = (s1, ONone)
    /\ step E ps (S fuel) s1 (Ask clk None) = (s2, OInt 0)
    /\ forall l g, level s l g -> exists g2, level s2 l g2 /\ g_sched g2 = g_sched g
         /\ records g2 = records g
         /\ Permutation (map fst (g_failed g2)) (map fst (g_failed g)).
Proof.
  intros Hd Hr Hno Hw. destruct (renew_step _ _ _ Hr) as (s1 & E1 & _ & Hn1 & Hl1 & _).
  assert (Hr1 : reached E ps (S fuel) (ops ++ [Renew]) s1).
  { pose proof (reached_step _ _ _ Renew Hr) as H. now rewrite E1 in H. }
  assert (Hno1 : forall o, In o (ops ++ [Renew]) -> o <> Restart).
  { intros o Ho. apply in_app_iff in Ho as [Ho|[<-|[]]]; [auto|discriminate]. }
  destruct (ask_all _ _ _ clk Hr1) as (s2 & E2 & Hw2 & Hl2 & Hc). specialize (Hc Hno1) as [Hc _].
  exists s1, s2. split; [exact E1|]. split; [exact E2|]. intros l g Hg.
  destruct (Hl2 _ _ (Hl1 _ _ Hg)) as (g2 & Hg2 & Hs2). cbn in Hs2.
  assert (Hr2 : reached E ps (S fuel) ((ops ++ [Renew]) ++ [Ask clk None]) s2).
  { pose proof (reached_step _ _ _ (Ask clk None) Hr1) as H. now rewrite E2 in H. }
  assert (Hno2 : forall o, In o ((ops ++ [Renew]) ++ [Ask clk None]) -> o <> Restart).
  { intros o Ho. apply in_app_iff in Ho as [Ho|[<-|[]]]; [auto|discriminate]. }
  destruct (reached_BInv _ _ _ Hr) as (gs & lost & HI & _).
  destruct (reached_BInv _ _ _ Hr2) as (gs2 & lost2 & HI2 & _).
  destruct (BInv_lev _ _ _ _ _ HI Hg) as (n & Hn & _ & Hs & _).
  destruct (BInv_lev _ _ _ _ _ HI2 Hg2) as (n2 & Hn2 & _ & Hs2' & _).
  assert (n2 = n).
  { apply (f_equal (@length _)) in Hs2. rewrite Hs, Hs2', !map_length, !seq_length in Hs2. exact Hs2. }
  subst n2.
  destruct (records_expected _ _ _ _ _ _ Hd Hr Hno Hg Hn (Hw l)) as [R1 R2].
  destruct (records_expected _ _ _ _ _ _ Hd Hr2 Hno2 Hg2 Hn2 (Hw2 l)) as [R3 R4].
  exists g2. split; [auto|]. split; [auto|]. split; [congruence|].
  destruct (conservation _ _ _ _ _ Hr Hno Hg) as [P1 _]. rewrite (Hw l), app_nil_r in P1.
  specialize (Hc _ _ Hg2). rewrite Hs2, P1 in Hc.
  assert (Ec : g_cids g2 = g_cids g) by (rewrite <- (records_ids g2), <- (records_ids g) by auto; congruence).
  rewrite Ec in Hc. apply Permutation_app_inv_l in Hc. now symmetry.
Qed.

(** C15 through the sampler *)
Lemma restart_step fuel ops s : reached E ps fuel ops s ->
  exists s', step E ps fuel s Restart = (s', ONone)
    /\ s_file s' = s_file s /\ s_nsched s' = s_nsched s
    /\ load_scheduled (s_obj s') (s_file s') = load_scheduled (s_obj s) (s_file s)
    /\ n_finished (s_obj s') (s_file s') = n_finished (s_obj s) (s_file s)
    /\ unfinished_ids (s_obj s') (s_file s') = unfinished_ids (s_obj s) (s_file s)
    /\ failed_samples (s_obj s') (s_file s') = failed_samples (s_obj s) (s_file s)
    /\ get_n_ops (s_obj s') (s_file s') = get_n_ops (s_obj s) (s_file s).
Proof.
  intros Hr. destruct (reached_BInv _ _ _ Hr) as (gs & lost & HI & _).
  destruct (restart_Inv E ps s gs lost HI) as (s' & E1 & HI' & Hf & Hn & _).
  cbn [step]. rewrite E1. exists s'. split; [reflexivity|]. split; [auto|]. split; [auto|].
  destruct (iv_full _ _ _ _ _ _ _ HI) as (Ho & _). destruct (iv_full _ _ _ _ _ _ _ HI') as (Ho' & _).
  rewrite Hf. unfold load_scheduled, n_finished, unfinished_ids, failed_samples, get_n_ops, groups_of.
  rewrite Ho, Ho'. auto.
Qed.

End Facts.
