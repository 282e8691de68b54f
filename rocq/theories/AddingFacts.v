From Verif Require Import Base BaseFacts TagModel TagProofs PoolModel PoolProofs HdfModel HdfProofs
  SamplerModel SamplerProofs SamplerSpec SamplerFacts AddingProofs.
From Coq Require Import Lqa Qminmax.

Section Facts.
Context (E : env) (ps : list (param E)).
Notation L := (length ps).
Notation S_ := (sampler E).
Notation BInv := (BInv E ps).

Lemma nsched_level s gs lost l n : BInv s gs lost -> nth_error (s_nsched s) l = Some n ->
  exists g, level s l g /\ length (g_sched g) = n.
Proof.
  intros HI Hn. assert (Hl : l < L).
  { rewrite <- (iv_len _ _ _ _ _ _ _ HI). apply nth_error_Some. congruence. }
  destruct (BInv_has_level _ _ _ _ _ _ HI Hl) as [g Hg]. exists g. split; auto.
  eapply sched_length; eauto.
Qed.

Lemma level_nsched s gs lost l g : BInv s gs lost -> level s l g ->
  nth_error (s_nsched s) l = Some (length (g_sched g)).
Proof.
  intros HI Hg. destruct (BInv_lev _ _ _ _ _ _ _ HI Hg) as (n & Hn & _ & Hs & _).
  rewrite Hs, map_length, seq_length. exact Hn.
Qed.

Lemma missing_lost s gs lost l g : BInv s gs lost -> level s l g -> missing s l g = length (lost l).
Proof.
  intros HI Hg. pose proof (level_nsched _ _ _ _ _ HI Hg) as Hn.
  pose proof (finished_count _ _ _ _ _ _ _ _ HI Hg Hn) as Hc. unfold missing.
  unfold finished_ids in Hc. rewrite app_length, map_length in Hc. lia.
Qed.

(** Everything about one call of process_adding_samples, on file contents. *)
Lemma adding_step f0 ops s clk t fuel c est : reached E ps f0 ops s -> positive t ->
  length (s_targets s) = L -> length est = L ->
  exists s' r, step E ps (S fuel) s (Adding clk t c est) = (s', r)
    /\ s_targets s' = fst (raise_targets (s_tint s) (s_targets s) (planned_vec c est (s_nsched s)))
    /\ (forall l g e x, level s l g -> nth_error est l = Some e -> nth_error (s_targets s) l = Some x ->
          exists g', level s' l g' /\ length (g_sched g') =
            Nat.max (length (g_sched g)) (Nat.max (Z.to_nat (Qfloor x)) (Z.to_nat (plan_Z c e (length (g_sched g))))))
    /\ ((r = ORunning /\ exists l e g g', nth_error est l = Some e /\ level s l g /\ level s' l g'
           /\ (planned c e (length (g_sched g)) < e)%Q
           /\ (nat_Q (length (g_sched g') - missing s l g) < (1 # 2) * planned c e (length (g_sched g)))%Q)
        \/ (exists b, r = OBool b
             /\ (b = true <-> forall l e g, nth_error est l = Some e -> level s l g ->
                                (e <= planned c e (length (g_sched g)))%Q)
             /\ forall l e g g', nth_error est l = Some e -> level s l g -> level s' l g' ->
                  (planned c e (length (g_sched g)) < e)%Q ->
                  ((1 # 2) * planned c e (length (g_sched g)) <= nat_Q (length (g_sched g') - missing s l g))%Q)).
Proof.
  intros Hr Ht Htl Hel. destruct (reached_BInv _ _ _ _ _ Hr) as (gs & lost & HI & _).
  destruct (adding_exact E ps clk t fuel fuel c est s gs lost HI Ht Htl Hel) as (s' & r & E1 & HT & Hn & Hc).
  destruct (step_Inv E ps (S fuel) s (Adding clk t c est) gs lost HI) as (gs' & HI' & _).
  cbn [step] in HI' |- *. rewrite E1 in HI' |- *. cbn [fst] in HI'.
  exists s', r. split; [reflexivity|]. split; [exact HT|]. split.
  - intros l g e x Hg He Hx. pose proof (level_nsched _ _ _ _ _ HI Hg) as Hgn.
    specialize (Hn l e _ x He Hgn Hx). destruct (nsched_level _ _ _ _ _ HI' Hn) as (g' & Hg' & Hl). eauto.
  - destruct Hc as [(-> & l & e & n & n' & H1 & H2 & H3 & H4 & H5)|(b & -> & H1 & H2)]; [left|right].
    + split; auto. destruct (nsched_level _ _ _ _ _ HI H2) as (g & Hg & Hgl).
      destruct (nsched_level _ _ _ _ _ HI' H3) as (g' & Hg' & Hgl'). exists l, e, g, g'.
      rewrite Hgl, Hgl', (missing_lost _ _ _ _ _ HI Hg). auto.
    + exists b. split; auto. split.
      * rewrite H1. split; intros H l e x Hl Hx.
        -- apply (H l); auto. eapply level_nsched; eauto.
        -- destruct (nsched_level _ _ _ _ _ HI Hx) as (g & Hg & Hgl). rewrite <- Hgl. eapply H; eauto.
      * intros l e g g' He Hg Hg' Hlt. rewrite (missing_lost _ _ _ _ _ HI Hg).
        apply (H2 l e _ _ He (level_nsched _ _ _ _ _ HI Hg) (level_nsched _ _ _ _ _ HI' Hg') Hlt).
Qed.

Lemma fst_raise_length isint v t : (isint = true -> Forall integral t) ->
  length (fst (raise_targets isint t v)) = length t
  /\ forall l q, nth_error t l = Some q -> exists q', nth_error (fst (raise_targets isint t v)) l = Some q' /\ (q <= q')%Q.
Proof.
  intros H. destruct (raise_targets isint t v) as [t' r] eqn:Er.
  destruct (raise_targets_spec isint v t t' r Er H) as (_ & H1 & _ & H2). split; auto.
  intros l q Hq. destruct (H2 l q Hq) as (q' & A & B & _). eauto.
Qed.

(** Level growth of one call *)
Lemma adding_grows f0 ops s clk t fuel c est : reached E ps f0 ops s -> positive t ->
  length (s_targets s) = L -> length est = L -> (0 < c <= 1)%Q ->
  let s' := fst (step E ps (S fuel) s (Adding clk t c est)) in
  length (s_targets s') = L
  /\ (forall l q, nth_error (s_targets s) l = Some q -> exists q', nth_error (s_targets s') l = Some q' /\ (q <= q')%Q)
  /\ forall l g e x, level s l g -> nth_error est l = Some e -> nth_error (s_targets s) l = Some x ->
     exists g', level s' l g'
       /\ length (g_sched g) <= length (g_sched g')
       /\ length (g_sched g') <= Nat.max (length (g_sched g)) (Nat.max (Z.to_nat (Qfloor x)) (Z.to_nat (Qceiling e)))
       /\ ((nat_Q (length (g_sched g)) < e)%Q -> length (g_sched g) < length (g_sched g')).
Proof.
  intros Hr Ht Htl Hel Hc. destruct (adding_step f0 ops s clk t fuel c est Hr Ht Htl Hel) as (s' & r & E1 & HT & Hn & _).
  cbv zeta. rewrite E1. cbn [fst].
  pose proof (reached_TInv _ _ _ _ _ Hr) as HTI.
  destruct (fst_raise_length (s_tint s) (planned_vec c est (s_nsched s)) (s_targets s) HTI) as [K1 K2].
  rewrite HT. ands; auto; [congruence|].
  intros l g e x Hg He Hx. destruct (Hn l g e x Hg He Hx) as (g' & Hg' & Hl). exists g'. rewrite Hl.
  set (n := length (g_sched g)). ands; auto; [lia| |].
  - pose proof (plan_le c e n (proj2 Hc)). lia.
  - intros Hlt. pose proof (plan_gt c e n (proj1 Hc) Hlt). lia.
Qed.

Lemma adding_returns f0 ops s clk t fuel c est : reached E ps f0 ops s -> positive t ->
  length (s_targets s) = L -> length est = L -> (0 < c)%Q ->
  (forall o, In o ops -> o <> Restart) ->
  exists s' b, step E ps (S fuel) s (Adding clk t c est) = (s', OBool b)
    /\ (b = true <-> forall l e g, nth_error est l = Some e -> level s l g ->
                       (e <= planned c e (length (g_sched g)))%Q).
Proof.
  intros Hr Ht Htl Hel Hc Hno. destruct (adding_step f0 ops s clk t fuel c est Hr Ht Htl Hel) as (s' & r & E1 & _ & Hn & Hcase).
  exists s'. destruct Hcase as [(-> & l & e & g & g' & He & Hg & Hg' & H1 & H2)|(b & -> & Hb & _)]; [|eauto].
  exfalso. destruct (reached_BInv _ _ _ _ _ Hr) as (gs & lost & HI & Hl).
  rewrite (missing_lost _ _ _ _ _ HI Hg), (Hl Hno) in H2. cbn [none length] in H2. rewrite Nat.sub_0_r in H2.
  assert (Hx : l < length (s_targets s)).
  { rewrite Htl, <- Hel. apply nth_error_Some. congruence. }
  apply nth_error_Some in Hx. destruct (nth_error (s_targets s) l) as [x|] eqn:Ex; [|congruence].
  destruct (Hn l g e x Hg He Ex) as (g2 & Hg2 & Hlen).
  unfold level in Hg', Hg2. rewrite Hg' in Hg2. injection Hg2 as <-. rewrite Hlen in H2.
  set (n := length (g_sched g)) in *.
  pose proof (plan_ge c e n) as Hp. rewrite planned_Z in H2.
  assert (Hp' : (0 <= plan_Z c e n)%Z) by (assert (0 <= c)%Q by lra; specialize (Hp H); lia).
  assert (K : (inject_Z (plan_Z c e n) <= nat_Q (Nat.max n (Nat.max (Z.to_nat (Qfloor x)) (Z.to_nat (plan_Z c e n)))))%Q).
  { unfold nat_Q. rewrite <- Zle_Qle. lia. }
  assert (K2 : (0 <= inject_Z (plan_Z c e n))%Q) by (change 0%Q with (inject_Z 0); rewrite <- Zle_Qle; auto).
  set (a := inject_Z (plan_Z c e n)) in *. set (b := nat_Q _) in *. lra.
Qed.

Definition step_reached f ops s o : reached E ps f ops s ->
  reached E ps f (ops ++ [o]) (fst (step E ps f s o)).
Proof.
  intros (s0 & H0 & ->). exists s0. split; auto. unfold run. rewrite fold_left_app. reflexivity.
Qed.

Lemma adding_converges clk t c est fuel : positive t -> length est = L -> (0 < c <= 1)%Q ->
  forall k ops s, reached E ps (S fuel) ops s -> length (s_targets s) = L ->
  let s' := run E ps (S fuel) s (repeat (Adding clk t c est) k) in
  length (s_targets s') = L
  /\ (forall l g e, level s l g -> nth_error est l = Some e -> exists g', level s' l g'
      /\ length (g_sched g) <= length (g_sched g')
      /\ ((Qceiling e <= Z.of_nat (length (g_sched g) + k))%Z -> (e <= nat_Q (length (g_sched g')))%Q)).
Proof.
  intros Ht Hel Hc. induction k as [|k IH]; intros ops s Hr Htl.
  - cbn. ands; auto. intros l g e Hg He. exists g. ands; auto. intros K. rewrite Nat.add_0_r in K.
    pose proof (Qle_ceiling e). unfold nat_Q. rewrite Zle_Qle in K. lra.
  - destruct (adding_grows _ _ _ clk t fuel c est Hr Ht Htl Hel Hc) as (T1 & _ & G1).
    pose proof (step_reached _ _ _ (Adding clk t c est) Hr) as Hr1.
    cbn [repeat]. change (run E ps (S fuel) s (Adding clk t c est :: repeat (Adding clk t c est) k))
      with (run E ps (S fuel) (fst (step E ps (S fuel) s (Adding clk t c est))) (repeat (Adding clk t c est) k)).
    set (s1 := fst (step E ps (S fuel) s (Adding clk t c est))) in *.
    destruct (IH _ _ Hr1 T1) as (T2 & G2). split; auto.
    intros l g e Hg He.
    assert (Hx : l < length (s_targets s)).
    { rewrite Htl, <- Hel. apply nth_error_Some. congruence. }
    apply nth_error_Some in Hx. destruct (nth_error (s_targets s) l) as [x|] eqn:Ex; [|congruence].
    destruct (G1 l g e x Hg He Ex) as (g1 & Hg1 & A1 & _ & A3).
    destruct (G2 l g1 e Hg1 He) as (g2 & Hg2 & B1 & B2). exists g2. ands; auto; [lia|].
    intros K. destruct (Qlt_le_dec (nat_Q (length (g_sched g))) e) as [Hlt|Hge].
    + apply B2. specialize (A3 Hlt). lia.
    + apply Qle_trans with (nat_Q (length (g_sched g))); auto. apply nat_Q_le. lia.
Qed.

(** After enough calls the next one returns True. *)
Lemma adding_done clk t c est fuel k ops s : positive t -> length est = L -> (0 < c <= 1)%Q ->
  reached E ps (S fuel) ops s -> length (s_targets s) = L ->
  (forall e, In e est -> (Qceiling e <= Z.of_nat k)%Z) ->
  let s' := run E ps (S fuel) s (repeat (Adding clk t c est) k) in
  snd (step E ps (S fuel) s' (Adding clk t c est)) = OBool true
  /\ forall l g e, level s' l g -> nth_error est l = Some e -> (e <= nat_Q (length (g_sched g)))%Q.
Proof.
  intros Ht Hel Hc Hr Htl Hk s'.
  destruct (adding_converges clk t c est fuel Ht Hel Hc k ops s Hr Htl) as [T G]. fold s' in T, G.
  assert (Hr' : reached E ps (S fuel) (ops ++ repeat (Adding clk t c est) k) s').
  { destruct Hr as (s0 & H0 & ->). exists s0. split; auto. unfold s', run. now rewrite fold_left_app. }
  assert (Hdone : forall l g e, level s' l g -> nth_error est l = Some e -> (e <= nat_Q (length (g_sched g)))%Q).
  { intros l g e Hg He. destruct (reached_BInv _ _ _ _ _ Hr) as (gs & lost & HI & _).
    assert (Hl : l < L) by (rewrite <- Hel; apply nth_error_Some; congruence).
    destruct (BInv_has_level _ _ _ _ _ _ HI Hl) as [g0 Hg0].
    destruct (G l g0 e Hg0 He) as (g' & Hg' & _ & K). unfold level in Hg, Hg'. rewrite Hg in Hg'. injection Hg' as <-.
    apply K. specialize (Hk e (nth_error_In _ _ He)). lia. }
  split; auto.
  assert (Hpl : forall l e g, nth_error est l = Some e -> level s' l g -> (e <= planned c e (length (g_sched g)))%Q).
  { intros l e g He Hg. rewrite planned_Z. specialize (Hdone l g e Hg He).
    pose proof (plan_ge c e (length (g_sched g))) as Hp. assert (0 <= c)%Q by lra. specialize (Hp H).
    unfold nat_Q in Hdone. apply Zle_Qle in Hp || rewrite Zle_Qle in Hp. lra. }
  destruct (adding_step _ _ _ clk t fuel c est Hr' Ht T Hel) as (s2 & r & E2 & _ & _ & Hcase). rewrite E2. cbn [snd].
  destruct Hcase as [(_ & l & e & g & g' & He & Hg & _ & H1 & _)|(b & -> & Hb & _)].
  - specialize (Hpl l e g He Hg). lra.
  - f_equal. apply Hb. exact Hpl.
Qed.

End Facts.
