From Verif Require Import Base BaseFacts TagModel TagProofs PoolModel PoolProofs HdfModel HdfProofs
  SamplerModel SamplerProofs SamplerSpec SamplerFacts.
From Coq Require Import Lqa Qminmax.

(** Arithmetic of the planning step *)
Lemma Qle_bool_false a b : Qle_bool a b = false -> (b < a)%Q.
Proof. intros H. apply Qnot_le_lt. intros K. apply Qle_bool_iff in K. congruence. Qed.

Lemma Qceiling_lower (q : Q) (z : Z) : (inject_Z z < q)%Q -> (z + 1 <= Qceiling q)%Z.
Proof.
  intros H. pose proof (Qle_ceiling q). assert (inject_Z z < inject_Z (Qceiling q))%Q by lra.
  rewrite <- Zlt_Qlt in H1. lia.
Qed.

Lemma Qceiling_upper (q : Q) (z : Z) : (q <= inject_Z z)%Q -> (Qceiling q <= z)%Z.
Proof. intros H. apply Qceiling_resp_le in H. now rewrite Qceiling_Z in H. Qed.

Lemma Qmult_le_1 (a c : Q) : (0 <= a)%Q -> (c <= 1)%Q -> (a * c <= a)%Q.
Proof. intros. nra. Qed.

Definition plan_Z (c est : Q) (n : nat) : Z :=
  Qceiling (if Qle_bool (nat_Q n) est
            then (if Qle_bool (est * c) (est - nat_Q n) then (nat_Q n + (est - nat_Q n) * c)%Q else est)
            else nat_Q n).

Lemma planned_Z c est n : planned c est n = inject_Z (plan_Z c est n).
Proof. reflexivity. Qed.

Lemma plan_ge c est n : (0 <= c)%Q -> (Z.of_nat n <= plan_Z c est n)%Z.
Proof.
  intros Hc. unfold plan_Z, nat_Q. set (z := Z.of_nat n).
  assert (H : (inject_Z z <= (if Qle_bool (inject_Z z) est then
    (if Qle_bool (est * c) (est - inject_Z z) then inject_Z z + (est - inject_Z z) * c else est) else inject_Z z))%Q).
  { destruct (Qle_bool (inject_Z z) est) eqn:E1; [|lra]. apply Qle_bool_iff in E1.
    destruct (Qle_bool (est * c) (est - inject_Z z)); [|auto].
    assert (0 <= (est - inject_Z z) * c)%Q by (apply Qmult_le_0_compat; lra). lra. }
  apply Qceiling_resp_le in H. now rewrite Qceiling_Z in H.
Qed.

Lemma plan_le c est n : (c <= 1)%Q -> (plan_Z c est n <= Z.max (Z.of_nat n) (Qceiling est))%Z.
Proof.
  intros Hc. unfold plan_Z, nat_Q. set (z := Z.of_nat n).
  destruct (Qle_bool (inject_Z z) est) eqn:E1.
  - apply Qle_bool_iff in E1. apply Z.le_trans with (Qceiling est); [|lia].
    apply Qceiling_resp_le. destruct (Qle_bool (est * c) (est - inject_Z z)); [|lra].
    pose proof (Qmult_le_1 (est - inject_Z z) c). lra.
  - rewrite Qceiling_Z. lia.
Qed.

Lemma plan_gt c est n : (0 < c)%Q -> (nat_Q n < est)%Q -> (Z.of_nat n < plan_Z c est n)%Z.
Proof.
  intros Hc Hn. unfold plan_Z, nat_Q in *. set (z := Z.of_nat n) in *.
  assert (H : (inject_Z z < (if Qle_bool (inject_Z z) est then
    (if Qle_bool (est * c) (est - inject_Z z) then inject_Z z + (est - inject_Z z) * c else est) else inject_Z z))%Q).
  { destruct (Qle_bool (inject_Z z) est) eqn:E1; [|apply Qle_bool_false in E1; lra].
    destruct (Qle_bool (est * c) (est - inject_Z z)); [|auto].
    assert (0 < (est - inject_Z z) * c)%Q by (apply Qmult_lt_0_compat; lra). lra. }
  apply Qceiling_lower in H. lia.
Qed.

Lemma planned_vec_length c est : forall v, length est = length v -> length (planned_vec c est v) = length v.
Proof. induction est as [|e est IH]; intros [|n v] H; cbn in *; try lia; auto. Qed.

Lemma planned_vec_nth c est : forall v l e n, nth_error est l = Some e -> nth_error v l = Some n ->
  nth_error (planned_vec c est v) l = Some (planned c e n).
Proof.
  induction est as [|x est IH]; intros [|y v] [|l] e n H1 H2; cbn in *; try discriminate.
  - congruence.
  - eauto.
Qed.

Lemma greater_items_in est : forall plan i k, In k (greater_items i est plan) <->
  exists l e p, k = i + l /\ nth_error est l = Some e /\ nth_error plan l = Some p /\ (p < e)%Q.
Proof.
  induction est as [|x est IH]; intros [|y plan] i k.
  1-3: cbn [greater_items]; split; [intros []|]; intros ([|l] & e & p & _ & H1 & H2 & _); cbn in *; discriminate.
  cbn [greater_items]. destruct (Qle_bool x y) eqn:E1.
  - rewrite (IH plan (S i) k). split.
    + intros (l & e & p & -> & H). exists (S l), e, p. split; [lia|exact H].
    + intros ([|l] & e & p & -> & H1 & H2 & H3).
      * cbn in H1, H2. injection H1 as <-. injection H2 as <-. apply Qle_bool_iff in E1. lra.
      * exists l, e, p. split; [lia|]. auto.
  - cbn [In]. rewrite (IH plan (S i) k). apply Qle_bool_false in E1. split.
    + intros [<-|(l & e & p & -> & H)].
      * exists 0, x, y. split; [lia|]. cbn. auto.
      * exists (S l), e, p. split; [lia|exact H].
    + intros ([|l] & e & p & -> & H1 & H2 & H3).
      * left. lia.
      * right. exists l, e, p. split; [lia|]. auto.
Qed.

(** any(n_finished < 0.5 * planned) over the items *)
Lemma any_below_spec items fin plan : (forall i, In i items -> i < length fin /\ i < length plan) ->
  exists b, any_below items fin plan = Ok b
    /\ (b = false <-> forall i a p, In i items -> nth_error fin i = Some a -> nth_error plan i = Some p ->
                      ((1 # 2) * p <= nat_Q a)%Q).
Proof.
  induction items as [|i items IH]; intros H; cbn [any_below].
  - exists false. split; auto. split; auto. intros _ i a p [].
  - destruct IH as (b & Eb & Hb); [intros; apply H; cbn; auto|].
    destruct (H i (or_introl eq_refl)) as [H1 H2].
    apply nth_error_Some in H1, H2.
    destruct (nth_error fin i) as [a|] eqn:Ea; [|congruence].
    destruct (nth_error plan i) as [p|] eqn:Ep; [|congruence].
    rewrite Eb. cbn [bind]. eexists. split; [reflexivity|]. rewrite Bool.orb_false_iff, Bool.negb_false_iff, Hb.
    split.
    + intros [K1 K2] j a' p' [<-|Hj] A1 A2; [|eauto]. rewrite Ea in A1. rewrite Ep in A2.
      injection A1 as <-. injection A2 as <-. now apply Qle_bool_iff.
    + intros K. split; [apply Qle_bool_iff; eapply K; cbn; eauto|].
      intros j a' p' Hj. apply K. cbn; auto.
Qed.

Lemma nat_Q_le a b : a <= b -> (nat_Q a <= nat_Q b)%Q.
Proof. intros H. unfold nat_Q. rewrite <- Zle_Qle. lia. Qed.

Section Adding.
Context (E : env) (ps : list (param E)).
Notation pairv := (arr (value E) * arr (value E))%type.
Notation L := (length ps).
Notation S_ := (sampler E).
Notation G := (lgroup pairv).
Notation BInv := (BInv E ps).

Definition positive (t : option Q) : Prop := forall q, t = Some q -> (0 < q)%Q.

(** ask with a positive or no timeout is exactly one poll *)
Lemma ask_polls clk t f s gs lost : BInv s gs lost -> positive t ->
  exists s' gs', ask_pool E clk t (S f) s = (s', Some (Ok 0%Z)) /\ BInv s' gs' lost
    /\ empty_queues E (s_pool s')
    /\ (forall l g, nth_error gs l = Some g -> exists g', nth_error gs' l = Some g'
         /\ polled E (dlist (queues (s_pool s)) l) (dlist (failed_queues (s_pool s)) l) g g')
    /\ s_nsched s' = s_nsched s /\ s_targets s' = s_targets s /\ s_tint s' = s_tint s /\ s_handed s' = s_handed s.
Proof.
  intros HI Ht. destruct (ask_Inv E ps clk t (S f) s gs lost HI) as (s' & gs' & r & Ea & HI' & Hask & Hcase & D).
  destruct r as [[n|e]|]; [|contradiction|destruct Hcase; lia].
  destruct Hcase as [(_ & _ & q & Hq & Hle)|(-> & He & Hp & _)].
  { exfalso. specialize (Ht q Hq). lra. }
  destruct (poll_store_Inv E ps s gs (failed_of E gs) lost HI) as (s2 & gs2 & Ep & HI2 & _ & Hpol & _).
  rewrite Hp in Ep. injection Ep as <-.
  exists s', gs2. split; [exact Ea|]. split.
  { eapply Inv_ext; [exact HI2| | |]; auto. apply failed_of_polled with (s := s); auto. apply (iv_full _ _ _ _ _ _ _ HI). }
  auto.
Qed.

(** Number of finished samples per level when nothing waits *)
Lemma finished_count s gs lost l g n : BInv s gs lost -> level s l g -> nth_error (s_nsched s) l = Some n ->
  length (finished_ids g) + length (waiting s l) + length (lost l) = n.
Proof.
  intros HI Hg Hn. destruct (BInv_lev _ _ _ _ _ _ _ HI Hg) as (n' & Hn' & HL & Hs & _).
  rewrite Hn in Hn'. injection Hn' as <-.
  pose proof (li_perm _ _ _ _ _ _ _ _ _ _ HL) as HP. rewrite app_nil_r in HP.
  apply Permutation_length in HP. rewrite Hs, map_length, seq_length, !app_length in HP.
  unfold finished_ids, waiting. rewrite !app_length. lia.
Qed.

Definition fin_vec (gs : list G) : list nat := map (fun g => length (finished_ids g)) gs.

(** The waiting loop once everything has been handed over *)
Lemma wait_half_still clk t af items plan : forall fuel k s gs lost b,
  BInv s gs lost -> positive t -> empty_queues E (s_pool s) ->
  any_below items (fin_vec gs) plan = Ok b ->
  exists s', wait_half E clk t (S af) fuel k items plan s = (s', if b then ORunning else ONone)
    /\ s_nsched s' = s_nsched s /\ s_targets s' = s_targets s.
Proof.
  induction fuel as [|fuel IH]; intros k s gs lost b HI Ht He Hb; cbn [wait_half];
    rewrite (n_finished_read _ _ _ _ _ HI); fold (fin_vec gs); rewrite Hb.
  - destruct b; eauto.
  - destruct b; [|eauto].
    destruct (ask_polls (clk k) t af s gs lost HI Ht) as (s1 & gs1 & Ea & HI1 & He1 & Hpol & D1 & T1 & _).
    rewrite Ea.
    assert (Hf : fin_vec gs1 = fin_vec gs).
    { unfold fin_vec. apply nth_error_ext. intros i. rewrite !nth_error_map.
      destruct (nth_error gs i) as [g|] eqn:Eg.
      - destruct (Hpol i g Eg) as (g' & Eg' & P1 & P2 & P3 & _). rewrite Eg'. cbn. f_equal.
        unfold finished_ids. destruct He as [K1 K2]. rewrite (qtotal_zero _ K1) in P2. rewrite (qtotal_zero _ K2) in P3.
        rewrite P2, P3. cbn. now rewrite !app_nil_r.
      - destruct (nth_error gs1 i) as [g1|] eqn:Eg1; auto. exfalso.
        apply nth_error_None in Eg. assert (i < length gs1) by (apply nth_error_Some; congruence).
        destruct (iv_full _ _ _ _ _ _ _ HI) as (_ & _ & Q1). destruct (iv_full _ _ _ _ _ _ _ HI1) as (_ & _ & Q2). lia. }
    destruct (IH (S k) s1 gs1 lost true HI1 Ht He1) as (s2 & E2 & D2 & T2); [now rewrite Hf|].
    exists s2. rewrite E2, D2, T2. auto.
Qed.

(** Items still too few after everything has been handed over *)
Lemma wait_half_exact clk t af items plan s gs lost fuel k :
  BInv s gs lost -> positive t -> length plan = L -> (forall i, In i items -> i < L) ->
  exists s' r, wait_half E clk t (S af) (S fuel) k items plan s = (s', r)
    /\ s_nsched s' = s_nsched s /\ s_targets s' = s_targets s
    /\ ((r = ONone /\ forall i p n, In i items -> nth_error plan i = Some p -> nth_error (s_nsched s) i = Some n ->
             ((1 # 2) * p <= nat_Q (n - length (lost i)))%Q)
        \/ (r = ORunning /\ exists i p n, In i items /\ nth_error plan i = Some p /\ nth_error (s_nsched s) i = Some n
             /\ (nat_Q (n - length (lost i)) < (1 # 2) * p)%Q)).
Proof.
  intros HI Ht Hpl Hit.
  assert (Hlen : forall gs' s', BInv s' gs' lost -> forall i, In i items -> i < length (fin_vec gs') /\ i < length plan).
  { intros gs' s' HI' i Hi. unfold fin_vec. rewrite map_length.
    destruct (iv_full _ _ _ _ _ _ _ HI') as (_ & _ & ->). rewrite Hpl. auto. }
  destruct (any_below_spec items (fin_vec gs) plan (Hlen _ _ HI)) as (b & Eb & Hb).
  cbn [wait_half]. rewrite (n_finished_read _ _ _ _ _ HI). fold (fin_vec gs). rewrite Eb.
  assert (Hcount : forall gs' s', BInv s' gs' lost -> forall i n, In i items -> nth_error (s_nsched s') i = Some n ->
     exists a, nth_error (fin_vec gs') i = Some a /\ a + length (waiting s' i) + length (lost i) = n).
  { intros gs' s' HI' i n Hi Hn. destruct (BInv_has_level _ _ _ _ _ i HI' (Hit i Hi)) as [g Hg].
    pose proof (finished_count _ _ _ _ _ _ HI' Hg Hn) as Hc. apply (BInv_level _ _ _ _ _ _ _ HI') in Hg.
    exists (length (finished_ids g)). split; auto. unfold fin_vec. now rewrite nth_error_map, Hg. }
  destruct b.
  - destruct (ask_polls (clk k) t af s gs lost HI Ht) as (s1 & gs1 & Ea & HI1 & He1 & Hpol & D1 & T1 & _).
    rewrite Ea.
    destruct (any_below_spec items (fin_vec gs1) plan (Hlen _ _ HI1)) as (b1 & Eb1 & Hb1).
    destruct (wait_half_still clk t af items plan fuel (S k) s1 gs1 lost b1 HI1 Ht He1 Eb1) as (s2 & E2 & D2 & T2).
    rewrite E2. eexists _, _. split; [reflexivity|]. split; [congruence|]. split; [congruence|].
    destruct b1.
    + right. split; auto.
      assert (Hex : exists i, In i items /\ forallb (fun i => match nth_error (fin_vec gs1) i, nth_error plan i with
            | Some a, Some p => Qle_bool ((1#2) * p) (nat_Q a) | _, _ => true end) [i] = false).
      { destruct (forallb (fun i => match nth_error (fin_vec gs1) i, nth_error plan i with
            | Some a, Some p => Qle_bool ((1#2) * p) (nat_Q a) | _, _ => true end) items) eqn:Ef.
        - exfalso. assert (true = false); [|discriminate]. apply Hb1. intros i a p Hi A1 A2.
          rewrite forallb_forall in Ef. specialize (Ef i Hi). rewrite A1, A2 in Ef. now apply Qle_bool_iff.
        - clear - Ef. induction items as [|i items IH]; [discriminate|]. cbn [forallb] in Ef.
          apply Bool.andb_false_iff in Ef as [Ef|Ef].
          + exists i. split; [now left|]. cbn [forallb]. now rewrite Ef.
          + destruct (IH Ef) as (j & Hj & K). exists j. split; [now right|auto]. }
      destruct Hex as (i & Hi & Hf). cbn [forallb] in Hf. rewrite Bool.andb_true_r in Hf.
      assert (Hil : i < length (s_nsched s1)) by (rewrite (iv_len _ _ _ _ _ _ _ HI1); auto).
      apply nth_error_Some in Hil. destruct (nth_error (s_nsched s1) i) as [n|] eqn:En; [|congruence].
      destruct (Hcount _ _ HI1 i n Hi En) as (a & Ha & Hc). rewrite Ha in Hf.
      destruct (nth_error plan i) as [p|] eqn:Ep; [|discriminate].
      rewrite (Inv_waiting_empty _ _ _ He1) in Hc. cbn in Hc.
      exists i, p, n. rewrite <- D1. ands; auto. apply Qle_bool_false in Hf.
      replace (n - length (lost i)) with a by lia. exact Hf.
    + left. split; auto. intros i p n Hi Hp Hn. rewrite <- D1 in Hn.
      destruct (Hcount _ _ HI1 i n Hi Hn) as (a & Ha & Hc).
      rewrite (Inv_waiting_empty _ _ _ He1) in Hc. cbn in Hc.
      replace (n - length (lost i)) with a by lia. destruct Hb1 as [Hb1 _]. exact (Hb1 eq_refl i a p Hi Ha Hp).
  - eexists _, _. split; [reflexivity|]. split; auto. split; auto. left. split; auto.
    intros i p n Hi Hp Hn. destruct (Hcount _ _ HI i n Hi Hn) as (a & Ha & Hc). destruct Hb as [Hb _].
    specialize (Hb eq_refl i a p Hi Ha Hp). apply Qle_trans with (nat_Q a); auto. apply nat_Q_le. lia.
Qed.

(** The whole call. *)
Lemma forallb_greater est plan :
  (forallb (fun i => match nth_error est i, nth_error plan i with
                    | Some a, Some b => Qeq_bool a b | _, _ => false end) (greater_items 0 est plan) = true)
  <-> greater_items 0 est plan = [].
Proof.
  split; [|intros ->; reflexivity]. intros H.
  destruct (greater_items 0 est plan) as [|i items] eqn:Eg; auto. exfalso.
  assert (Hi : In i (greater_items 0 est plan)) by (rewrite Eg; now left).
  apply greater_items_in in Hi as (l & e & p & -> & H1 & H2 & H3). cbn [plus] in *.
  cbn [forallb] in H. rewrite H1, H2 in H. apply Bool.andb_true_iff in H as [H _].
  apply Qeq_bool_iff in H. lra.
Qed.

Lemma raise_planned isint c est : forall t v t' r,
  length t = length v -> length est = length v ->
  raise_targets isint t (planned_vec c est v) = (t', r) ->
  r = Ok tt /\ length t' = length v
  /\ forall l e n x, nth_error est l = Some e -> nth_error v l = Some n -> nth_error t l = Some x ->
       exists x', nth_error t' l = Some x'
         /\ Z.to_nat (Qfloor x') = Nat.max (Z.to_nat (Qfloor x)) (Z.to_nat (plan_Z c e n)).
Proof.
  induction est as [|e0 est IH]; intros [|x0 t] [|n0 v] t' r H1 H2 H; cbn [length] in H1, H2; try discriminate.
  - cbn in H. injection H as <- <-. ands; auto. intros [|l]; discriminate.
  - cbn [planned_vec raise_targets] in H. cbv zeta in H.
    destruct (raise_targets isint t (planned_vec c est v)) as [t2 r2] eqn:Er.
    injection H as <- <-. destruct (IH t v t2 r2) as (A & B & C); try lia; auto.
    ands; auto; [cbn; lia|]. intros [|l] e n x K1 K2 K3; cbn [nth_error] in *; [|eauto].
    injection K1 as <-. injection K2 as <-. injection K3 as <-. eexists. split; [reflexivity|].
    rewrite planned_Z. set (z := plan_Z c e0 n0).
    destruct (Qle_bool (inject_Z z) x0) eqn:Eq.
    + assert (Hz : (z <= Qfloor x0)%Z).
      { apply Qle_bool_iff, Qfloor_resp_le in Eq. now rewrite Qfloor_Z in Eq. }
      destruct isint; [|lia]. rewrite Qfloor_Z. unfold Qtrunc.
      destruct (Qle_bool 0 x0) eqn:E0; [lia|]. apply Qle_bool_false in E0.
      assert (Qceiling x0 <= 0)%Z by (apply Qceiling_upper; change (inject_Z 0) with 0%Q; lra).
      assert (Qfloor x0 <= 0)%Z by (rewrite <- (Qfloor_Z 0); apply Qfloor_resp_le; change (inject_Z 0) with 0%Q; lra).
      lia.
    + apply Qle_bool_false in Eq.
      assert (Hz : (Qfloor x0 <= z)%Z).
      { rewrite <- (Qfloor_Z z). apply Qfloor_resp_le. lra. }
      assert (Hf : forall b : bool, Z.to_nat (Qfloor (if b then inject_Z (Qtrunc (inject_Z z)) else inject_Z z)) = Z.to_nat z).
      { intros b. destruct b; rewrite ?Qfloor_Z; auto. f_equal. unfold Qtrunc.
        destruct (Qle_bool 0 (inject_Z z)); [apply Qfloor_Z|apply Qceiling_Z]. }
      rewrite Hf. lia.
Qed.

Lemma adding_exact clk t af fuel c est s gs lost :
  BInv s gs lost -> positive t -> length (s_targets s) = L -> length est = L ->
  exists s' r, process_adding E clk t (S af) (S fuel) c est s = (s', r)
    /\ s_targets s' = fst (raise_targets (s_tint s) (s_targets s) (planned_vec c est (s_nsched s)))
    /\ (forall l e n x, nth_error est l = Some e -> nth_error (s_nsched s) l = Some n ->
          nth_error (s_targets s) l = Some x ->
          nth_error (s_nsched s') l = Some (Nat.max n (Nat.max (Z.to_nat (Qfloor x)) (Z.to_nat (plan_Z c e n)))))
    /\ ((r = ORunning /\ exists l e n n', nth_error est l = Some e /\ nth_error (s_nsched s) l = Some n
           /\ nth_error (s_nsched s') l = Some n'
           /\ (planned c e n < e)%Q /\ (nat_Q (n' - length (lost l)) < (1 # 2) * planned c e n)%Q)
        \/ (exists b, r = OBool b
             /\ (b = true <-> forall l e n, nth_error est l = Some e -> nth_error (s_nsched s) l = Some n ->
                                (e <= planned c e n)%Q)
             /\ forall l e n n', nth_error est l = Some e -> nth_error (s_nsched s) l = Some n ->
                  nth_error (s_nsched s') l = Some n' -> (planned c e n < e)%Q ->
                  ((1 # 2) * planned c e n <= nat_Q (n' - length (lost l)))%Q)).
Proof.
  intros HI Ht Htl Hel. unfold process_adding.
  destruct (ask_polls (clk 0) t af s gs lost HI Ht) as (s1 & gs1 & Ea & HI1 & He1 & Hpol & D1 & D2 & D3 & _).
  rewrite Ea. pose proof (iv_len _ _ _ _ _ _ _ HI1) as Hlen1. rewrite Hlen1, Hel, Nat.eqb_refl.
  set (plan := planned_vec c est (s_nsched s1)). set (items := greater_items 0 est plan).
  unfold set_scheduled_and_wait.
  destruct (set_level_target_Inv E ps plan s1 gs1 lost HI1) as (tg & r0 & Es & Er & HI2). rewrite Es.
  assert (Hpl : length plan = L) by (unfold plan; rewrite planned_vec_length; lia).
  destruct (raise_planned (s_tint s1) c est (s_targets s1) (s_nsched s1) tg r0) as (-> & Hg1 & Hg2); [congruence|congruence|exact Er|].
  destruct (schedule_samples_Inv E ps (clk 1) t (S af) _ gs1 lost HI2)
    as (s3 & gs3 & s4 & gs4 & r4 & E4 & _ & _ & _ & HI4 & _ & HT4 & _ & Hcase).
  rewrite E4.
  assert (Hp : plan_samples E (set_targets E s1 tg (s_tint s1)) = Ok (minus_vec tg (s_nsched s1))).
  { unfold plan_samples. cbn [set_targets s_targets s_nsched]. rewrite Hg1, Nat.eqb_refl. reflexivity. }
  destruct Hcase as [(_ & H0 & _)|[(plan' & Hp' & -> & Hns & _)|(e & Hp' & _)]]; [lia| |congruence].
  rewrite Hp in Hp'. injection Hp' as <-. rewrite minus_vec_length, Hlen1, Nat.leb_refl by congruence.
  cbn [set_targets s_nsched] in Hns.
  assert (Hns4 : forall l e n x, nth_error est l = Some e -> nth_error (s_nsched s) l = Some n ->
          nth_error (s_targets s) l = Some x ->
          nth_error (s_nsched s4) l = Some (Nat.max n (Nat.max (Z.to_nat (Qfloor x)) (Z.to_nat (plan_Z c e n))))).
  { intros l e n x H1 H2 H3. rewrite <- D1 in H2. rewrite <- D2 in H3.
    destruct (Hg2 l e n x H1 H2 H3) as (x' & Hx' & Hfl). rewrite Hns, <- Hfl. apply bump_all_minus; auto. }
  assert (Hitems : forall i, In i items -> i < L).
  { intros i Hi. apply greater_items_in in Hi as (l & e & p & -> & H1 & _). cbn. rewrite <- Hel.
    apply nth_error_Some. congruence. }
  destruct (wait_half_exact clk t af items plan s4 gs4 lost fuel 2 HI4 Ht Hpl Hitems)
    as (s5 & r5 & E5 & D5 & T5 & Hr5). rewrite E5.
  assert (HT5 : s_targets s5 = fst (raise_targets (s_tint s) (s_targets s) (planned_vec c est (s_nsched s)))).
  { rewrite T5, HT4, <- D1, <- D2, <- D3. fold plan. rewrite Er. reflexivity. }
  assert (Hplan : forall l e n, nth_error est l = Some e -> nth_error (s_nsched s) l = Some n ->
     nth_error plan l = Some (planned c e n)).
  { intros l e n H1 H2. apply planned_vec_nth; congruence. }
  assert (Hin : forall l e n, nth_error est l = Some e -> nth_error (s_nsched s) l = Some n ->
     (In l items <-> (planned c e n < e)%Q)).
  { intros l e n H1 H2. unfold items. rewrite greater_items_in. split.
    - intros (j & e' & p & -> & A1 & A2 & A3). cbn [plus] in *. rewrite (Hplan _ _ _ H1 H2) in A2. congruence.
    - intros K. exists l, e, (planned c e n). ands; auto. }
  assert (Hall : forall l, l < L -> exists e n, nth_error est l = Some e /\ nth_error (s_nsched s) l = Some n).
  { intros l Hl. assert (K1 : l < length est) by lia. assert (K2 : l < length (s_nsched s)) by (rewrite <- D1; lia).
    apply nth_error_Some in K1, K2. destruct (nth_error est l); [|congruence].
    destruct (nth_error (s_nsched s) l); [|congruence]. eauto. }
  destruct Hr5 as [(-> & Hok)|(-> & i & p & n' & Hi & Hpi & Hni & Hlt)].
  - eexists s5, _. split; [reflexivity|]. split; [exact HT5|]. split; [intros; rewrite D5; eauto|]. right.
    eexists. split; [reflexivity|]. split.
    + change items with (greater_items 0 est plan). rewrite forallb_greater. split.
      * intros H0 l e n H1 H2. destruct (Qlt_le_dec (planned c e n) e) as [K|K]; auto. exfalso.
        apply (Hin _ _ _ H1 H2) in K. unfold items in K. rewrite H0 in K. destruct K.
      * intros H0. assert (Hn : forall i, ~ In i items).
        { intros i Hi. destruct (Hall i (Hitems i Hi)) as (e & n & H1 & H2). apply (Hin _ _ _ H1 H2) in Hi.
          specialize (H0 _ _ _ H1 H2). lra. }
        clear - Hn. subst items. destruct (greater_items 0 est plan) as [|i it]; auto. destruct (Hn i (or_introl eq_refl)).
    + intros l e n n' H1 H2 H3 K. rewrite D5 in H3. apply (Hok l); auto. now apply (Hin _ _ _ H1 H2).
  - eexists s5, _. split; [reflexivity|]. split; [exact HT5|]. split; [intros; rewrite D5; eauto|]. left. split; auto.
    destruct (Hall i (Hitems i Hi)) as (e & n & H1 & H2). exists i, e, n, n'. rewrite D5. ands; auto.
    + now apply (Hin _ _ _ H1 H2).
    + rewrite (Hplan _ _ _ H1 H2) in Hpi. injection Hpi as <-. exact Hlt.
Qed.

End Adding.
