From Verif Require Import Base BaseFacts PermTac TagModel PoolModel HdfModel HdfProofs SamplerModel SamplerSpec SamplerProofs SamplerFacts ParModel ParSpec ParFacts.

Lemma filter_perm {A} (f : A -> bool) l l' : Permutation l l' -> Permutation (filter f l) (filter f l').
Proof.
  induction 1; cbn; auto.
  - destruct (f x); auto.
  - destruct (f x), (f y); auto. apply perm_swap.
  - etransitivity; eauto.
Qed.
Lemma filter_all {A} (f : A -> bool) l : Forall (fun x => f x = true) l -> filter f l = l.
Proof. induction 1 as [|x l H _ IH]; cbn; auto. rewrite H. congruence. Qed.
Lemma filter_none {A} (f : A -> bool) l : Forall (fun x => f x = false) l -> filter f l = [].
Proof. induction 1 as [|x l H _ IH]; cbn; auto. now rewrite H. Qed.

Section Proofs.
Context (E : env) (ps : list (param E)) (picks wpicks : nat -> list nat) (escaped : nat -> bool).
Notation L := (length ps).
Notation reached_ := (par_reached E ps picks wpicks escaped).
Notation BS := (BS E ps).
Notation step_ := (par_step E picks wpicks escaped).

Lemma reached_BS fuel ops s : reached_ fuel ops s -> exists gs lost, BS s gs lost
  /\ (nothing_escapes escaped -> nothing_between wpicks -> alive s = true /\ forall l, lost l = []).
Proof.
  intros (s0 & H0 & ->). destruct (par_start_S E ps) as (s0' & H0' & I & Al). assert (s0' = s0) as -> by congruence.
  destruct (par_run_S E ps picks wpicks escaped fuel ops _ _ _ I) as (gs & lost & I' & (Lv & (C & _)) & _).
  exists gs, lost. split; auto. intros A B. split; [apply Lv; auto|]. intros l. rewrite C by (split; auto). reflexivity.
Qed.
Lemma BS_level s gs lost l g : BS s gs lost -> par_level s l g <-> nth_error gs l = Some g.
Proof.
  intros I. destruct (sv_full _ _ _ _ _ _ _ I) as (_ & Hf & _). unfold par_level, level. rewrite Hf.
  cbn [f_groups]. rewrite nth_error_map. destruct (nth_error gs l); cbn; split; congruence.
Qed.
Lemma BS_lev s gs lost l g : BS s gs lost -> par_level s l g -> exists n, nth_error (s_nsched (base s)) l = Some n /\ l < L
  /\ g_sched g = map (tagn l) (seq 0 n)
  /\ Permutation (g_sched g) (g_cids g ++ map fst (g_failed g) ++ outstanding s l ++ waiting (base s) l ++ lost l)
  /\ vals_ok E ps l g /\ Forall (rec_bad E ps l) (g_failed g).
Proof.
  intros I Hl. apply (BS_level _ _ _ _ _ I) in Hl.
  assert (Hlt : l < L). { destruct (sv_full _ _ _ _ _ _ _ I) as (_ & _ & <-). apply nth_error_Some. congruence. }
  assert (Hn : l < length (s_nsched (base s))) by (rewrite (sv_len _ _ _ _ _ _ _ I); auto).
  apply nth_error_Some in Hn. destruct (nth_error (s_nsched (base s)) l) as [n|] eqn:En; [|congruence].
  destruct (sv_lev _ _ _ _ _ _ _ I l g n Hl En) as (A & B & C & D). unfold none in *. rewrite app_nil_r in *.
  exists n. ands; auto. rewrite B. unfold failed_of, hold, tids, outstanding, waiting. rewrite Hl. psolve.
Qed.
Lemma BS_has_level s gs lost l : BS s gs lost -> l < L -> exists g, par_level s l g.
Proof.
  intros I Hl. destruct (Full_nth _ _ _ _ _ (sv_full _ _ _ _ _ _ _ I) Hl) as [g Hg]. exists g. now apply (BS_level _ _ _ _ _ I).
Qed.

Lemma records_ids_ok l g : vals_ok E ps l g -> map fst (records (E := E) g) = g_cids g /\ Forall (rec_ok E ps l) (records g) /\ n_records g = length (g_cids g).
Proof.
  intros Hv. assert (H1 : n_records (E := E) g = length (g_cids g)).
  { unfold vals_ok in Hv. unfold n_records. destruct (g_cvals g) as [vs|]; [apply Hv|now rewrite Hv]. }
  split; [now apply records_ids|]. split; auto. unfold vals_ok in Hv. unfold records. destruct (g_cvals g) as [vs|]; [apply Hv|].
  rewrite Hv. constructor.
Qed.

(** When a wait without timeout returns. *)
Lemma ask_returns s gs lost fuel clk s' n : BS s gs lost -> step_ fuel s (Ask clk None) = (s', OInt n) ->
  exists gs' lost', BS s' gs' lost' /\ n = 0%Z /\ laters E gs gs' /\ forall l, l < L -> hold E s' l = [] /\ lost' l = [] /\ lost l = [].
Proof.
  intros I. cbn [par_step]. destruct (ask_S E ps picks wpicks escaped clk None fuel s gs lost I) as (s1 & gs1 & lost1 & r & -> & I1 & R1 & La & Hr).
  destruct r as [[m|e]|]; [|contradiction|congruence]. intros Hq. assert (s1 = s' /\ m = n) as [-> ->] by (split; congruence).
  destruct (Hr eq_refl) as [-> Hz]. exists gs1, lost1. ands; auto. intros l Hl.
  pose proof (sv_run _ _ _ _ _ _ _ I1) as C. unfold counted in C. rewrite Hz in C.
  assert (T : total L (fun l => length (hold E s' l) + length (lost1 l)) = 0) by lia.
  pose proof (total_zero _ _ l T Hl) as T'. cbn beta in T'. destruct R1 as (_ & _ & _ & (_ & G)). specialize (G l).
  destruct (hold E s' l), (lost1 l), (lost l); cbn in *; try lia. auto.
Qed.

Lemma all_collected fuel ops s fuel' clk s' n : reached_ fuel ops s -> step_ fuel' s (Ask clk None) = (s', OInt n) ->
  n = 0%Z /\ forall l, l < L -> exists g, par_level s' l g
    /\ (exists k, g_sched g = map (tag l) (seq 0 k))
    /\ Permutation (g_sched g) (g_cids g ++ map fst (g_failed g)) /\ NoDup (g_cids g ++ map fst (g_failed g))
    /\ n_records g = length (g_cids g) /\ outstanding s' l = [] /\ waiting (base s') l = [].
Proof.
  intros Hr Hs. destruct (reached_BS _ _ _ Hr) as (gs & lost & I & _).
  destruct (ask_returns _ _ _ _ _ _ _ I Hs) as (gs' & lost' & I' & -> & _ & H). split; auto. intros l Hl.
  destruct (BS_has_level _ _ _ l I' Hl) as [g Hg]. destruct (BS_lev _ _ _ _ _ I' Hg) as (k & Hk & _ & A & B & C & D).
  destruct (H l Hl) as (H1 & H2 & _). unfold hold in H1. apply app_eq_nil in H1 as [H1a H1b].
  assert (H1c : waiting (base s') l = []) by exact H1b. assert (H1d : outstanding s' l = []) by exact H1a.
  rewrite H1c, H1d, H2 in B. cbn [app] in B. rewrite app_nil_r in B.
  exists g. ands; auto.
  - exists k. exact A.
  - eapply Permutation_NoDup; [exact B|]. rewrite A. apply NoDup_tags.
  - now apply (records_ids_ok l).
Qed.

Lemma records_expected_perm l g n : deterministic E -> vals_ok E ps l g -> Forall (rec_bad E ps l) (g_failed g) -> l < L ->
  g_sched g = map (tagn l) (seq 0 n) -> Permutation (g_sched g) (g_cids g ++ map fst (g_failed g)) ->
  Permutation (records g) (expected_records E ps (calculate E 0) l n)
  /\ Permutation (map fst (g_failed g)) (filter (fun id => match sample_record E ps (calculate E 0) l id with [] => true | _ => false end) (g_sched g)).
Proof.
  intros Hd Hv Hb Hl Hs Hp. destruct (records_ids_ok l g Hv) as (H3 & H2 & _).
  destruct (sims_nth E ps l Hl) as (ls & Hls & _).
  assert (Gg : Forall (fun id => good E ps l id = true) (g_cids g)).
  { rewrite <- H3. apply Forall_map. eapply Forall_impl; [|exact H2]. intros r Hr. now apply (good_ok E ps). }
  assert (Gb : Forall (fun id => good E ps l id = false) (map fst (g_failed g))).
  { apply Forall_map. eapply Forall_impl; [|exact Hb]. intros r Hr. now apply (good_bad E ps). }
  split.
  - assert (Hflat : records g = flat_map (sample_record E ps (calculate E 0) l) (map fst (records g))).
    { clear - H2 Hd. induction (records g) as [|r rs IH]; cbn; auto. inversion H2; subst.
      rewrite (rec_ok_record E ps l r Hd) by auto. cbn. f_equal. auto. }
    assert (Hf : Permutation (g_cids g) (filter (good E ps l) (map (tagn l) (seq 0 n)))).
    { rewrite <- Hs. rewrite (filter_perm _ _ _ Hp), filter_app, (filter_all _ _ Gg), (filter_none _ _ Gb), app_nil_r. reflexivity. }
    rewrite Hflat, H3, (Permutation_flat_map _ Hf). unfold expected_records.
    change (fun i => sample_record E ps (calculate E 0) l (tag l i)) with (fun i => sample_record E ps (calculate E 0) l (tagn l i)).
    assert (Q : flat_map (sample_record E ps (calculate E 0) l) (filter (good E ps l) (map (tagn l) (seq 0 n)))
                = flat_map (fun i => sample_record E ps (calculate E 0) l (tagn l i)) (seq 0 n)); [|now rewrite Q].
    clear - Hls. induction (seq 0 n) as [|i is IH]; cbn [map filter flat_map]; auto.
    pose proof (good_record E ps l ls (tagn l i) Hls) as Hgr. destruct (good E ps l (tagn l i)).
    + cbn [flat_map]. now rewrite IH.
    + rewrite IH. apply map_eq_nil in Hgr. now rewrite Hgr.
  - set (nr := fun id => match sample_record E ps (calculate E 0) l id with [] => true | _ => false end).
    assert (Hnr : forall id, nr id = negb (good E ps l id)).
    { intros id. unfold nr. pose proof (good_record E ps l ls id Hls) as Hgr. destruct (good E ps l id), (sample_record _ _ _ _ _); auto; discriminate. }
    rewrite (filter_perm _ _ _ Hp), filter_app, filter_none, filter_all; [reflexivity| |].
    + eapply Forall_impl; [|exact Gb]. intros id Hi. cbn beta in *. now rewrite Hnr, Hi.
    + eapply Forall_impl; [|exact Gg]. intros id Hi. cbn beta in *. now rewrite Hnr, Hi.
Qed.

Lemma par_expected fuel ops s fuel' clk s' n l g : deterministic E -> reached_ fuel ops s -> step_ fuel' s (Ask clk None) = (s', OInt n) ->
  par_level s' l g ->
  Permutation (records g) (expected_records E ps (calculate E 0) l (length (g_sched g)))
  /\ Permutation (map fst (g_failed g)) (filter (fun id => match sample_record E ps (calculate E 0) l id with [] => true | _ => false end) (g_sched g)).
Proof.
  intros Hd Hr Hs Hg. destruct (reached_BS _ _ _ Hr) as (gs & lost & I & _).
  destruct (ask_returns _ _ _ _ _ _ _ I Hs) as (gs' & lost' & I' & -> & _ & H).
  destruct (BS_lev _ _ _ _ _ I' Hg) as (k & Hk & Hl & A & B & C & D).
  destruct (H l Hl) as (H1 & H2 & _). unfold hold in H1. apply app_eq_nil in H1 as [H1a H1b].
  assert (H1c : waiting (base s') l = []) by exact H1b. assert (H1d : outstanding s' l = []) by exact H1a.
  rewrite H1c, H1d, H2 in B. cbn [app] in B. rewrite app_nil_r in B.
  assert (length (g_sched g) = k) as -> by (rewrite A, map_length, seq_length; reflexivity).
  now apply records_expected_perm.
Qed.

Lemma always_valid fuel ops s l g : reached_ fuel ops s -> par_level s l g ->
  NoDup (g_sched g) /\ NoDup (g_cids g ++ map fst (g_failed g) ++ outstanding s l ++ waiting (base s) l)
  /\ incl (g_cids g ++ map fst (g_failed g) ++ outstanding s l ++ waiting (base s) l) (g_sched g)
  /\ n_records g = length (g_cids g)
  /\ (forall id f c, In (id, (f, c)) (records g) -> exists cfg k, level_config E ps l = Some cfg
        /\ calculate E k cfg (seed_of E id) = Returned f c /\ acceptable E f c = true).
Proof.
  intros Hr Hg. destruct (reached_BS _ _ _ Hr) as (gs & lost & I & _). destruct (BS_lev _ _ _ _ _ I Hg) as (k & Hk & Hl & A & B & C & D).
  assert (N : NoDup (g_sched g)) by (rewrite A; apply NoDup_tags).
  rewrite !app_assoc in B. rewrite !app_assoc. pose proof (Permutation_NoDup B N) as N'. apply NoDup_app_iff in N' as (N1 & _ & _).
  destruct (records_ids_ok l g C) as (R1 & R2 & R3). ands; auto.
  - intros id Hi. eapply Permutation_in; [symmetry; exact B|]. apply in_or_app. now left.
  - intros id f c Hi. rewrite Forall_forall in R2. destruct (R2 _ Hi) as (ls & k' & Hls & Hc).
    cbn in Hc. apply (sample_ok E) in Hc as [Hc Ha]. exists (ls_config ls), k'. ands; auto. now apply sims_config.
Qed.

Lemma records_stay fuel ops s fuel' more l g : reached_ fuel ops s -> par_level s l g ->
  exists g' a b, par_level (par_run E picks wpicks escaped fuel' s more) l g' /\ g_sched g' = g_sched g ++ a /\ records g' = records g ++ b.
Proof.
  intros Hr Hg. destruct (reached_BS _ _ _ Hr) as (gs & lost & I & _).
  destruct (par_run_S E ps picks wpicks escaped fuel' more _ _ _ I) as (gs' & lost' & I' & _ & La).
  apply (BS_level _ _ _ _ _ I) in Hg. destruct (La l g Hg) as (g' & Hg' & (a & Ha) & (b & Hb)).
  exists g', a, b. split; [now apply (BS_level _ _ _ _ _ I')|auto].
Qed.

Lemma lost_forever fuel ops s l g id : reached_ fuel ops s -> par_level s l g -> In id (g_sched g) ->
  ~ In id (g_cids g ++ map fst (g_failed g) ++ outstanding s l ++ waiting (base s) l) ->
  forall fuel' more fuel'' clk, snd (step_ fuel'' (par_run E picks wpicks escaped fuel' s more) (Ask clk None)) = ORunning.
Proof.
  intros Hr Hg Hi Hn fuel' more fuel'' clk. destruct (reached_BS _ _ _ Hr) as (gs & lost & I & _).
  destruct (BS_lev _ _ _ _ _ I Hg) as (k & Hk & Hl & A & B & C & D).
  destruct (par_run_S E ps picks wpicks escaped fuel' more _ _ _ I) as (gs' & lost' & I' & (_ & (_ & G)) & _).
  assert (Hlost : lost l <> []).
  { intros Z. rewrite Z, app_nil_r in B. apply Hn. eapply Permutation_in; [exact B|exact Hi]. }
  set (s1 := par_run E picks wpicks escaped fuel' s more) in *. cbn [par_step].
  destruct (ask_S E ps picks wpicks escaped clk None fuel'' s1 gs' lost' I') as (s2 & gs2 & lost2 & r & Ea & I2 & R2 & _ & H2).
  rewrite Ea. destruct r as [[m|e]|]; [|contradiction|reflexivity]. exfalso.
  destruct (H2 eq_refl) as [-> Hz]. pose proof (sv_run _ _ _ _ _ _ _ I2) as Cn. unfold counted in Cn. rewrite Hz in Cn.
  assert (T : total L (fun l => length (hold E s2 l) + length (lost2 l)) = 0) by lia.
  pose proof (total_zero _ _ l T Hl) as T'. cbn beta in T'. destruct R2 as (_ & _ & _ & (_ & G2)). specialize (G l). specialize (G2 l).
  destruct (lost l); [congruence|]. cbn in G. lia.
Qed.

Lemma wait_ends fuel ops s clk : nothing_escapes escaped -> nothing_between wpicks -> workers_go_on picks -> reached_ fuel ops s ->
  exists F, forall fuel', F <= fuel' -> exists s', step_ fuel' s (Ask clk None) = (s', OInt 0).
Proof.
  intros A B C Hr. destruct (reached_BS _ _ _ Hr) as (gs & lost & I & H). destruct (H A B) as [Al Hl].
  destruct (ask_ends E ps picks wpicks escaped clk (conj A B) C (length (tasks s)) s gs lost I Hl Al (le_n _)) as [F HF].
  exists F. intros fuel' Hf. destruct (HF fuel' 0 Hf) as [s' Hs]. exists s'. cbn [par_step]. unfold par_ask, ask. now rewrite Hs.
Qed.

Lemma par_target fuel ops s fuel' clk t s' : reached_ fuel ops s -> length (s_targets (base s)) = L ->
  step_ fuel' s (Schedule clk t) = (s', ONone) ->
  s_targets (base s') = s_targets (base s) /\ forall l g q, par_level s l g -> nth_error (s_targets (base s)) l = Some q ->
    exists g' more, par_level s' l g' /\ g_sched g' = g_sched g ++ more /\ length (g_sched g') = Nat.max (length (g_sched g)) (Z.to_nat (Qfloor q)).
Proof.
  intros Hr Ht. destruct (reached_BS _ _ _ Hr) as (gs & lost & I & _). cbn [par_step].
  destruct (par_samples_S E ps picks wpicks escaped clk t fuel' s gs lost I) as (s1 & gs1 & lost1 & r & -> & I1 & _ & (K1 & K2 & K3) & La & Hn).
  intros Hq. assert (s1 = s' /\ r = ONone) as [-> ->] by (split; congruence). destruct (Hn eq_refl) as (plan & Hp & Hns).
  split; auto. intros l g q Hg Hq'. pose proof (sv_len _ _ _ _ _ _ _ I) as Hlen.
  unfold plan_samples in Hp. rewrite Hlen, Ht, Nat.eqb_refl in Hp. assert (plan = minus_vec (s_targets (base s)) (s_nsched (base s))) as -> by congruence.
  destruct (BS_lev _ _ _ _ _ I Hg) as (n & Hn' & Hl & A & _). apply (BS_level _ _ _ _ _ I) in Hg as Hg0.
  destruct (La l g Hg0) as (g' & Hg' & (a & Ha) & _). apply (BS_level _ _ _ _ _ I1) in Hg'. exists g', a. ands; auto.
  destruct (BS_lev _ _ _ _ _ I1 Hg') as (n' & Hn1 & _ & A' & _). rewrite A', A, !map_length, !seq_length.
  rewrite Hns in Hn1. rewrite (bump_all_minus _ _ l q n) in Hn1; auto; [congruence|lia].
Qed.
End Proofs.
