(** The error of the estimate made with the suggested numbers of samples. *)
From Coq Require Import Reals Lra.
From Verif Require Import Base BaseFacts QTypeModel QuantityModel QuantitySpec NumModel NumFacts EstimateModel EstimateSpec EstimateProofs EstimateFacts EstimateProps.
From Verif Require AllocModel AllocSpec AllocProofs AllocFacts AllocProps.
From Verif Require Import ProbSpec ProbFacts ProbProps.
Local Open Scope R_scope.

(** Probability that a number that depends on the outcome differs from c by at least eps. *)
Definition off {A} (d : dist A) (f : A -> R) (c eps : R) : R := expect d (fun x => if Rle_dec eps (Rabs (f x - c)) then 1 else 0).
(** The variances of the level differences: a row for each level, an entry for each component. *)
Definition true_vars (M : nat) (laws : list (dist rsample)) : list (list R) :=
  map (fun l => map (fun m => variance (nth l laws []) (rdiff l m)) (seq 0 M)) (seq 0 (length laws)).
(** The campaign with these numbers of samples. *)
Definition with_counts (laws : list (dist rsample)) (ns : list Z) : list (dist rsample * nat) := combine laws (map Z.to_nat ns).
Definition good_laws (M : nat) (laws : list (dist rsample)) : Prop :=
  laws <> [] /\ forall l, (l < length laws)%nat -> proper (nth l laws []) /\ forall p s, In (p, s) (nth l laws []) -> fit M l s.

Lemma expect_le {A} (d : dist A) f g : (forall p x, In (p, x) d -> 0 <= p) -> (forall p x, In (p, x) d -> f x <= g x) -> expect d f <= expect d g.
Proof.
  induction d as [|[p x] d IH]; intros Hp H; [apply Rle_refl|]. rewrite !expect_cons. apply Rplus_le_compat.
  - apply Rmult_le_compat_l; [apply (Hp p x); now left|apply (H p x); now left].
  - apply IH; intros q y Hy; [apply (Hp q y)|apply (H q y)]; now right.
Qed.
Lemma expect_nonneg {A} (d : dist A) f : (forall p x, In (p, x) d -> 0 <= p) -> (forall p x, In (p, x) d -> 0 <= f x) -> 0 <= expect d f.
Proof.
  intros Hp H. assert (E : expect d (fun _ => 0) = 0).
  { clear. induction d as [|[p x] d IH]; [reflexivity|]. rewrite expect_cons, IH. ring. }
  rewrite <- E. now apply expect_le.
Qed.
Lemma variance_nonneg {A} (d : dist A) f : proper d -> 0 <= variance d f.
Proof. intros [Hp _]. apply expect_nonneg; [exact Hp|]. intros p x _. rewrite <- Rsqr_pow2. apply Rle_0_sqr. Qed.
Lemma chebyshev {A} (d : dist A) f eps : proper d -> 0 < eps -> off d f (expect d f) eps <= variance d f / eps ^ 2.
Proof.
  intros Hd He. assert (H2 : 0 < eps ^ 2) by (apply pow_lt; exact He).
  apply (Rmult_le_reg_l (eps ^ 2)); [exact H2|]. replace (eps ^ 2 * (variance d f / eps ^ 2)) with (variance d f) by (field; lra).
  unfold off. rewrite <- expect_scal. apply expect_le; [apply Hd|]. intros p x _. destruct (Rle_dec _ _) as [L|L].
  - rewrite Rmult_1_r, <- (pow2_abs (f x - expect d f)). apply pow_incr. lra.
  - rewrite Rmult_0_r, <- Rsqr_pow2. apply Rle_0_sqr.
Qed.

Lemma true_vars_entry M laws l m : (l < length laws)%nat -> (m < M)%nat -> nth m (nth l (true_vars M laws) []) 0 = variance (nth l laws []) (rdiff l m).
Proof.
  intros Hl Hm. unfold true_vars. rewrite (nth_indep _ [] (map (fun m => variance (nth O laws []) (rdiff 0 m)) (seq 0 M))) by (rewrite map_length, seq_length; exact Hl).
  rewrite (map_nth (fun l => map (fun m => variance (nth l laws []) (rdiff l m)) (seq 0 M))), seq_nth by exact Hl. cbn [Nat.add].
  rewrite (nth_indep _ 0 (variance (nth l laws []) (rdiff l 0))) by (rewrite map_length, seq_length; exact Hm).
  now rewrite (map_nth (fun m => variance (nth l laws []) (rdiff l m))), seq_nth by exact Hm.
Qed.
Lemma true_data M laws target n_ops : good_laws M laws -> M <> O -> length n_ops = length laws -> (forall l, (l < length laws)%nat -> 0 < nth l n_ops 0) -> 0 < target ->
  AllocSpec.data_ok (length laws) M target (true_vars M laws) n_ops.
Proof.
  intros [_ Hg] HM Hn Hc Ht. constructor; auto.
  - unfold true_vars. now rewrite map_length, seq_length.
  - intros l Hl. unfold true_vars. rewrite (nth_indep _ [] (map (fun m => variance (nth O laws []) (rdiff 0 m)) (seq 0 M))) by (rewrite map_length, seq_length; exact Hl).
    rewrite (map_nth (fun l => map (fun m => variance (nth l laws []) (rdiff l m)) (seq 0 M))). now rewrite map_length, seq_length.
  - intros l m Hl Hm. rewrite true_vars_entry by auto. apply variance_nonneg. now apply Hg.
Qed.
Lemma counts_nth laws ns l : length ns = length laws -> (l < length laws)%nat -> nth l (with_counts laws ns) ([], O) = (nth l laws [], Z.to_nat (nth l ns 0%Z)).
Proof.
  intros HL Hl. unfold with_counts. rewrite combine_nth by (now rewrite map_length).
  f_equal. change O with (Z.to_nat 0). now rewrite map_nth.
Qed.
Lemma counts_length laws ns : length ns = length laws -> length (with_counts laws ns) = length laws.
Proof. intros H. unfold with_counts. rewrite combine_length, map_length. lia. Qed.

(** The coarse simulation of each level is as the fine simulation of the level below. *)
Definition matched (laws : list (dist rsample)) (m : nat) : Prop :=
  forall l, (S l < length laws)%nat -> expect (nth (S l) laws []) (rcoarse m) = expect (nth l laws []) (rfine m).

Lemma suggested : forall (t : qtype skey) laws target n_ops, size t <> O -> good_laws (size t) laws -> length n_ops = length laws ->
  (forall l, (l < length laws)%nat -> 0 < nth l n_ops 0) -> 0 < target ->
  exists ns, AllocModel.estimate_n target (true_vars (size t) laws) n_ops (length laws) = Ok ns /\ length ns = length laws
  /\ planned 2 (size t) (with_counts laws ns)
  /\ forall m store, (m < size t)%nat -> stores (size t) (with_counts laws ns) store ->
     exists value : list (list rsample) -> R,
       (forall p oc, In (p, oc) (campaign (with_counts laws ns)) -> exists q,
          estimate_mean t (length laws) (read (store oc)) = Ok q /\ nth m (mean q) NaN = Fin (value oc))
       /\ variance (campaign (with_counts laws ns)) value <= 3 * target
       /\ (matched laws m -> expect (campaign (with_counts laws ns)) value = expect (nth (length laws - 1) laws []) (rfine m)).
Proof.
  intros t laws target n_ops Ht Hg Hn Hc Htg.
  assert (HL : length laws <> O) by (destruct Hg as [H _]; destruct laws; [contradiction|discriminate]).
  destruct (AllocProps.C50_target_partial _ _ _ _ _ (true_data _ _ _ _ Hg Ht Hn Hc Htg) HL) as (ns & E & El & H2 & Hv).
  exists ns. split; [exact E|]. split; [exact El|].
  assert (Hp : planned 2 (size t) (with_counts laws ns)).
  { split; [intros H0; apply (f_equal (@length _)) in H0; rewrite counts_length in H0 by exact El; cbn in H0; lia|].
    rewrite counts_length by exact El. intros l Hl. unfold law, count. rewrite counts_nth by auto. cbn [fst snd]. destruct Hg as [_ Hg]. destruct (Hg l Hl) as [G1 G2].
    split; [exact G1|]. split; [|exact G2]. specialize (H2 l Hl). lia. }
  split; [exact Hp|]. intros m store Hm Hs.
  assert (Hp1 : planned 1 (size t) (with_counts laws ns)).
  { destruct Hp as [P1 P2]. split; [exact P1|]. intros l Hl. destruct (P2 l Hl) as (A & B & C). split; [exact A|]. split; [lia|exact C]. }
  exists (total (level_mean m) 0). assert (Hl : length (with_counts laws ns) = length laws) by now apply counts_length.
  split; [|split].
  - intros p oc Hin. destruct (estimate_exists t 1 _ m store p oc Ht Hm (le_n 1) Hp1 Hs Hin) as (q & Eq & Em & _). rewrite Hl in Eq. eauto.
  - rewrite variance_total by (eapply planned_proper; eauto). rewrite sum_from_seq, Hl.
    eapply Rle_trans; [|apply (proj1 (proj2 (Hv m Hm)))]. unfold AllocSpec.variance, AllocSpec.sumn. fold (rsum (map (fun l => nth m (nth l (true_vars (size t) laws) []) 0 / IZR (nth l ns 0%Z)) (seq 0 (length laws)))).
    apply Req_le. apply rsum_ext. intros l Hi. apply in_seq in Hi. cbn [Nat.add]. destruct Hp1 as [_ P]. rewrite Hl in P. destruct (P l ltac:(lia)) as (P1 & P2 & _).
    etransitivity; [apply (variance_mean (law (with_counts laws ns) l) P1 (rdiff l m) (count (with_counts laws ns) l) P2)|].
    unfold law, count. rewrite counts_nth by (auto; lia). cbn [fst snd]. rewrite true_vars_entry by (auto; lia).
    f_equal. specialize (H2 l ltac:(lia)). rewrite INR_IZR_INZ, Z2Nat.id by lia. reflexivity.
  - intros Hma0. assert (Hma : matching (with_counts laws ns) m).
    { intros l Hi. rewrite Hl in Hi. unfold law. rewrite !counts_nth by (auto; lia). cbn [fst]. now apply Hma0. }
    rewrite expect_total by (eapply planned_proper; eauto). rewrite sum_from_seq.
    rewrite (rsum_ext _ (fun l => expect (law (with_counts laws ns) l) (rdiff l m))).
    + rewrite Hl. replace (length laws) with (S (length laws - 1)) at 1 by lia. rewrite (telescope _ m Hma) by lia.
      unfold law. rewrite counts_nth by (auto; lia). reflexivity.
    + intros l Hi. apply in_seq in Hi. cbn [Nat.add]. destruct Hp1 as [_ P]. destruct (P l ltac:(lia)) as (P1 & P2 & _). apply (expect_mean (law (with_counts laws ns) l) P1 (rdiff l m) (count (with_counts laws ns) l) P2).
Qed.

(** ** C171: variance of the estimate with the suggested numbers of samples
    The variances handed to [estimate_n_samples_for_target_variance] are exact and the campaign takes the numbers it
    returns: the variance of the reported mean need not be below the target, but stays below three times the target. *)
Theorem C171_target_partial : forall (t : qtype skey) laws target n_ops, size t <> O -> good_laws (size t) laws -> length n_ops = length laws ->
  (forall l, (l < length laws)%nat -> 0 < nth l n_ops 0) -> 0 < target ->
  exists ns, AllocModel.estimate_n target (true_vars (size t) laws) n_ops (length laws) = Ok ns /\ length ns = length laws
  /\ forall m store, (m < size t)%nat -> stores (size t) (with_counts laws ns) store ->
     exists value : list (list rsample) -> R,
       (forall p oc, In (p, oc) (campaign (with_counts laws ns)) -> exists q,
          estimate_mean t (length laws) (read (store oc)) = Ok q /\ nth m (mean q) NaN = Fin (value oc))
       /\ variance (campaign (with_counts laws ns)) value <= 3 * target.
Proof.
  intros t laws target n_ops Ht Hg Hn Hc Htg. destruct (suggested t laws target n_ops Ht Hg Hn Hc Htg) as (ns & E & El & _ & H).
  exists ns. split; [exact E|]. split; [exact El|]. intros m store Hm Hs. destruct (H m store Hm Hs) as (v & V1 & V2 & _). eauto.
Qed.

(** ** C172: probability of a large error
    With matching simulations the reported mean is off the expected value of the finest simulation by eps or more
    with probability at most 3 target / eps^2. *)
Theorem C172_large_error : forall (t : qtype skey) laws target n_ops, size t <> O -> good_laws (size t) laws -> length n_ops = length laws ->
  (forall l, (l < length laws)%nat -> 0 < nth l n_ops 0) -> 0 < target ->
  exists ns, AllocModel.estimate_n target (true_vars (size t) laws) n_ops (length laws) = Ok ns /\ length ns = length laws
  /\ forall m store eps, (m < size t)%nat -> stores (size t) (with_counts laws ns) store -> matched laws m -> 0 < eps ->
     exists value : list (list rsample) -> R,
       (forall p oc, In (p, oc) (campaign (with_counts laws ns)) -> exists q,
          estimate_mean t (length laws) (read (store oc)) = Ok q /\ nth m (mean q) NaN = Fin (value oc))
       /\ off (campaign (with_counts laws ns)) value (expect (nth (length laws - 1) laws []) (rfine m)) eps <= 3 * target / eps ^ 2.
Proof.
  intros t laws target n_ops Ht Hg Hn Hc Htg. destruct (suggested t laws target n_ops Ht Hg Hn Hc Htg) as (ns & E & El & Hp & H).
  exists ns. split; [exact E|]. split; [exact El|]. intros m store eps Hm Hs Hma He. destruct (H m store Hm Hs) as (v & V1 & V2 & V3).
  exists v. split; [exact V1|]. rewrite <- (V3 Hma). eapply Rle_trans.
  - apply chebyshev; [|exact He]. apply campaign_proper. eapply planned_proper; eauto.
  - apply Rmult_le_compat_r; [|exact V2]. apply Rlt_le, Rinv_0_lt_compat, pow_lt, He.
Qed.

(** * Examples *)
Lemma two_stores k (ls : list (dist rsample * nat)) : length ls = 2%nat -> planned k 1 ls -> stores 1 ls ex_store.
Proof.
  intros L2 Hp p oc Hin. destruct (outcome_level _ _ _ _ _ Hp Hin) as [_ Hlev]. rewrite L2 in Hlev |- *.
  assert (Hone : forall l, (l < 2)%nat -> map (fun v => [v]) (map (fun s => map Fin (nth 0 s [])) (nth l oc [])) = map (map (map Fin)) (nth l oc [])).
  { intros l Hl. rewrite map_map. apply map_ext_in. intros s Hs. destruct (Hlev l Hl) as [_ Hf]. destruct (Hf s Hs) as [H1 _].
    destruct s as [|v [|]]; try discriminate H1. reflexivity. }
  split.
  - intros l x Hlx. assert (Hx : (l < 2)%nat /\ x = [map (fun s => map Fin (nth 0 s [])) (nth l oc [])]) by (destruct Hlx as [H|[H|[]]]; injection H as <- <-; split; (lia || reflexivity)).
    destruct Hx as [Hl ->]. split; [exact Hl|]. exists (length (nth l oc [])). unfold shaped. split; [reflexivity|].
    intros row [<-|[]]. split; [apply map_length|]. intros c Hc. apply in_map_iff in Hc as (s & <- & Hs). rewrite map_length.
    destruct (Hlev l Hl) as [_ Hf]. destruct (Hf s Hs) as [H1 H2]. apply H2. apply nth_In. lia.
  - intros l Hl. unfold level_samples, ex_store. destruct l as [|[|l]]; [| |lia]; cbn [map flat_map fst snd Nat.eqb]; rewrite one_row, ?app_nil_r, ?app_nil_l; apply Hone; lia.
Qed.

(** Both levels have differences 1 and -1 with probability one half, costs 1 and 100: numbers 2000 and 1100. *)
Definition coin_laws : list (dist rsample) := [[(/2, [[1]]); (/2, [[-1]])]; [(/2, [[2; 1]]); (/2, [[-2; -1]])]].
Lemma coin_good : good_laws 1 coin_laws.
Proof.
  split; [discriminate|]. intros l Hl. destruct l as [|[|l]]; [| |cbn in Hl; lia]; (split; [split; [intros p x [H|[H|[]]]; injection H as <- _; lra|cbn; lra]|]);
    intros p s [H|[H|[]]]; injection H as _ <-; (split; [reflexivity|]); intros v [<-|[]]; reflexivity.
Qed.
Lemma coin_vars : true_vars 1 coin_laws = AllocProps.demo_vars.
Proof.
  unfold true_vars, AllocProps.demo_vars. cbn [coin_laws length seq map nth]. unfold variance, expect, rdiff, rfine, rcoarse. cbn -[pow].
  repeat f_equal; field.
Qed.
Lemma coin_numbers : AllocModel.estimate_n (/ 1000) (true_vars 1 coin_laws) AllocProps.demo_ops 2 = Ok [2000; 1100]%Z.
Proof. rewrite coin_vars. apply AllocProps.demo_value. Qed.
Lemma coin_matched : matched coin_laws 0.
Proof. intros l Hl. destruct l as [|l]; [|cbn in Hl; lia]. unfold expect, rcoarse, rfine. cbn. lra. Qed.
Lemma demo_costs : forall l, (l < 2)%nat -> 0 < nth l AllocProps.demo_ops 0.
Proof. intros [|[|l]] Hl; cbn; try lra. lia. Qed.

Theorem C171_target_refuted : exists (t : qtype skey) laws target n_ops ns store value, size t = 1%nat /\ good_laws 1 laws /\ matched laws 0 /\ length n_ops = length laws
  /\ (forall l, (l < length laws)%nat -> 0 < nth l n_ops 0) /\ 0 < target
  /\ AllocModel.estimate_n target (true_vars 1 laws) n_ops (length laws) = Ok ns
  /\ stores 1 (with_counts laws ns) store
  /\ (forall p oc, In (p, oc) (campaign (with_counts laws ns)) -> exists q,
          estimate_mean t (length laws) (read (store oc)) = Ok q /\ nth 0 (mean q) NaN = Fin (value oc))
  /\ 14 / 10 * target < variance (campaign (with_counts laws ns)) value.
Proof.
  assert (Hp : planned 1 1 (with_counts coin_laws [2000; 1100]%Z)).
  { split; [discriminate|]. intros l Hl. rewrite counts_length in Hl by reflexivity. unfold law, count. rewrite counts_nth by (auto; reflexivity). cbn [fst snd].
    destruct (proj2 coin_good l Hl) as [A B]. split; [exact A|]. split; [|exact B]. destruct l as [|[|l]]; cbn [nth]; [lia|lia|cbn in Hl; lia]. }
  assert (Hs : stores 1 (with_counts coin_laws [2000; 1100]%Z) ex_store) by (apply (two_stores 1); [reflexivity|exact Hp]).
  destruct (C166_variance QScalar (with_counts coin_laws [2000; 1100]%Z) 0 ex_store) as (v & V1 & V2); [discriminate|cbn; lia|exact Hp|exact Hs|].
  exists QScalar, coin_laws, (/ 1000), AllocProps.demo_ops, [2000; 1100]%Z, ex_store, v.
  split; [reflexivity|]. split; [exact coin_good|]. split; [exact coin_matched|]. split; [reflexivity|]. split; [exact demo_costs|]. split; [lra|].
  split; [exact coin_numbers|]. split; [exact Hs|]. split; [exact V1|]. rewrite V2, counts_length by reflexivity. cbn [coin_laws length seq map].
  unfold law, count. rewrite !counts_nth by (cbn; lia). cbn [fst snd nth]. rewrite !INR_IZR_INZ, !Z2Nat.id by lia.
  rewrite <- (true_vars_entry 1 coin_laws 0 0), <- (true_vars_entry 1 coin_laws 1 0) by (cbn; lia). rewrite coin_vars. cbn -[IZR]. lra.
Qed.
(** The reported mean is off 0 by one or more with probability at most 0.003. *)
Example C172_ex : exists value : list (list rsample) -> R,
  (forall p oc, In (p, oc) (campaign (with_counts coin_laws [2000; 1100]%Z)) -> exists q,
     estimate_mean (@QScalar skey) 2 (read (ex_store oc)) = Ok q /\ nth 0 (mean q) NaN = Fin (value oc))
  /\ off (campaign (with_counts coin_laws [2000; 1100]%Z)) value 0 1 <= 3 / 1000.
Proof.
  destruct (C172_large_error QScalar coin_laws (/ 1000) AllocProps.demo_ops) as (ns & E & _ & H); [discriminate|exact coin_good|reflexivity|exact demo_costs|lra|].
  change (size QScalar) with 1%nat in E. change (length coin_laws) with 2%nat in E. rewrite coin_numbers in E. assert (ns = [2000; 1100]%Z) as -> by congruence.
  assert (Hp : planned 1 1 (with_counts coin_laws [2000; 1100]%Z)).
  { split; [discriminate|]. intros l Hl. rewrite counts_length in Hl by reflexivity. unfold law, count. rewrite counts_nth by (auto; reflexivity). cbn [fst snd].
    destruct (proj2 coin_good l Hl) as [A B]. split; [exact A|]. split; [|exact B]. destruct l as [|[|l]]; cbn [nth]; [lia|lia|cbn in Hl; lia]. }
  destruct (H 0%nat ex_store 1) as (v & V1 & V2); [cbn; lia|apply (two_stores 1); [reflexivity|exact Hp]|exact coin_matched|lra|].
  exists v. split; [exact V1|]. match type of V2 with off _ _ ?c _ <= _ => replace c with 0 in V2 by (unfold expect, rfine; cbn; lra) end. lra.
Qed.

Print Assumptions C171_target_partial.
Print Assumptions C171_target_refuted.
Print Assumptions C172_large_error.
