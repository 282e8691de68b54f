(** Expected value and variance of the multilevel estimate of the mean. *)
From Coq Require Import Reals Lra.
From Verif Require Import Base BaseFacts QTypeModel QuantityModel QuantitySpec NumModel NumFacts EstimateModel EstimateSpec EstimateProofs EstimateFacts EstimateProps.
From Verif Require Import ProbSpec ProbFacts.
Local Open Scope R_scope.

Lemma fin_usable (s : rsample) : usable (map (map Fin) s) = true.
Proof.
  unfold usable. apply forallb_forall. intros v Hv. apply in_map_iff in Hv as (w & <- & _). apply forallb_forall. intros x Hx.
  apply in_map_iff in Hx as (r & <- & _). reflexivity.
Qed.
Lemma fin_difference M l m (s : rsample) : fit M l s -> (m < M)%nat -> difference l m (map (map Fin) s) = Fin (rdiff l m s).
Proof.
  intros [HM Hp] Hm. unfold difference, rdiff, rfine, rcoarse.
  rewrite (nth_indep _ _ (map Fin [])) by (rewrite map_length; lia). rewrite map_nth.
  assert (Hl : length (nth m s []) = parts l) by (apply Hp, nth_In; lia). unfold parts in Hl.
  destruct (Nat.eqb l 0); destruct (nth m s []) as [|a [|b [|]]]; cbn in Hl |- *; try lia; auto.
Qed.
Lemma filter_all {A} (f : A -> bool) l : (forall x, In x l -> f x = true) -> filter f l = l.
Proof. induction l as [|x l IH]; intros H; [reflexivity|]. cbn. rewrite (H x) by now left. f_equal. apply IH. intros y Hy. apply H. now right. Qed.
Lemma held_differences M L oc cs l m : (m < M)%nat -> holds L oc cs -> (l < L)%nat -> (forall s, In s (nth l oc []) -> fit M l s) ->
  length (used cs l) = length (nth l oc []) /\ differences cs l m = map Fin (map (rdiff l m) (nth l oc [])).
Proof.
  intros Hm Hh Hl Hf. assert (Eu : used cs l = map (map (map Fin)) (nth l oc [])).
  { unfold used. rewrite (Hh l Hl). apply filter_all. intros s Hs. apply in_map_iff in Hs as (r & <- & _). apply fin_usable. }
  unfold differences. rewrite Eu, map_length. split; [reflexivity|]. rewrite !map_map. apply map_ext_in. intros s Hs. apply (fin_difference M); auto.
Qed.

(** The values of the estimate. *)
Definition level_mean (m l : nat) (xs : list rsample) : R := rmean (map (rdiff l m) xs).
Definition level_var (m l : nat) (xs : list rsample) : R := rvar (map (rdiff l m) xs) / INR (length xs).

Lemma outcome_level k M ls p oc : planned k M ls -> In (p, oc) (campaign ls) -> length oc = length ls /\
  forall l, (l < length ls)%nat -> length (nth l oc []) = count ls l /\ forall s, In s (nth l oc []) -> fit M l s.
Proof.
  intros [_ Hp] Hin. destruct (campaign_in _ _ _ Hin) as [HL Hd]. split; [exact HL|]. intros l Hl. destruct (Hd l Hl) as (q & Hq).
  apply draws_in in Hq as [L I]. split; [exact L|]. intros s Hs. destruct (I s Hs) as (q' & Hq'). destruct (Hp l Hl) as (_ & _ & Hf). now apply (Hf q').
Qed.
Lemma planned_proper k M ls : planned k M ls -> all_proper ls.
Proof. intros [_ Hp] x Hx. destruct (In_nth _ _ ([], O) Hx) as (l & Hl & <-). apply (Hp l Hl). Qed.

Lemma estimate_holds (t : qtype skey) k oc cs m : size t <> O -> (m < size t)%nat -> (1 <= k)%nat -> oc <> [] ->
  (forall l, (l < length oc)%nat -> (k <= length (nth l oc []))%nat /\ forall s, In s (nth l oc []) -> fit (size t) l s) ->
  chunks_ok (size t) (length oc) cs -> holds (length oc) oc cs ->
  exists q, estimate_mean t (length oc) (read cs) = Ok q
    /\ nth m (mean q) NaN = Fin (total (level_mean m) 0 oc)
    /\ ((2 <= k)%nat -> nth m (var q) NaN = Fin (total (level_var m) 0 oc)).
Proof.
  intros Ht Hm Hk Hne Hlev Hc Hh.
  assert (Hd : forall l, (l < length oc)%nat -> length (used cs l) = length (nth l oc []) /\ differences cs l m = map Fin (map (rdiff l m) (nth l oc []))).
  { intros l Hl. apply (held_differences (size t) (length oc)); auto. apply Hlev; auto. }
  destruct (estimate_mean t (length oc) (read cs)) as [q|e] eqn:E.
  2:{ exfalso. destruct (C39_none_usable t (length oc) cs Ht Hc) as [H1 H2]. rewrite (H2 e E) in E. 
      assert (H0 : (0 < length oc)%nat) by (destruct oc; [contradiction|cbn; lia]).
      destruct (Hlev O H0) as [Hn _].
      destruct (nth 0 oc []) as [|s r] eqn:En; [cbn in Hn; lia|].
      pose proof (proj1 H1 E O (map (map Fin) s) H0) as Hu. rewrite fin_usable in Hu. discriminate Hu.
      rewrite (Hh O H0), En. now left. }
  exists q. split; [reflexivity|]. destruct (C42_totals t _ _ q m Ht Hc E Hm) as [Em Ev]. rewrite Em, Ev, !total_seq.
  assert (Hcell : forall l, (l < length oc)%nat -> nth l (q_n q) O = length (nth l oc []) /\ cell (q_means q) l m = Fin (level_mean m l (nth l oc []))
     /\ ((2 <= k)%nat -> cell (q_vars q) l m = Fin (rvar (map (rdiff l m) (nth l oc []))))).
  { intros l Hl. destruct (C38_values t _ _ q l Ht Hc E Hl) as (_ & _ & _ & _ & Hn & Hv). destruct (Hd l Hl) as [Hu Hdd].
    destruct (Hlev l Hl) as [Hcount _].
    destruct (Hv m _ Hm Hdd) as [V1 V2].
    { destruct (nth l oc []); [cbn in Hcount; lia|discriminate]. }
    split; [now rewrite Hn|]. split; [exact V1|]. intros H2. apply V2. rewrite map_length. lia. }
  split.
  - rewrite <- nsum_fin, map_map. f_equal. apply map_ext_in. intros l Hl. apply in_seq in Hl. now destruct (Hcell l ltac:(lia)) as (_ & -> & _).
  - intros H2. rewrite <- nsum_fin, map_map. f_equal. apply map_ext_in. intros l Hl. apply in_seq in Hl.
    destruct (Hcell l ltac:(lia)) as (-> & _ & Hv). rewrite (Hv H2). destruct (Hlev l ltac:(lia)) as [Hcount _].
    rewrite ndivn_fin by lia. reflexivity.
Qed.
Lemma estimate_exists (t : qtype skey) k ls m store p oc : size t <> O -> (m < size t)%nat -> (1 <= k)%nat -> planned k (size t) ls -> stores (size t) ls store ->
  In (p, oc) (campaign ls) -> exists q, estimate_mean t (length ls) (read (store oc)) = Ok q
    /\ nth m (mean q) NaN = Fin (total (level_mean m) 0 oc)
    /\ ((2 <= k)%nat -> nth m (var q) NaN = Fin (total (level_var m) 0 oc)).
Proof.
  intros Ht Hm Hk Hp Hs Hin. destruct (Hs p oc Hin) as [Hc Hh]. destruct (outcome_level _ _ _ _ _ Hp Hin) as [HL Hlev].
  destruct Hp as [Hne Hp]. rewrite <- HL in *. apply estimate_holds; auto.
  - intros ->. destruct ls; [contradiction|discriminate].
  - intros l Hl. destruct (Hlev l Hl) as [Hcount Hf]. destruct (Hp l Hl) as (_ & Hk' & _). split; [lia|exact Hf].
Qed.

(** Differences of matching levels add up to the fine value of the last level. *)
Lemma rdiff_expect d l m : expect d (rdiff l m) = if Nat.eqb l 0 then expect d (rfine m) else expect d (rfine m) - expect d (rcoarse m).
Proof.
  unfold rdiff. destruct (Nat.eqb l 0); [reflexivity|]. rewrite (expect_ext _ _ (fun s => rfine m s + -1 * rcoarse m s)) by (intros; ring).
  rewrite expect_add, expect_scal. ring.
Qed.
Lemma telescope ls m : matching ls m -> forall n, (n < length ls)%nat ->
  rsum (map (fun l => expect (law ls l) (rdiff l m)) (seq 0 (S n))) = expect (law ls n) (rfine m).
Proof.
  intros Hm. induction n as [|n IH]; intros Hn.
  - cbn [seq map]. rewrite rsum_cons, rdiff_expect. cbn. ring.
  - rewrite seq_S, map_app, rsum_app, IH by lia. cbn [map Nat.add]. rewrite rsum_cons, rdiff_expect. cbn [Nat.eqb]. rewrite (Hm n Hn). cbn [rsum fold_right]. ring.
Qed.

(** ** C165: the estimate of the mean is unbiased. *)
Theorem C165_unbiased : forall (t : qtype skey) ls m store, size t <> O -> (m < size t)%nat -> planned 1 (size t) ls -> stores (size t) ls store ->
  exists value : list (list rsample) -> R,
    (forall p oc, In (p, oc) (campaign ls) -> exists q, estimate_mean t (length ls) (read (store oc)) = Ok q /\ nth m (mean q) NaN = Fin (value oc))
    /\ expect (campaign ls) value = rsum (map (fun l => expect (law ls l) (rdiff l m)) (seq 0 (length ls)))
    /\ (matching ls m -> expect (campaign ls) value = expect (law ls (length ls - 1)) (rfine m)).
Proof.
  intros t ls m store Ht Hm Hp Hs. exists (total (level_mean m) 0).
  assert (E : expect (campaign ls) (total (level_mean m) 0) = rsum (map (fun l => expect (law ls l) (rdiff l m)) (seq 0 (length ls)))).
  { rewrite expect_total by (eapply planned_proper; eauto). rewrite sum_from_seq. apply rsum_ext. intros l Hl. apply in_seq in Hl.
    destruct Hp as [_ Hp]. destruct (Hp l ltac:(lia)) as (H1 & H2 & _). cbn [Nat.add]. apply (expect_mean (law ls l) H1 (rdiff l m) (count ls l) H2). }
  split; [|split; [exact E|]].
  - intros p oc Hin. destruct (estimate_exists t 1 ls m store p oc) as (q & Eq & Em & _); eauto.
  - intros Hma. rewrite E. assert (Hl : (0 < length ls)%nat) by (destruct Hp as [Hne _]; destruct ls; [contradiction|cbn; lia]).
    rewrite <- (telescope ls m Hma (length ls - 1)) by lia. now replace (S (length ls - 1)) with (length ls) by lia.
Qed.
Print Assumptions C165_unbiased.

(** ** C166: the variance of the estimate is the sum of level variances over the numbers of samples. *)
Theorem C166_variance : forall (t : qtype skey) ls m store, size t <> O -> (m < size t)%nat -> planned 1 (size t) ls -> stores (size t) ls store ->
  exists value : list (list rsample) -> R,
    (forall p oc, In (p, oc) (campaign ls) -> exists q, estimate_mean t (length ls) (read (store oc)) = Ok q /\ nth m (mean q) NaN = Fin (value oc))
    /\ variance (campaign ls) value = rsum (map (fun l => variance (law ls l) (rdiff l m) / INR (count ls l)) (seq 0 (length ls))).
Proof.
  intros t ls m store Ht Hm Hp Hs. exists (total (level_mean m) 0). split.
  - intros p oc Hin. destruct (estimate_exists t 1 ls m store p oc) as (q & Eq & Em & _); eauto.
  - rewrite variance_total by (eapply planned_proper; eauto). rewrite sum_from_seq. apply rsum_ext. intros l Hl. apply in_seq in Hl.
    destruct Hp as [_ Hp]. destruct (Hp l ltac:(lia)) as (H1 & H2 & _). cbn [Nat.add]. apply (variance_mean (law ls l) H1 (rdiff l m) (count ls l) H2).
Qed.
Print Assumptions C166_variance.

(** ** C167: the reported variance is an unbiased estimate of the variance of the mean estimate. *)
Theorem C167_reported : forall (t : qtype skey) ls m store, size t <> O -> (m < size t)%nat -> planned 2 (size t) ls -> stores (size t) ls store ->
  exists value reported : list (list rsample) -> R,
    (forall p oc, In (p, oc) (campaign ls) -> exists q, estimate_mean t (length ls) (read (store oc)) = Ok q
       /\ nth m (mean q) NaN = Fin (value oc) /\ nth m (var q) NaN = Fin (reported oc))
    /\ expect (campaign ls) reported = variance (campaign ls) value.
Proof.
  intros t ls m store Ht Hm Hp Hs. exists (total (level_mean m) 0), (total (level_var m) 0). split.
  - intros p oc Hin. destruct (estimate_exists t 2 ls m store p oc) as (q & Eq & Em & Ev); eauto.
  - rewrite variance_total, expect_total by (eapply planned_proper; eauto). rewrite !sum_from_seq. apply rsum_ext. intros l Hl. apply in_seq in Hl.
    destruct Hp as [_ Hp]. destruct (Hp l ltac:(lia)) as (H1 & H2 & _). cbn [Nat.add]. change (fst (nth l ls ([], O))) with (law ls l). change (snd (nth l ls ([], O))) with (count ls l).
    unfold level_mean. rewrite (variance_mean (law ls l) H1 (rdiff l m) (count ls l)) by lia.
    rewrite <- (expect_rvar (law ls l) H1 (rdiff l m) (count ls l)) by lia. unfold level_var.
    rewrite (expect_ext _ _ (fun xs => / INR (count ls l) * rvar (map (rdiff l m) xs))).
    + rewrite expect_scal. unfold Rdiv. ring.
    + intros q xs Hxs. apply draws_in in Hxs as [-> _]. unfold Rdiv. ring.
Qed.
Print Assumptions C167_reported.

(** A campaign of two levels, the results of a level in one chunk. *)
Definition ex_laws : list (dist rsample * nat) :=
  [([(/2, [[1]]); (/2, [[3]])], 3%nat); ([(/4, [[2; 1]]); (/4, [[1; 1]]); (/2, [[5; 3]])], 2%nat)].
Definition ex_store (oc : list (list rsample)) : list (nat * arr num) :=
  map (fun l => (l, [map (fun s => map Fin (nth 0 s [])) (nth l oc [])])) [0; 1]%nat.
Lemma ex_planned : planned 2 1 ex_laws.
Proof.
  split; [discriminate|]. intros l Hl. destruct l as [|[|l]]; [| |cbn in Hl; lia].
  - split; [|split; [cbn; lia|]].
    + split; [intros p x [H|[H|[]]]; injection H as <- _; lra|cbn; lra].
    + intros p s [H|[H|[]]]; injection H as _ <-; (split; [reflexivity|]); intros v [<-|[]]; reflexivity.
  - split; [|split; [cbn; lia|]].
    + split; [intros p x [H|[H|[H|[]]]]; injection H as <- _; lra|cbn; lra].
    + intros p s [H|[H|[H|[]]]]; injection H as _ <-; (split; [reflexivity|]); intros v [<-|[]]; reflexivity.
Qed.
Lemma one_row (row : list (list num)) : samples_of [row] = map (fun v => [v]) row.
Proof. unfold samples_of. cbn [map]. apply nth_error_ext. intros i. rewrite !nth_error_map, nth_error_seq.
  destruct (i <? length row)%nat eqn:E; [apply Nat.ltb_lt in E|apply Nat.ltb_ge in E]; cbn [option_map].
  - now rewrite (nth_error_nth' row [] E). - now rewrite (proj2 (nth_error_None row i) E).
Qed.
Lemma ex_stores : stores 1 ex_laws ex_store.
Proof.
  intros p oc Hin. destruct (outcome_level _ _ _ _ _ ex_planned Hin) as [_ Hlev].
  assert (Hone : forall l, (l < 2)%nat -> map (fun v => [v]) (map (fun s => map Fin (nth 0 s [])) (nth l oc [])) = map (map (map Fin)) (nth l oc [])).
  { intros l Hl. rewrite map_map. apply map_ext_in. intros s Hs. destruct (Hlev l Hl) as [_ Hf]. destruct (Hf s Hs) as [H1 _].
    destruct s as [|v [|]]; try discriminate H1. reflexivity. }
  split.
  - intros l x Hlx. assert (Hx : (l < 2)%nat /\ x = [map (fun s => map Fin (nth 0 s [])) (nth l oc [])]) by (destruct Hlx as [H|[H|[]]]; injection H as <- <-; split; (lia || reflexivity)).
    destruct Hx as [Hl ->]. split; [exact Hl|]. exists (length (nth l oc [])). unfold shaped. split; [reflexivity|].
    intros row [<-|[]]. split; [apply map_length|]. intros c Hc. apply in_map_iff in Hc as (s & <- & Hs). rewrite map_length.
    destruct (Hlev l Hl) as [_ Hf]. destruct (Hf s Hs) as [H1 H2]. apply H2. apply nth_In. lia.
  - intros l Hl. unfold level_samples, ex_store. cbn in Hl. destruct l as [|[|l]]; [| |lia]; cbn [map flat_map fst snd Nat.eqb]; rewrite one_row, ?app_nil_r, ?app_nil_l; apply Hone; lia.
Qed.
Example C165_ex : matching ex_laws 0 /\ exists value : list (list rsample) -> R,
  (forall p oc, In (p, oc) (campaign ex_laws) -> exists q, estimate_mean (@QScalar skey) 2 (read (ex_store oc)) = Ok q /\ nth 0 (mean q) NaN = Fin (value oc))
  /\ expect (campaign ex_laws) value = 13 / 4.
Proof.
  assert (Hm : matching ex_laws 0).
  { intros l Hl. destruct l; [|cbn in Hl; lia]. unfold law, expect, rcoarse, rfine. cbn. lra. }
  split; [exact Hm|]. destruct (C165_unbiased QScalar ex_laws 0 ex_store) as (v & H1 & _ & H3); auto using ex_stores.
  - cbn. lia. - destruct ex_planned as [H0 H]. split; [exact H0|]. intros l Hl. destruct (H l Hl) as (A & B & C). split; [exact A|]. split; [lia|exact C].
  - exists v. split; [exact H1|]. rewrite (H3 Hm). unfold law, expect, rfine. cbn. lra.
Qed.
Example C167_ex : exists value reported : list (list rsample) -> R,
  (forall p oc, In (p, oc) (campaign ex_laws) -> exists q, estimate_mean (@QScalar skey) 2 (read (ex_store oc)) = Ok q
     /\ nth 0 (mean q) NaN = Fin (value oc) /\ nth 0 (var q) NaN = Fin (reported oc))
  /\ expect (campaign ex_laws) reported = variance (campaign ex_laws) value.
Proof. destruct (C167_reported QScalar ex_laws 0 ex_store) as (v & r & H); [discriminate|cbn; lia|exact ex_planned|exact ex_stores|]. exists v, r. exact H. Qed.
Example C166_ex : exists value : list (list rsample) -> R,
  (forall p oc, In (p, oc) (campaign ex_laws) -> exists q, estimate_mean (@QScalar skey) 2 (read (ex_store oc)) = Ok q /\ nth 0 (mean q) NaN = Fin (value oc))
  /\ variance (campaign ex_laws) value = 65 / 96.
Proof.
  destruct (C166_variance QScalar ex_laws 0 ex_store) as (v & H1 & H2); [discriminate|cbn; lia| |exact ex_stores|].
  - destruct ex_planned as [H0 H]. split; [exact H0|]. intros l Hl. destruct (H l Hl) as (A & B & C). split; [exact A|]. split; [lia|exact C].
  - exists v. split; [exact H1|]. rewrite H2. cbn [length ex_laws seq map]. unfold law, count, variance, expect, rdiff, rfine, rcoarse. cbn. field.
Qed.
