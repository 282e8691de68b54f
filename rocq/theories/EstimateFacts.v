(** Chunk independence, variances, totals, linearity and telescoping of the mean estimate. *)
From Coq Require Import Lra.
From Verif Require Import Base BaseFacts QTypeModel QuantityModel QuantitySpec NumModel NumFacts EstimateModel EstimateSpec EstimateProofs.

(** * Chunk independence *)
Lemma perm_filter {A} (f : A -> bool) l l' : Permutation l l' -> Permutation (filter f l) (filter f l').
Proof.
  induction 1 as [|x l l' H IH|x y l|l l1 l2 H1 IH1 H2 IH2]; cbn; auto.
  - destruct (f x); auto.
  - destruct (f x), (f y); auto. apply perm_swap.
  - now transitivity (filter f l1).
Qed.
Lemma reference_perm {K} (t : qtype K) L cs cs' : (forall l, l < L -> Permutation (level_samples cs l) (level_samples cs' l)) ->
  reference t L cs = reference t L cs'.
Proof.
  intros H.
  assert (Hu : forall l, l < L -> Permutation (used cs l) (used cs' l)) by (intros; now apply perm_filter, H).
  assert (Hn : forall l, l < L -> length (used cs l) = length (used cs' l)) by (intros; now apply Permutation_length, Hu).
  unfold reference. replace (none_used L cs') with (none_used L cs).
  2:{ unfold none_used. apply eq_true_iff_eq. rewrite !forallb_forall.
      split; intros HH l Hl; specialize (HH l Hl); apply in_seq in Hl; (rewrite Hn in * by lia || rewrite <- Hn in * by lia); auto. }
  destruct (none_used L cs); auto. f_equal. f_equal.
  - apply table_ext. intros l m Hl Hm. rewrite (Hn l Hl). f_equal. apply nsum_perm. now apply Permutation_map, Hu.
  - apply table_ext. intros l m Hl Hm. unfold ref_var, differences. rewrite !map_length, (Hn l Hl).
    rewrite (nsum_perm _ _ (Permutation_map (difference l m) (Hu l Hl))).
    now rewrite (nsum_perm _ _ (Permutation_map nsq (Permutation_map (difference l m) (Hu l Hl)))).
  - apply map_ext_in. intros l Hl. apply in_seq in Hl. apply Hn. lia.
  - apply map_ext_in. intros l Hl. apply in_seq in Hl. apply Permutation_length, perm_filter, H. lia.
Qed.

(** * Values *)
Lemma reference_ok {K} (t : qtype K) L cs q : reference t L cs = Ok q ->
  q_type q = t /\ q_means q = table (size t) L (fun l m => ndivn (nsum (differences cs l m)) (length (used cs l)))
  /\ q_vars q = table (size t) L (fun l m => ref_var (differences cs l m))
  /\ q_n q = map (fun l => length (used cs l)) (seq 0 L)
  /\ q_rm q = map (fun l => length (filter (fun s => negb (usable s)) (level_samples cs l))) (seq 0 L).
Proof. unfold reference. destruct (none_used L cs); [discriminate|]. intros H. injection H as <-. cbn. auto. Qed.

Lemma seq_cell {A} (f : nat -> A) L l d : l < L -> nth l (map f (seq 0 L)) d = f l.
Proof.
  intros H. rewrite (nth_indep _ d (f 0)) by (now rewrite map_length, seq_length). now rewrite (map_nth f), seq_nth.
Qed.
Lemma var_sum d : (length d <> 0)%nat ->
  rsum (map (fun x => (x - rmean d) ^ 2)%R d) = (rsum (map (fun x => x * x)%R d) - (rsum d * rsum d) / INR (length d))%R.
Proof.
  intros Hn. assert (HR : INR (length d) <> 0%R) by now apply not_0_INR.
  set (mu := rmean d).
  transitivity (rsum (map (fun x => x * x + ((- 2 * mu) * x + mu * mu)) d)%R).
  { apply rsum_ext. intros x _. ring. }
  rewrite !rsum_map_add, rsum_map_mul, map_id, rsum_const. unfold mu, rmean. field. auto.
Qed.
Lemma ref_var_fin d : (1 < length d)%nat -> ref_var (map Fin d) = Fin (rvar d).
Proof.
  intros Hn. unfold ref_var. rewrite map_length. destruct (Nat.ltb_spec 1 (length d)); [|lia].
  rewrite nsum_fin. rewrite map_map.
  replace (map (fun x => nsq (Fin x)) d) with (map Fin (map (fun x => x * x)%R d)) by (rewrite map_map; reflexivity).
  rewrite nsum_fin. unfold nsq. rewrite nmul_fin, ndivn_fin by lia. cbn [nsub nneg nadd]. rewrite ndivn_fin by lia.
  f_equal. unfold rvar. rewrite var_sum by lia. rewrite minus_INR by lia. change (INR 1) with 1%R.
  unfold Rdiv, Rminus. reflexivity.
Qed.
Lemma rvar_nonneg d : (1 < length d)%nat -> (0 <= rvar d)%R.
Proof.
  intros Hn. unfold rvar. apply Rmult_le_pos.
  - apply rsum_nonneg. intros x Hx. apply in_map_iff in Hx as (y & <- & _). apply pow2_ge_0.
  - apply Rlt_le, Rinv_0_lt_compat. apply lt_INR in Hn. change (INR 1) with 1%R in Hn. lra.
Qed.
Lemma rmean_const d a : d <> [] -> (forall x, In x d -> x = a) -> rmean d = a.
Proof.
  intros Hd H. unfold rmean. replace (rsum d) with (rsum (map (fun _ : R => a) d)).
  - rewrite rsum_const. field. apply not_0_INR. destruct d; [easy|]. discriminate.
  - rewrite <- (map_id d) at 2. apply rsum_ext. intros x Hx. now rewrite (H x Hx).
Qed.
Lemma rvar_zero d : (1 < length d)%nat -> (rvar d = 0%R <-> forall x y, In x d -> In y d -> x = y).
Proof.
  intros Hn. pose proof (lt_INR _ _ Hn) as HR. change (INR 1) with 1%R in HR.
  assert (Hq : forall z, In z (map (fun x => (x - rmean d) ^ 2)%R d) -> (0 <= z)%R).
  { intros z Hz. apply in_map_iff in Hz as (y & <- & _). apply pow2_ge_0. }
  split.
  - intros H. unfold rvar in H. assert (Hs : rsum (map (fun x => (x - rmean d) ^ 2)%R d) = 0%R).
    { assert (HH : (/ (INR (length d) - 1) <> 0)%R) by (apply Rinv_neq_0_compat; lra).
      unfold Rdiv in H. apply Rmult_integral in H as [H|H]; [exact H|contradiction]. }
    assert (Hm : forall x, In x d -> x = rmean d).
    { intros x Hx. pose proof (rsum_zero _ Hq Hs ((x - rmean d) ^ 2)%R) as Hz.
      assert (E : ((x - rmean d) ^ 2 = 0)%R) by (apply Hz; apply in_map_iff; eauto). nra. }
    intros x y Hx Hy. rewrite (Hm x Hx), (Hm y Hy). reflexivity.
  - intros H. destruct d as [|a d']; [cbn in Hn; lia|]. unfold rvar.
    assert (Hm : rmean (a :: d') = a) by (apply rmean_const; [easy|intros x Hx; apply H; [auto|now left]]).
    rewrite Hm. replace (rsum _) with 0%R; [unfold Rdiv; ring|]. symmetry.
    transitivity (rsum (map (fun _ : R => 0%R) (a :: d'))).
    + apply rsum_ext. intros x Hx. rewrite (H x a Hx (or_introl eq_refl)). ring.
    + rewrite rsum_const. ring.
Qed.

(** A finite sum has finite terms. *)
Lemma nadd_fin x y r : nadd x y = Fin r -> finite x /\ finite y.
Proof. destruct x, y; cbn; intros H; try discriminate; split; eexists; eauto. Qed.
Lemma nsum_fin_inv l r : nsum l = Fin r -> forall x, In x l -> finite x.
Proof.
  revert r. induction l as [|y l IH]; intros r H x Hx; [easy|]. rewrite nsum_cons in H. apply nadd_fin in H as [H1 [r' H2]].
  destruct Hx as [<-|Hx]; eauto.
Qed.
Lemma nsq_fin_inv x : finite (nsq x) -> finite x.
Proof. intros [r H]. destruct x; cbn in H; try discriminate. eexists; eauto. Qed.
Lemma ref_var_fin_inv d v : ref_var d = Fin v -> exists rs, d = map Fin rs /\ (1 < length rs)%nat /\ v = rvar rs.
Proof.
  unfold ref_var. destruct (Nat.ltb_spec 1 (length d)) as [Hn|]; [|discriminate]. intros H.
  assert (Hs : exists A, nsum (map nsq d) = Fin A).
  { destruct (nsum (map nsq d)) as [A| | |] eqn:E; eauto; exfalso;
      destruct (ndivn (nsq (nsum d)) (length d)); cbn in H; discriminate. }
  destruct Hs as [A HA].
  destruct (fin_list d) as [rs ->].
  { intros x Hx. apply nsq_fin_inv. apply (nsum_fin_inv _ _ HA). apply in_map_iff. eauto. }
  rewrite map_length in Hn. exists rs. ands; auto. pose proof (ref_var_fin rs Hn) as E. unfold ref_var in E. rewrite map_length in E, H.
  destruct (Nat.ltb_spec 1 (length rs)); [|lia]. congruence.
Qed.

(** * Totals *)
Lemma sum_levels_table M L f : sum_levels M (table M L f) = map (fun m => nsum (map (fun l => f l m) (seq 0 L))) (seq 0 M).
Proof.
  unfold sum_levels, table. induction (seq 0 L) as [|l ls IH]; cbn [map fold_right].
  - rewrite repeat_seq. reflexivity.
  - rewrite IH, vadd_seq. reflexivity.
Qed.
Lemma vars_over_n M L f (n : nat -> nat) :
  map (fun p => map (fun v => ndivn v (snd p)) (fst p)) (combine (table M L f) (map n (seq 0 L))) = table M L (fun l m => ndivn (f l m) (n l)).
Proof. unfold table. rewrite combine_map, map_map. apply map_ext. intros l. cbn. now rewrite map_map. Qed.

(** * Finiteness *)
Lemma nsum_all_fin l : (forall x, In x l -> finite x) -> finite (nsum l).
Proof. intros H. destruct (fin_list l H) as [rs ->]. rewrite nsum_fin. eexists; eauto. Qed.
Lemma nsub_fin x y : finite x -> finite y -> finite (nsub x y).
Proof. intros [a ->] [b ->]. cbn. eexists; eauto. Qed.
