(** Properties of estimates of the domain: C124-C127. *)
From Coq Require Import Lqa.
From Verif Require Import Base BaseFacts DomainModel DomainSpec.
Local Open Scope Q_scope.

Lemma finite_numbers l : finite l = numbers l.
Proof. unfold numbers. induction l as [|[x|] l IH]; cbn; congruence. Qed.

(** ** Sorted lists. *)
Lemma insert_perm x l : Permutation (insert x l) (x :: l).
Proof. induction l as [|y l IH]; cbn; [reflexivity|]. destruct (Qle_bool x y); [reflexivity|]. rewrite IH. apply perm_swap. Qed.
Lemma sort_perm l : Permutation (sort l) l.
Proof. induction l; cbn; [reflexivity|]. now rewrite insert_perm, IHl. Qed.
Inductive sorted : list Q -> Prop :=
| sorted_nil : sorted []
| sorted_cons x l : (forall y, In y l -> x <= y) -> sorted l -> sorted (x :: l).
Lemma insert_sorted x l : sorted l -> sorted (insert x l).
Proof.
  induction 1 as [|y l H S IH]; cbn; [constructor; [intros y []|constructor]|]. destruct (Qle_bool x y) eqn:E.
  - apply Qle_bool_iff in E. constructor; [|constructor; auto]. intros z [<-|Hz]; [exact E|]. specialize (H z Hz). lra.
  - assert (L : y <= x). { destruct (Qlt_le_dec x y) as [L|L]; [|exact L]. assert (Qle_bool x y = true) by (apply Qle_bool_iff; lra). congruence. }
    constructor; [|exact IH]. intros z Hz. apply (Permutation_in _ (insert_perm x l)) in Hz as [<-|Hz]; auto.
Qed.
Lemma sort_sorted l : sorted (sort l).
Proof. induction l; cbn; [constructor|]. now apply insert_sorted. Qed.
Lemma sorted_nth s i j : sorted s -> (i <= j < length s)%nat -> nth i s 0 <= nth j s 0.
Proof.
  intros S. revert i j. induction S as [|x l H S IH]; intros i j L; cbn in L; [lia|]. destruct j as [|j].
  - assert (i = 0)%nat as -> by lia. lra.
  - destruct i as [|i]; cbn [nth]; [apply H, nth_In; lia|]. apply IH. lia.
Qed.

(** ** Percentiles. *)
Definition idx (p : Q) (n : nat) : nat := Z.to_nat (Qfloor (p * inject_Z (Z.of_nat (n - 1)))).
Lemma idx_bounds p n : 0 <= p <= 1 -> (0 < n)%nat -> (idx p n <= n - 1)%nat
  /\ inject_Z (Z.of_nat (idx p n)) <= p * inject_Z (Z.of_nat (n - 1)) < inject_Z (Z.of_nat (idx p n)) + 1.
Proof.
  intros P N. unfold idx. set (m := Z.of_nat (n - 1)). set (h := p * inject_Z m).
  assert (M : 0 <= inject_Z m) by (change 0 with (inject_Z 0); rewrite <- Zle_Qle; unfold m; lia).
  assert (H0 : 0 <= h <= inject_Z m). { unfold h. split; [apply Qmult_le_0_compat; lra|]. setoid_replace (inject_Z m) with (1 * inject_Z m) at 2 by ring. apply Qmult_le_compat_r; lra. }
  pose proof (Qfloor_le h) as F1. pose proof (Qlt_floor h) as F2. rewrite inject_Z_plus in F2. change (inject_Z 1) with 1 in F2.
  assert (Z1 : (0 <= Qfloor h)%Z). { change 0%Z with (Qfloor 0). apply Qfloor_resp_le. lra. }
  assert (Z2 : (Qfloor h <= m)%Z). { rewrite <- (Qfloor_Z m). apply Qfloor_resp_le. lra. }
  split; [unfold m in Z2; lia|]. rewrite Z2Nat.id by exact Z1. lra.
Qed.
Lemma percentile_ok p l a : percentile p l = Ok a -> 0 <= p <= 1 /\ l <> [] /\
  let s := sort l in let n := length s in let k := idx p n in
  exists t, 0 <= t < 1 /\ a == nth k s 0 + (nth (Nat.min (S k) (n - 1)) s 0 - nth k s 0) * t /\ t == p * inject_Z (Z.of_nat (n - 1)) - inject_Z (Z.of_nat k).
Proof.
  unfold percentile. destruct (Qle_bool 0 p && Qle_bool p 1) eqn:E; [|discriminate]. cbn [negb]. apply andb_true_iff in E as [E1 E2].
  apply Qle_bool_iff in E1, E2. intros H. split; [split; assumption|].
  destruct l as [|x0 l0]; [discriminate|]. split; [discriminate|]. set (l := x0 :: l0) in *. cbv zeta.
  assert (N : (0 < length (sort l))%nat) by (rewrite (Permutation_length (sort_perm l)); cbn; lia).
  destruct (sort l) as [|y s'] eqn:ES; [cbn in N; lia|]. rewrite <- ES in *. clear ES y s'. set (s := sort l) in *.
  apply (f_equal (fun r => match r with Ok y => y | Err _ => 0 end)) in H. subst a.
  destruct (idx_bounds p (length s) (conj E1 E2) N) as [K1 [K2 K3]]. fold (idx p (length s)).
  assert (FZ : inject_Z (Z.of_nat (idx p (length s))) == inject_Z (Qfloor (p * inject_Z (Z.of_nat (length s - 1))))).
  { unfold idx. rewrite Z2Nat.id; [reflexivity|]. change 0%Z with (Qfloor 0). apply Qfloor_resp_le. apply Qmult_le_0_compat; [exact E1|].
    change 0 with (inject_Z 0). rewrite <- Zle_Qle. lia. }
  exists (p * inject_Z (Z.of_nat (length s - 1)) - inject_Z (Qfloor (p * inject_Z (Z.of_nat (length s - 1))))).
  rewrite <- FZ at 1. split; [lra|]. split; [reflexivity|]. rewrite FZ. reflexivity.
Qed.
(** A percentile lies between the values at its index and at the next one. *)
Lemma percentile_between p l a : percentile p l = Ok a ->
  let s := sort l in let n := length s in let k := idx p n in
  (0 < n)%nat /\ (k <= n - 1)%nat /\ nth k s 0 <= a <= nth (Nat.min (S k) (n - 1)) s 0.
Proof.
  intros H. destruct (percentile_ok p l a H) as (P & N & t & T & E & _). cbv zeta. set (s := sort l) in *.
  assert (L : (0 < length s)%nat). { unfold s. rewrite (Permutation_length (sort_perm l)). destruct l; [congruence|cbn; lia]. }
  destruct (idx_bounds p (length s) P L) as [K _]. split; [exact L|]. split; [exact K|].
  assert (D : nth (idx p (length s)) s 0 <= nth (Nat.min (S (idx p (length s))) (length s - 1)) s 0) by (apply sorted_nth; [apply sort_sorted|lia]).
  rewrite E. set (x := nth (idx p (length s)) s 0) in *. set (y := nth (Nat.min _ _) s 0) in *.
  assert (0 <= (y - x) * t) by (apply Qmult_le_0_compat; lra). assert (0 <= (y - x) * (1 - t)) by (apply Qmult_le_0_compat; lra). lra.
Qed.
Lemma percentile_mono p p' l a b : p <= p' -> percentile p l = Ok a -> percentile p' l = Ok b -> a <= b.
Proof.
  intros L Ha Hb. pose proof (percentile_between p l a Ha) as (N & K & Ba). pose proof (percentile_between p' l b Hb) as (_ & K' & Bb).
  destruct (percentile_ok p l a Ha) as (P & _ & t & T & E & Et). destruct (percentile_ok p' l b Hb) as (P' & _ & t' & T' & E' & Et').
  cbv zeta in *. set (s := sort l) in *. set (n := length s) in *.
  assert (M : 0 <= inject_Z (Z.of_nat (n - 1))) by (change 0 with (inject_Z 0); rewrite <- Zle_Qle; lia).
  assert (H : p * inject_Z (Z.of_nat (n - 1)) <= p' * inject_Z (Z.of_nat (n - 1))) by (apply Qmult_le_compat_r; assumption).
  assert (I : (idx p n <= idx p' n)%nat). { unfold idx. apply Qfloor_resp_le in H. lia. }
  destruct (Nat.eq_dec (idx p n) (idx p' n)) as [Q|Q].
  - rewrite <- Q in *. rewrite E, E'. set (x := nth (idx p n) s 0) in *. set (y := nth (Nat.min _ _) s 0) in *.
    assert (x <= y) by (apply sorted_nth; [apply sort_sorted|fold n; lia]). assert (t <= t') by lra.
    assert (0 <= (y - x) * (t' - t)) by (apply Qmult_le_0_compat; lra). lra.
  - assert (nth (Nat.min (S (idx p n)) (n - 1)) s 0 <= nth (idx p' n) s 0) by (apply sorted_nth; [apply sort_sorted|fold n; lia]). lra.
Qed.
Lemma inside_perm lo hi l l' : Permutation l l' -> inside lo hi l = inside lo hi l'.
Proof.
  unfold inside. induction 1; cbn; auto; try congruence.
  - destruct (Qle_bool lo x && Qle_bool x hi); cbn; congruence.
  - destruct (Qle_bool lo x && Qle_bool x hi), (Qle_bool lo y && Qle_bool y hi); reflexivity.
Qed.
Lemma inside_app lo hi l l' : inside lo hi (l ++ l') = (inside lo hi l + inside lo hi l')%nat.
Proof. unfold inside. now rewrite filter_app, app_length. Qed.
Lemma inside_all lo hi l : (forall x, In x l -> lo <= x <= hi) -> inside lo hi l = length l.
Proof.
  unfold inside. induction l as [|x l IH]; intros H; [reflexivity|]. cbn [filter]. destruct (H x (or_introl eq_refl)) as [A B].
  apply Qle_bool_iff in A, B. rewrite A, B. cbn. f_equal. apply IH. intros y Hy. apply H. now right.
Qed.
Lemma in_nth_slice s k m x : In x (firstn m (skipn k s)) -> exists i, (k <= i < k + m)%nat /\ (i < length s)%nat /\ x = nth i s 0.
Proof.
  revert k m. induction s as [|y s IH]; intros k m H.
  - rewrite skipn_nil, firstn_nil in H. contradiction.
  - destruct k as [|k]; cbn [skipn] in H.
    + destruct m as [|m]; [contradiction|]. cbn [firstn] in H. destruct H as [<-|H].
      * exists 0%nat. cbn. repeat split; lia.
      * destruct (IH 0%nat m H) as (i & A & B & C). exists (S i). cbn [nth length]. repeat split; auto; lia.
    + destruct (IH k m H) as (i & A & B & C). exists (S i). cbn [nth length]. repeat split; auto; lia.
Qed.
Lemma percentile_covers q l a b lo hi : q <= 1 # 2 -> percentile q l = Ok a -> percentile (1 - q) l = Ok b -> lo <= a -> b <= hi -> covers q lo hi l.
Proof.
  intros Hq Ha Hb La Hb'. pose proof (percentile_between q l a Ha) as (N & K & Ba). pose proof (percentile_between (1 - q) l b Hb) as (_ & K' & Bb).
  destruct (percentile_ok q l a Ha) as (P & _ & _). destruct (percentile_ok (1 - q) l b Hb) as (P' & _ & _).
  cbv zeta in *. pose proof (Permutation_length (sort_perm l)) as PL. set (s := sort l) in *. set (n := length s) in *.
  destruct (idx_bounds q n P N) as [_ [I1 I2]]. destruct (idx_bounds (1 - q) n P' N) as [_ [J1 J2]].
  unfold covers. rewrite <- (inside_perm lo hi s l (sort_perm l)). unfold qlen. rewrite <- PL.
  set (k := idx q n) in *. set (k' := idx (1 - q) n) in *.
  assert (G : (k' - k <= inside lo hi s)%nat).
  { rewrite <- (firstn_skipn (S k) s), inside_app. rewrite <- (firstn_skipn (k' - k) (skipn (S k) s)), inside_app.
    rewrite (inside_all lo hi (firstn (k' - k) (skipn (S k) s))).
    - rewrite firstn_length, skipn_length. fold n. lia.
    - intros x Hx. apply in_nth_slice in Hx as (i & Hi & Li & ->). fold n in Li.
      assert (nth (Nat.min (S k) (n - 1)) s 0 <= nth i s 0) by (apply sorted_nth; [apply sort_sorted|fold n; lia]).
      assert (nth i s 0 <= nth k' s 0) by (apply sorted_nth; [apply sort_sorted|fold n; lia]). lra. }
  assert (G' : (Z.of_nat k' - Z.of_nat k <= Z.of_nat (inside lo hi s))%Z) by lia. rewrite Zle_Qle in G'. unfold Z.sub in G'.
  rewrite inject_Z_plus, inject_Z_opp in G'.
  assert (NE : inject_Z (Z.of_nat n) - 1 == inject_Z (Z.of_nat (n - 1))).
  { rewrite Nat2Z.inj_sub by lia. unfold Z.sub. rewrite inject_Z_plus, inject_Z_opp. reflexivity. }
  rewrite NE. set (m := inject_Z (Z.of_nat (n - 1))) in *. lra.
Qed.
Lemma percentile_in_range p l a : percentile p l = Ok a -> exists x y, In x l /\ In y l /\ x <= a <= y.
Proof.
  intros H. pose proof (percentile_between p l a H) as (N & K & B). cbv zeta in *.
  exists (nth (idx p (length (sort l))) (sort l) 0), (nth (Nat.min (S (idx p (length (sort l)))) (length (sort l) - 1)) (sort l) 0).
  split; [|split; [|exact B]]; apply (Permutation_in _ (sort_perm l)), nth_In; lia.
Qed.
Lemma percentile_total p l : 0 <= p <= 1 -> l <> [] -> exists a, percentile p l = Ok a.
Proof.
  intros [A B] N. unfold percentile. apply Qle_bool_iff in A, B. rewrite A, B. cbn [andb negb].
  destruct (sort l) as [|x s] eqn:E; [|eauto]. apply (f_equal (@length Q)) in E. rewrite (Permutation_length (sort_perm l)) in E. destruct l; [congruence|discriminate].
Qed.

(** ** Ranges and their hull. *)
Lemma range_ok q v lo hi : range_of q v = Ok (lo, hi) -> percentile q (numbers v) = Ok lo /\ percentile (1 - q) (numbers v) = Ok hi.
Proof.
  unfold range_of. rewrite finite_numbers. destruct (percentile q (numbers v)); [|discriminate]. cbn [bind]. destruct (percentile (1 - q) (numbers v)); [|discriminate].
  cbn [bind]. intros H. apply (f_equal (fun r => match r with Ok y => y | Err _ => (0, 0) end)) in H. injection H as -> ->. auto.
Qed.
Lemma fold_min l : forall a, (fold_left qmin l a <= a) /\ (forall x, In x l -> fold_left qmin l a <= x) /\ (fold_left qmin l a = a \/ In (fold_left qmin l a) l).
Proof.
  induction l as [|x l IH]; intros a; cbn [fold_left]; [split; [lra|split; [intros x []|auto]]|].
  destruct (IH (qmin a x)) as (A & B & C). unfold qmin in *. destruct (Qle_bool a x) eqn:E.
  - apply Qle_bool_iff in E. split; [exact A|]. split; [intros y [<-|Hy]; [lra|auto]|]. cbn [In]. tauto.
  - assert (x <= a). { destruct (Qlt_le_dec a x) as [L|L]; [|exact L]. assert (Qle_bool a x = true) by (apply Qle_bool_iff; lra). congruence. }
    split; [lra|]. split; [intros y [<-|Hy]; [lra|auto]|]. cbn [In]. destruct C as [C|C]; [right; left; congruence|tauto].
Qed.
Lemma fold_max l : forall a, (a <= fold_left qmax l a) /\ (forall x, In x l -> x <= fold_left qmax l a) /\ (fold_left qmax l a = a \/ In (fold_left qmax l a) l).
Proof.
  induction l as [|x l IH]; intros a; cbn [fold_left]; [split; [lra|split; [intros x []|auto]]|].
  destruct (IH (qmax a x)) as (A & B & C). unfold qmax in *. destruct (Qle_bool a x) eqn:E.
  - apply Qle_bool_iff in E. split; [lra|]. split; [intros y [<-|Hy]; [lra|auto]|]. cbn [In]. destruct C as [C|C]; [right; left; congruence|tauto].
  - assert (x <= a). { destruct (Qlt_le_dec a x) as [L|L]; [|exact L]. assert (Qle_bool a x = true) by (apply Qle_bool_iff; lra). congruence. }
    split; [exact A|]. split; [intros y [<-|Hy]; [lra|auto]|]. cbn [In]. tauto.
Qed.
Lemma hull_ok l lo hi : hull l = Ok (lo, hi) -> (forall r, In r l -> lo <= fst r /\ snd r <= hi) /\ (exists r, In r l /\ fst r = lo) /\ (exists r, In r l /\ snd r = hi).
Proof.
  destruct l as [|r l]; [discriminate|]. cbn [hull]. intros H. apply (f_equal (fun r => match r with Ok y => y | Err _ => (0, 0) end)) in H. injection H as <- <-.
  destruct (fold_min (map fst l) (fst r)) as (A & B & C). destruct (fold_max (map snd l) (snd r)) as (D & E & F). split; [|split].
  - intros x [<-|Hx]; [auto|]. split; [apply B, in_map, Hx|apply E, in_map, Hx].
  - destruct C as [C|C]; [exists r; split; [now left|auto]|]. apply in_map_iff in C as (x & C & Hx). exists x. split; [now right|exact C].
  - destruct F as [F|F]; [exists r; split; [now left|auto]|]. apply in_map_iff in F as (x & F & Hx). exists x. split; [now right|exact F].
Qed.
Lemma each_ok {A B} (f : A -> res B) l ys : each f l = Ok ys -> Forall2 (fun x y => f x = Ok y) l ys.
Proof.
  revert ys. induction l as [|x l IH]; intros ys H; cbn [each] in H; [injection H as <-; constructor|].
  destruct (f x) as [y|] eqn:E; [|discriminate]. cbn [bind] in H. destruct (each f l) as [zs|]; [|discriminate]. cbn [bind] in H. injection H as <-. constructor; auto.
Qed.
Lemma each_total {A B} (f : A -> res B) l : (forall x, In x l -> exists y, f x = Ok y) -> exists ys, each f l = Ok ys.
Proof.
  induction l as [|x l IH]; intros H; cbn [each]; [eauto|]. destruct (H x (or_introl eq_refl)) as [y ->]. cbn [bind].
  destruct IH as [ys ->]; [intros z Hz; apply H; now right|]. cbn. eauto.
Qed.
Lemma forall2_in {A B} (P : A -> B -> Prop) l l' : Forall2 P l l' -> (forall x, In x l -> exists y, In y l' /\ P x y) /\ (forall y, In y l' -> exists x, In x l /\ P x y).
Proof.
  induction 1 as [|x y l l' H F [IH1 IH2]]; [split; intros ? []|]. split.
  - intros z [<-|Hz]; [exists y; split; [now left|exact H]|]. destruct (IH1 z Hz) as (w & Hw & Q). exists w. split; [now right|exact Q].
  - intros z [<-|Hz]; [exists x; split; [now left|exact H]|]. destruct (IH2 z Hz) as (w & Hw & Q). exists w. split; [now right|exact Q].
Qed.
(** The domain of the ranges of some lists of values. *)
Lemma domain_of_lists q (L : list nat) (vals : nat -> list (option Q)) (f : nat -> res (Q * Q)) lo hi : q <= 1 # 2 ->
  (forall l r, In l L -> f l = Ok r -> range_of q (vals l) = Ok r) ->
  bind (each f L) hull = Ok (lo, hi) ->
  lo <= hi /\ (forall l, In l L -> covers q lo hi (numbers (vals l)))
  /\ exists l l' x y, In l L /\ In l' L /\ In x (numbers (vals l)) /\ In y (numbers (vals l')) /\ x <= lo /\ hi <= y.
Proof.
  intros Hq Hf H. destruct (each f L) as [rs|] eqn:E; [|discriminate]. cbn [bind] in H. apply each_ok in E. destruct (forall2_in _ _ _ E) as [F1 F2]. clear E.
  destruct (hull_ok _ _ _ H) as (A & (r1 & R1 & E1) & (r2 & R2 & E2)).
  assert (S : forall l, In l L -> exists a b, percentile q (numbers (vals l)) = Ok a /\ percentile (1 - q) (numbers (vals l)) = Ok b /\ lo <= a /\ b <= hi).
  { intros l Hl. destruct (F1 l Hl) as ([a b] & Hr & Q). apply Hf, range_ok in Q; [|exact Hl]. exists a, b. destruct (A _ Hr) as [A1 A2]. cbn in A1, A2. tauto. }
  destruct (F2 r1 R1) as (l1 & L1 & Q1). destruct (F2 r2 R2) as (l2 & L2 & Q2).
  destruct r1 as [a1 b1]. destruct r2 as [a2 b2]. cbn in E1, E2. subst a1 b2. apply Hf, range_ok in Q1 as [P1 P1']; [|exact L1]. apply Hf, range_ok in Q2 as [P2 P2']; [|exact L2].
  split; [|split].
  - destruct (A _ R2) as [A1 _]. cbn in A1. pose proof (percentile_mono q (1 - q) _ _ _ ltac:(lra) P2 P2'). lra.
  - intros l Hl. destruct (S l Hl) as (a & b & Pa & Pb & La & Lb). eapply percentile_covers; eauto.
  - destruct (percentile_in_range _ _ _ P1) as (x & x' & Hx & _ & Bx). destruct (percentile_in_range _ _ _ P2') as (y' & y & _ & Hy & By).
    exists l1, l2, x, y. repeat split; auto; lra.
Qed.

(** ** Numbers of collected samples of a memory storage. *)
Lemma set_all_nth r : forall n m, set_all r n = Ok m -> NoDup (map fst r) ->
  length m = length n /\ forall l, nth l m 0%nat = match dget r l with Some v => length v | None => nth l n 0%nat end.
Proof.
  induction r as [|[k v] r IH]; intros n m H N; cbn [set_all] in H; [injection H as <-; auto|].
  destruct (Nat.ltb_spec k (length n)) as [L|L]; [|discriminate]. inversion N as [|? ? N1 N2]; subst.
  destruct (IH _ _ H N2) as [A B]. rewrite upd_length in A. split; [exact A|]. intros l. rewrite B. cbn [dget].
  assert (UE : forall (d : list nat) i j x, (i < length d)%nat -> nth j (upd d i (fun _ => x)) 0%nat = if Nat.eqb j i then x else nth j d 0%nat).
  { clear. induction d as [|y d IHd]; intros i j x H; cbn in H; [lia|]. destruct i, j; cbn; auto. apply IHd. lia. }
  rewrite UE by exact L. destruct (Nat.eqb_spec l k) as [->|Nk]; [|reflexivity].
  destruct (dget r k) eqn:D; [|reflexivity]. apply dget_In in D. exfalso. apply N1. apply in_map_iff. eexists; split; [|exact D]. reflexivity.
Qed.

(** Number of samples of a level, and the values of the first level saved. *)
Definition n_of (r : list (nat * list (option Q))) (l : nat) : nat := match dget r l with Some v => length v | None => 0%nat end.
Definition first_level (r : list (nat * list (option Q))) : list (option Q) := match r with (_, v) :: _ => v | [] => [] end.

(** ** C124: the domain covers the samples of the first level. *)
Theorem C124_memory : forall quantile q r lo hi, q = match quantile with Some q => q | None => 1 # 100 end -> q <= 1 # 2 -> NoDup (map fst r) ->
  domain_mem quantile r = Ok (lo, hi) ->
  lo <= hi
  /\ (exists x y, In x (numbers (first_level r)) /\ In y (numbers (first_level r)) /\ x <= lo /\ hi <= y)
  /\ (forall l, (l < length r)%nat -> covers q lo hi (numbers (firstn (n_of r l) (first_level r)))).
Proof.
  intros quantile q r lo hi Eq Hq N H.
  set (vals := fun l => firstn (n_of r l) (first_level r)).
  unfold domain_mem in H. eapply (domain_of_lists q _ vals) in H; [| exact Hq |].
  - destruct H as (A & B & l & l' & x & y & _ & _ & Hx & Hy & C & D). split; [exact A|]. split.
    + assert (S : forall l x, In x (numbers (vals l)) -> In x (numbers (first_level r))).
      { intros l0 z Hz. unfold vals, numbers in *. rewrite <- (firstn_skipn (n_of r l0) (first_level r)), flat_map_app. apply in_or_app. now left. }
      exists x, y. repeat split; auto; eapply S; eauto.
    + intros l0 Hl. apply B. apply in_seq. lia.
  - intros l p Hl. unfold n_collected. destruct (set_all r (repeat 0%nat (length r))) as [n|] eqn:E; [|discriminate]. cbn [bind].
    destruct (set_all_nth _ _ _ E N) as [_ B]. rewrite B. unfold vals, n_of, first_level, first_values. intros Hp. subst q.
    destruct r as [|[k v] r]; [discriminate|]. cbn [bind] in Hp. unfold the_quantile in Hp.
    assert (Z0 : forall n i, nth i (repeat 0%nat n) 0%nat = 0%nat) by (induction n0; intros [|i]; cbn; auto).
    rewrite Z0 in Hp. destruct (dget ((k, v) :: r) l); exact Hp.
Qed.
Print Assumptions C124_memory.
Definition group_len (g : list (option (list (option Q)))) (l : nat) : nat := match nth l g None with Some v => length v | None => 0%nat end.
Definition group0 (g : list (option (list (option Q)))) : list (option Q) := match nth 0 g None with Some v => v | None => [] end.
Theorem C124_file : forall quantile q g lo hi, q = match quantile with Some q => q | None => 1 # 100 end -> q <= 1 # 2 ->
  domain_hdf quantile g = Ok (lo, hi) ->
  lo <= hi
  /\ (exists x y, In x (numbers (group0 g)) /\ In y (numbers (group0 g)) /\ x <= lo /\ hi <= y)
  /\ (forall l, (l < length g)%nat -> covers q lo hi (numbers (firstn (group_len g l) (group0 g)))).
Proof.
  intros quantile q g lo hi Eq Hq H. set (vals := fun l => firstn (group_len g l) (group0 g)).
  unfold domain_hdf in H. eapply (domain_of_lists q _ vals) in H; [| exact Hq |].
  - destruct H as (A & B & l & l' & x & y & _ & _ & Hx & Hy & C & D). split; [exact A|]. split.
    + assert (S : forall l x, In x (numbers (vals l)) -> In x (numbers (group0 g))).
      { intros l0 z Hz. unfold vals, numbers in *. rewrite <- (firstn_skipn (group_len g l0) (group0 g)), flat_map_app. apply in_or_app. now left. }
      exists x, y. repeat split; auto; eapply S; eauto.
    + intros l0 Hl. apply B. apply in_seq. lia.
  - intros l p Hl Hp. unfold vals, group_len, group0. subst q. unfold the_quantile in Hp. destruct (nth l g None); [|discriminate]. destruct (nth 0 g None); [exact Hp|discriminate].
Qed.
Print Assumptions C124_file.

(** ** C125: every level.
    In full: the domain covers the fine samples of every level. *)
Definition covers_every_level : Prop := forall q r lo hi, 0 <= q <= 1 # 2 -> NoDup (map fst r) -> domain_mem (Some q) r = Ok (lo, hi) ->
  forall l v, dget r l = Some v -> covers q lo hi (numbers v).
(** Proved: the level saved first. *)
Theorem C125_partial : forall q l v r lo hi, 0 <= q <= 1 # 2 -> NoDup (map fst ((l, v) :: r)) -> domain_mem (Some q) ((l, v) :: r) = Ok (lo, hi) ->
  covers q lo hi (numbers v).
Proof.
  intros q l v r lo hi Hq N H. destruct (C124_memory (Some q) q _ lo hi eq_refl (proj2 Hq) N H) as (_ & _ & C).
  destruct (Nat.lt_ge_cases l (length ((l, v) :: r))) as [L|L].
  - specialize (C l L). unfold n_of in C. cbn [dget first_level] in C. rewrite Nat.eqb_refl in C. now rewrite firstn_all in C.
  - exfalso. unfold domain_mem in H. cbn [length seq each] in H. unfold n_collected in H. cbn [set_all] in H. rewrite repeat_length in H.
    destruct (Nat.ltb_spec l (length ((l, v) :: r))); [lia|]. cbn [bind] in H. discriminate.
Qed.
Print Assumptions C125_partial.
(** Ten samples of level 1 at 100 are all outside, both when level 0 was saved first and with a file; and when level 1 was saved
    first, those of level 0 are. *)
Theorem C125_refuted :
  (exists lo hi, domain_mem (Some (1 # 10)) [(0%nat, repeat (Some 0) 10); (1%nat, repeat (Some 100) 10)] = Ok (lo, hi)
     /\ inside lo hi (numbers (repeat (Some 100) 10)) = 0%nat)
  /\ (exists lo hi, domain_mem (Some (1 # 10)) [(1%nat, repeat (Some 100) 10); (0%nat, repeat (Some 0) 10)] = Ok (lo, hi)
     /\ inside lo hi (numbers (repeat (Some 0) 10)) = 0%nat)
  /\ (exists lo hi, domain_hdf (Some (1 # 10)) [Some (repeat (Some 0) 10); Some (repeat (Some 100) 10)] = Ok (lo, hi)
     /\ inside lo hi (numbers (repeat (Some 100) 10)) = 0%nat).
Proof. repeat split; eexists; eexists; (split; [vm_compute; reflexivity|vm_compute; reflexivity]). Qed.
Print Assumptions C125_refuted.
Corollary C125_refuted_full : ~ covers_every_level.
Proof.
  intros H. destruct C125_refuted as [(lo & hi & E & I) _].
  assert (Q : 0 <= 1 # 10 <= 1 # 2) by (split; discriminate).
  assert (N : NoDup (map fst [(0%nat, repeat (Some 0) 10); (1%nat, repeat (Some 100) 10)])) by (cbn; repeat constructor; cbn; intuition discriminate).
  specialize (H (1 # 10) _ lo hi Q N E 1%nat (repeat (Some 100) 10) eq_refl).
  unfold covers in H. rewrite I in H. vm_compute in H. apply H. reflexivity.
Qed.

(** ** C126: what the documentation says of quantile None and of levels without samples.
    In full: None stands for the whole range of samples, and a level of a file without collected samples ends the search. *)
Definition whole_range : Prop := forall r lo hi, domain_mem None r = Ok (lo, hi) -> forall x, In x (numbers (first_level r)) -> lo <= x <= hi.
Definition levels_without_samples : Prop := forall q v g, 0 <= q <= 1 # 2 -> numbers v <> [] -> exists lo hi, domain_hdf (Some q) (Some v :: None :: g) = Ok (lo, hi).
(** Proved: quantile 0 gives the whole range, and files with samples on all levels are accepted. *)
Lemma covers_all lo hi l : lo <= hi -> (forall x, In x l -> lo <= x <= hi) -> inside lo hi l = length l.
Proof. intros _. apply inside_all. Qed.
Lemma whole_percentile l a b : percentile 0 l = Ok a -> percentile (1 - 0) l = Ok b -> forall x, In x l -> a <= x <= b.
Proof.
  intros Ha Hb x Hx. pose proof (percentile_between 0 l a Ha) as (N & K & Ba). pose proof (percentile_between (1 - 0) l b Hb) as (_ & K' & Bb).
  destruct (percentile_ok 0 l a Ha) as (_ & _ & t & T & E & Et). cbv zeta in *. set (s := sort l) in *. set (n := length s) in *.
  assert (K0 : idx 0 n = 0%nat). { unfold idx. change (Qfloor (0 * inject_Z (Z.of_nat (n - 1)))) with 0%Z. reflexivity. }
  assert (K1 : idx (1 - 0) n = (n - 1)%nat).
  { unfold idx. assert (Q1 : (1 - 0) * inject_Z (Z.of_nat (n - 1)) == inject_Z (Z.of_nat (n - 1))) by ring. rewrite Q1, Qfloor_Z. apply Nat2Z.id. }
  rewrite K0 in *. rewrite K1 in *. apply (Permutation_in _ (Permutation_sym (sort_perm l))) in Hx. fold s in Hx. apply In_nth with (d := 0) in Hx as (i & Hi & <-). fold n in Hi.
  assert (t == 0) by (change (inject_Z (Z.of_nat 0)) with 0 in Et; lra). assert (Ea : a == nth 0 s 0) by (rewrite E, H; ring).
  assert (nth 0 s 0 <= nth i s 0) by (apply sorted_nth; [apply sort_sorted|fold n; lia]).
  assert (nth i s 0 <= nth (n - 1) s 0) by (apply sorted_nth; [apply sort_sorted|fold n; lia]). lra.
Qed.
Theorem C126_partial :
  (forall l v r lo hi, NoDup (map fst ((l, v) :: r)) -> domain_mem (Some 0) ((l, v) :: r) = Ok (lo, hi) -> forall x, In x (numbers v) -> lo <= x <= hi)
  /\ (forall q v g, 0 <= q <= 1 # 2 -> Forall (fun w => exists n, w = Some n /\ (0 < length n)%nat) g ->
       numbers (firstn 1 v) <> [] -> exists lo hi, domain_hdf (Some q) (Some v :: g) = Ok (lo, hi)).
Proof.
  split.
  - intros l v r lo hi N H x Hx. unfold domain_mem in H. destruct (each _ _) as [rs|] eqn:E in H; [|discriminate]. cbn [bind] in H.
    apply each_ok in E. destruct (forall2_in _ _ _ E) as [F1 _]. destruct (hull_ok _ _ _ H) as (A & _).
    destruct (set_all ((l, v) :: r) (repeat 0%nat (length ((l, v) :: r)))) as [n|] eqn:S.
    + assert (Ll : (l < length ((l, v) :: r))%nat).
      { cbn [set_all] in S. rewrite repeat_length in S. destruct (Nat.ltb_spec l (length ((l, v) :: r))); [assumption|discriminate]. }
      destruct (F1 l ltac:(apply in_seq; lia)) as ([a b] & Hr & Q). unfold n_collected in Q. rewrite S in Q. cbn [bind] in Q.
      destruct (set_all_nth _ _ _ S N) as [_ B]. rewrite B in Q. cbn [dget first_values bind] in Q. rewrite Nat.eqb_refl, firstn_all in Q.
      apply range_ok in Q as [Pa Pb]. cbn [the_quantile] in Pa, Pb. destruct (A _ Hr) as [A1 A2]. cbn in A1, A2.
      pose proof (whole_percentile _ _ _ Pa Pb x Hx). lra.
    + destruct (F1 0%nat ltac:(apply in_seq; cbn; lia)) as (p & _ & Q). unfold n_collected in Q. rewrite S in Q. discriminate.
  - intros q v g Hq F N1. unfold domain_hdf.
    destruct (each_total (fun l => match nth l (Some v :: g) None with None => Err AssertionError
        | Some w => match nth 0 (Some v :: g) None with None => Err AttributeError | Some v0 => range_of (the_quantile (Some q)) (firstn (length w) v0) end end)
        (seq 0 (length (Some v :: g)))) as [rs E].
    + intros l Hl. apply in_seq in Hl. change (nth 0 (Some v :: g) None) with (Some v). cbn [the_quantile]. assert (P0 : 0 <= q <= 1) by (destruct Hq; split; lra). assert (P1 : 0 <= 1 - q <= 1) by (destruct Hq; split; lra).
      assert (W : exists w, nth l (Some v :: g) None = Some w /\ (0 < length w)%nat).
      { destruct l as [|l]; cbn [nth].
        - exists v. split; [reflexivity|]. destruct v; [contradiction|cbn; lia].
        - rewrite Forall_forall in F. destruct (F (nth l g None)) as (w & E & Lw); [apply nth_In; cbn in Hl; lia|]. exists w. auto. }
      destruct W as (w & -> & Lw). assert (N2 : numbers (firstn (length w) v) <> []).
      { destruct w as [|y w]; [cbn in Lw; lia|]. destruct v as [|[z|] v]; [contradiction| |cbn in N1; congruence]. cbn. discriminate. }
      unfold range_of. rewrite finite_numbers. destruct (percentile_total q _ P0 N2) as [a ->]. cbn [bind].
      destruct (percentile_total (1 - q) (numbers (firstn (length w) v)) P1 N2) as [b ->]. cbn [bind]. eauto.
    + rewrite E. cbn [bind]. apply each_ok in E. destruct rs as [|p rs]; [inversion E|]. cbn [hull]. eauto.
Qed.
Print Assumptions C126_partial.
Theorem C126_refuted :
  (exists r lo hi x, domain_mem None r = Ok (lo, hi) /\ In x (numbers (first_level r)) /\ x < lo)
  /\ (forall q v g, exists e, domain_hdf q (v :: None :: g) = Err e).
Proof.
  split.
  - exists [(0%nat, map (fun n => Some (inject_Z (Z.of_nat n))) (seq 0 11))]. eexists. eexists. exists 0. split; [vm_compute; reflexivity|]. split; [now left|reflexivity].
  - intros q v g. unfold domain_hdf. cbn [length seq each nth]. destruct v as [v|]; [|eexists; reflexivity].
    destruct (range_of _ _); cbn [bind]; eexists; reflexivity.
Qed.
Print Assumptions C126_refuted.
Corollary C126_refuted_full : ~ whole_range /\ ~ levels_without_samples.
Proof.
  destruct C126_refuted as [(r & lo & hi & x & E & I & L) B]. split.
  - intros H. specialize (H r lo hi E x I). lra.
  - intros H. destruct (H (1 # 10) [Some 1] [] ltac:(split; discriminate) ltac:(discriminate)) as (a & b & Q). destruct (B (Some (1 # 10)) (Some [Some 1]) []) as [e K]; rewrite K in Q; discriminate.
Qed.

(** ** C127: the function of the module.
    In full: it returns a domain when there are samples. *)
Definition module_works : Prop := exists quantile r, exists p, domain_module quantile r = Ok p.
Theorem C127_refuted : forall quantile r, exists e, domain_module quantile r = Err e.
Proof.
  intros quantile r. unfold domain_module. destruct r as [|[k v] r]; [eexists; reflexivity|]. cbn [length seq each].
  destruct (n_collected _) as [[|n0 n]|]; eexists; reflexivity.
Qed.
Print Assumptions C127_refuted.
Theorem C127_type_error : forall quantile v0 v1, domain_module quantile [(0%nat, v0); (1%nat, v1)] = Err TypeError.
Proof. reflexivity. Qed.

(** ** Examples. *)
Example C124_example : exists lo hi, domain_mem (Some (1 # 4)) [(0%nat, [Some 4; None; Some 1; Some 2; Some 3; Some 5]); (1%nat, [Some 7; Some 8])] = Ok (lo, hi)
  /\ lo == 2 /\ hi == 4.
Proof. eexists. eexists. split; [vm_compute; reflexivity|]. split; reflexivity. Qed.
Example C124_example_file : exists lo hi, domain_hdf (Some (1 # 4)) [Some [Some 4; None; Some 1; Some 2; Some 3; Some 5]; Some [Some 7; Some 8]] = Ok (lo, hi)
  /\ lo == 2 /\ hi == 4.
Proof. eexists. eexists. split; [vm_compute; reflexivity|]. split; reflexivity. Qed.
Example C126_example : exists lo hi, domain_mem (Some 0) [(1%nat, [Some 4; None; Some 1; Some 2]); (0%nat, [Some 7; Some 8])] = Ok (lo, hi) /\ lo == 1 /\ hi == 4.
Proof. eexists. eexists. split; [vm_compute; reflexivity|]. split; reflexivity. Qed.
