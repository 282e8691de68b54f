(** Interpolation of time series. *)
From Coq Require Import Lqa.
From Verif Require Import Base BaseFacts TimeModel.

(** Specification. *)
Definition value (y : list row) (r s : nat) : option num := match nth_error y r with Some x => nth_error x s | None => None end.
(** [n] components per time, [w] numbers per component. *)
Definition shaped (times : list Q) (n w : nat) (y : list row) : Prop := length y = length times * n /\ Forall (fun x => length x = w) y.
Definition distinct (times : list Q) : Prop := forall i j a b, nth_error times i = Some a -> nth_error times j = Some b -> (a == b)%Q -> i = j.
(** Times around [v] without another time between them. *)
Definition around (times : list Q) (v : Q) (i j : nat) (lo hi : Q) : Prop :=
  nth_error times i = Some lo /\ nth_error times j = Some hi /\ (lo < hi)%Q /\ (lo <= v)%Q /\ (v <= hi)%Q
  /\ forall t, In t times -> (t <= lo)%Q \/ (hi <= t)%Q.
Definition inside (times : list Q) (v : Q) : Prop := (exists t, In t times /\ (t <= v)%Q) /\ exists t, In t times /\ (v <= t)%Q.

(** Sorting. *)
Section Sort.
Context {A : Type}.
Implicit Types l : list (Q * A).
Lemma insert_perm x l : Permutation (insert x l) (x :: l).
Proof. induction l as [|y l IH]; cbn; [reflexivity|]. destruct Qle_bool; [reflexivity|]. rewrite IH. apply perm_swap. Qed.
Lemma sort_perm l : Permutation (sort l) l.
Proof. induction l as [|x l IH]; cbn; [constructor|]. now rewrite insert_perm, IH. Qed.
Fixpoint asc l : Prop := match l with [] => True | x :: l' => Forall (fun y => (fst x <= fst y)%Q) l' /\ asc l' end.
Lemma asc_insert x l : asc l -> asc (insert x l).
Proof.
  induction l as [|y l IH]; cbn; intros H; [auto|]. destruct H as [F H].
  destruct (Qle_bool (fst x) (fst y)) eqn:E.
  - apply Qle_bool_iff in E. cbn. split; [|auto]. constructor; [exact E|]. eapply Forall_impl; [|exact F]. cbn. intros a Ha. lra.
  - assert ((fst y <= fst x)%Q) as L.
    { destruct (Qlt_le_dec (fst x) (fst y)) as [L|L]; [|exact L]. assert ((fst x <= fst y)%Q) as L' by lra. apply Qle_bool_iff in L'. congruence. }
    cbn. split; [|now apply IH]. apply (Permutation_Forall (Permutation_sym (insert_perm x l))). constructor; auto.
Qed.
Lemma sort_asc l : asc (sort l).
Proof. induction l; cbn; [auto|]. now apply asc_insert. Qed.
Lemma asc_nth l : asc l -> forall i j x y, i <= j -> nth_error l i = Some x -> nth_error l j = Some y -> (fst x <= fst y)%Q.
Proof.
  induction l as [|z l IH]; intros H i j x y L Hi Hj; [destruct i; discriminate|]. destruct H as [F H]. destruct i as [|i], j as [|j]; cbn in Hi, Hj.
  - injection Hi as <-. injection Hj as <-. lra.
  - injection Hi as <-. rewrite Forall_forall in F. apply F. now apply nth_error_In in Hj.
  - lia.
  - apply (IH H i j); auto. lia.
Qed.
End Sort.
Lemma sort_map {A B} (f : A -> B) l : sort (map (fun x => (fst x, f (snd x))) l) = map (fun x => (fst x, f (snd x))) (sort l).
Proof.
  induction l as [|x l IH]; [reflexivity|]. cbn [map sort]. rewrite IH. generalize (sort l) as m. intros m.
  induction m as [|y m IHm]; [reflexivity|]. cbn [map insert fst]. destruct Qle_bool; [reflexivity|]. cbn [map]. now rewrite IHm.
Qed.
Lemma qltb_iff a b : qltb a b = true <-> (a < b)%Q.
Proof.
  unfold qltb. split; intros H.
  - apply Bool.negb_true_iff in H. destruct (Qlt_le_dec a b) as [L|L]; [exact L|]. apply Qle_bool_iff in L. congruence.
  - apply Bool.negb_true_iff. destruct (Qle_bool b a) eqn:E; [|reflexivity]. apply Qle_bool_iff in E. lra.
Qed.
Lemma qltb_not a b : qltb a b = false <-> (b <= a)%Q.
Proof.
  split; intros H.
  - destruct (Qlt_le_dec a b) as [L|L]; [|exact L]. apply qltb_iff in L. congruence.
  - destruct (qltb a b) eqn:E; [|reflexivity]. apply qltb_iff in E. lra.
Qed.
Lemma search_lt x v : forall i t, i < searchsorted x v -> nth_error x i = Some t -> (t < v)%Q.
Proof.
  induction x as [|a x IH]; cbn; intros i t L H; [lia|]. destruct (qltb a v) eqn:E; [|lia]. destruct i as [|i]; cbn in H.
  - injection H as <-. now apply qltb_iff.
  - apply (IH i); [lia|exact H].
Qed.
Lemma search_ge x v t : nth_error x (searchsorted x v) = Some t -> (v <= t)%Q.
Proof.
  induction x as [|a x IH]; cbn; [discriminate|]. destruct (qltb a v) eqn:E; cbn; [exact IH|]. intros [= <-]. now apply qltb_not.
Qed.
Lemma search_len x v : searchsorted x v <= length x.
Proof. induction x as [|a x IH]; cbn; [lia|]. destruct qltb; lia. Qed.

(** Pieces. *)
Lemma split_length {A} k n (l : list A) : length (split k n l) = k.
Proof. revert l. induction k as [|[|k] IH]; intros l; [reflexivity|reflexivity|]. cbn [split length]. f_equal. apply IH. Qed.
Lemma skipn_skipn' {A} a b (l : list A) : skipn a (skipn b l) = skipn (b + a) l.
Proof. revert l. induction b as [|b IH]; intros [|x l]; cbn; auto. now rewrite skipn_nil. Qed.
Lemma split_nth {A} k n (l : list A) : length l = k * n -> forall i, i < k -> nth_error (split k n l) i = Some (firstn n (skipn (i * n) l)).
Proof.
  revert l. induction k as [|[|k] IH]; intros l E i L; [lia| |].
  - assert (i = 0) as -> by lia. cbn. rewrite firstn_all2 by lia. reflexivity.
  - cbn [split]. destruct i as [|i]; [reflexivity|]. cbn [nth_error]. change (match k with 0 => _ | S _ => _ end) with (split (S k) n (skipn n l)).
    rewrite IH; [|rewrite skipn_length; lia|lia]. now rewrite skipn_skipn'.
Qed.
Lemma nth_firstn {A} n (l : list A) i : i < n -> nth_error (firstn n l) i = nth_error l i.
Proof. revert l i. induction n as [|n IH]; intros [|x l] [|i] L; cbn; auto; try lia. apply IH. lia. Qed.
Lemma nth_skip {A} n (l : list A) i : nth_error (skipn n l) i = nth_error l (n + i).
Proof. revert l. induction n as [|n IH]; intros [|x l]; cbn; auto. now destruct i. Qed.
Lemma map2_nth {A B C} (f : A -> B -> C) l : forall l' i, nth_error (map2 f l l') i =
  match nth_error l i, nth_error l' i with Some a, Some b => Some (f a b) | _, _ => None end.
Proof.
  induction l as [|a l IH]; intros [|b l'] [|i]; cbn; try reflexivity.
  - now destruct (nth_error l i).
  - apply IH.
Qed.

(** Tagged times sorted. *)
Definition tagged (times : list Q) : list (Q * nat) := sort (combine times (seq 0 (length times))).
Lemma combine_seq {A} (times : list Q) : forall (pieces : list A) d s, length pieces = length times ->
  combine times pieces = map (fun x => (fst x, nth (snd x - s) pieces d)) (combine times (seq s (length times))).
Proof.
  induction times as [|t times IH]; intros [|p pieces] d s E; try discriminate; [reflexivity|]. cbn [combine length seq map fst snd].
  rewrite Nat.sub_diag. cbn [nth]. f_equal. injection E as E. rewrite (IH pieces d (S s) E). apply map_ext_in. intros [a k] Hk.
  cbn [fst snd]. f_equal. apply in_combine_r in Hk. apply in_seq in Hk. destruct (k - s) as [|m] eqn:Em; [lia|]. cbn [nth]. f_equal. lia.
Qed.
Lemma tagged_length times : length (tagged times) = length times.
Proof. unfold tagged. rewrite (Permutation_length (sort_perm _)), combine_length, seq_length. lia. Qed.
Lemma nth_combine {B} (l : list Q) : forall (l' : list B) i, nth_error (combine l l') i = match nth_error l i, nth_error l' i with Some a, Some b => Some (a, b) | _, _ => None end.
Proof. induction l as [|a l IH]; intros [|b l'] [|i]; cbn; try reflexivity; [now destruct (nth_error l i)|apply IH]. Qed.
Lemma tagged_nth times i t k : nth_error (tagged times) i = Some (t, k) -> nth_error times k = Some t.
Proof.
  intros H. apply nth_error_In in H. apply (Permutation_in _ (sort_perm _)) in H. apply In_nth_error in H as (m & H).
  rewrite nth_combine in H. destruct (nth_error times m) as [a|] eqn:E; [|discriminate].
  destruct (nth_error (seq 0 (length times)) m) as [b|] eqn:E'; [|discriminate]. injection H as <- <-.
  rewrite nth_error_seq in E'. destruct Nat.ltb; [|discriminate]. injection E' as <-. exact E.
Qed.
Lemma tagged_In times t : In t times -> exists i k, nth_error (tagged times) i = Some (t, k).
Proof.
  intros H. apply In_nth_error in H as (m & H). assert (In (t, m) (tagged times)) as Hi.
  { apply (Permutation_in _ (Permutation_sym (sort_perm _))). apply (nth_error_In _ m). rewrite nth_combine, H.
    rewrite nth_error_seq. destruct (Nat.ltb_spec m (length times)) as [|X]; [reflexivity|]. apply nth_error_None in X. congruence. }
  apply In_nth_error in Hi as (i & Hi). eauto.
Qed.
Lemma tagged_asc times i j a b k l : i < j -> nth_error (tagged times) i = Some (a, k) -> nth_error (tagged times) j = Some (b, l) -> (a <= b)%Q.
Proof. intros L Hi Hj. exact (asc_nth _ (sort_asc _) i j _ _ (Nat.lt_le_incl _ _ L) Hi Hj). Qed.
Lemma tagged_tags times : NoDup (map snd (tagged times)).
Proof.
  unfold tagged. apply (Permutation_NoDup (Permutation_sym (Permutation_map snd (sort_perm (combine times (seq 0 (length times))))))).
  assert (forall s, map snd (combine times (seq s (length times))) = seq s (length times)) as ->; [|apply seq_NoDup].
  induction times as [|t times IH]; intros s; [reflexivity|]. cbn. now rewrite IH.
Qed.
Lemma tagged_strict times i j a b k l : distinct times -> i < j -> nth_error (tagged times) i = Some (a, k) -> nth_error (tagged times) j = Some (b, l) -> (a < b)%Q.
Proof.
  intros D L Hi Hj. pose proof (tagged_asc _ _ _ _ _ _ _ L Hi Hj) as Le. destruct (Qlt_le_dec a b) as [H|H]; [exact H|].
  assert ((a == b)%Q) as E by lra. pose proof (D k l a b (tagged_nth _ _ _ _ Hi) (tagged_nth _ _ _ _ Hj) E) as <-. exfalso.
  assert (i = j); [|lia]. apply (proj1 (NoDup_nth_error (map snd (tagged times))) (tagged_tags times)).
  - rewrite map_length. apply nth_error_Some. congruence.
  - now rewrite !nth_error_map, Hi, Hj.
Qed.

(** The position found by the search is around the point. *)
Lemma found times v : distinct times -> 2 <= length times -> inside times v ->
  let i := Nat.min (Nat.max (searchsorted (map fst (tagged times)) v) 1) (length times - 1) in
  exists lo a hi b t0 k0 t1 k1, nth_error (tagged times) (i - 1) = Some (lo, a) /\ nth_error (tagged times) i = Some (hi, b)
  /\ nth_error (tagged times) 0 = Some (t0, k0) /\ nth_error (tagged times) (length times - 1) = Some (t1, k1)
  /\ (t0 <= v)%Q /\ (v <= t1)%Q /\ around times v a b lo hi.
Proof.
  intros D Ln [(ta & Ha & La) (tb & Hb & Lb)] i. set (x := tagged times) in *. pose proof (tagged_length times) as Lx. fold x in Lx.
  assert (forall k, k < length times -> exists t c, nth_error x k = Some (t, c)) as Nx.
  { intros k Lk. destruct (nth_error x k) as [[t c]|] eqn:E; [eauto|]. apply nth_error_None in E. lia. }
  destruct (Nx (i - 1)) as (lo & a & Elo); [lia|]. destruct (Nx i) as (hi & b & Ehi); [lia|].
  destruct (Nx 0) as (t0 & k0 & E0); [lia|]. destruct (Nx (length times - 1)) as (t1 & k1 & E1); [lia|].
  assert ((t0 <= v)%Q) as L0.
  { destruct (tagged_In _ _ Ha) as (m & k & Em). fold x in Em. destruct m as [|m]; [rewrite E0 in Em; injection Em as -> ->; exact La|].
    pose proof (tagged_asc times 0 (S m) _ _ _ _ (Nat.lt_0_succ m) E0 Em). lra. }
  assert ((v <= t1)%Q) as L1.
  { destruct (tagged_In _ _ Hb) as (m & k & Em). fold x in Em. assert (m < length x) as Lm by (apply nth_error_Some; congruence).
    destruct (Nat.eq_dec m (length times - 1)) as [->|Nm]; [rewrite E1 in Em; injection Em as -> ->; exact Lb|].
    assert (m < length times - 1) as Lm' by lia. pose proof (tagged_asc times m _ _ _ _ _ Lm' Em E1). lra. }
  exists lo, a, hi, b, t0, k0, t1, k1. ands; auto.
  set (n := searchsorted (map fst x) v) in *. pose proof (search_len (map fst x) v) as Ls. fold n in Ls. rewrite map_length, Lx in Ls.
  assert (n < length times) as Ln'.
  { destruct (Nat.eq_dec n (length times)) as [E|]; [|lia]. assert ((t1 < v)%Q); [|lra].
    apply (search_lt (map fst x) v (length times - 1)); [fold n; lia|]. now rewrite nth_error_map, E1. }
  assert ((lo <= v)%Q) as Llo.
  { destruct (Nat.eq_dec n 0) as [E|Nn].
    - assert (i - 1 = 0) as Ei by (unfold i; lia). rewrite Ei, E0 in Elo. injection Elo as <- _. exact L0.
    - apply Qlt_le_weak. apply (search_lt (map fst x) v (i - 1)); [fold n; unfold i; lia|]. now rewrite nth_error_map, Elo. }
  assert ((lo < hi)%Q) as Llh by (apply (tagged_strict times (i - 1) i lo hi a b D); [unfold i; lia|exact Elo|exact Ehi]).
  assert ((v <= hi)%Q) as Lhi.
  { destruct (Nat.eq_dec n 0) as [E|Nn].
    - assert ((v <= t0)%Q); [|assert (i - 1 = 0) as Ei by (unfold i; lia); rewrite Ei, E0 in Elo; injection Elo as <- _; lra].
      apply (search_ge (map fst x)). fold n. rewrite E. now rewrite nth_error_map, E0.
    - apply (search_ge (map fst x)). fold n. assert (n = i) as En by (unfold i; lia). rewrite En. now rewrite nth_error_map, Ehi. }
  unfold around. ands; auto.
  - exact (tagged_nth times _ _ _ Elo).
  - exact (tagged_nth times _ _ _ Ehi).
  - intros t Ht. destruct (tagged_In _ _ Ht) as (m & k & Em). fold x in Em. destruct (Nat.le_gt_cases m (i - 1)) as [Lm|Lm].
    + left. destruct (Nat.eq_dec m (i - 1)) as [Eq|Nm]; [rewrite Eq, Elo in Em; apply (f_equal (option_map fst)) in Em; injection Em as Em; rewrite Em; lra|].
      apply (tagged_asc times m (i - 1) _ _ _ _ ltac:(lia) Em Elo).
    + right. destruct (Nat.eq_dec m i) as [Eq|Nm]; [rewrite Eq, Ehi in Em; apply (f_equal (option_map fst)) in Em; injection Em as Em; rewrite Em; lra|].
      apply (tagged_asc times i m _ _ _ _ ltac:(lia) Ehi Em).
Qed.

(** C145: between the times a series is interpolated linearly, component by component and sample by sample; the two times depend
    only on the point. *)
Theorem C145_interpolation times v : distinct times -> 2 <= length times -> inside times v ->
  exists i j lo hi, around times v i j lo hi
  /\ forall n w y, shaped times n w y ->
     exists z, interp times n y v = Ok z /\ length z = n /\ Forall (fun x => length x = w) z
     /\ forall r s a b, r < n -> value y (i * n + r) s = Some a -> value y (j * n + r) s = Some b ->
        exists c, value z r s = Some c
        /\ match a, b, c with
           | Some a, Some b, Some c => (c == ((hi - v) * a + (v - lo) * b) / (hi - lo))%Q
           | Some _, Some _, None => False
           | _, _, _ => c = None
           end.
Proof.
  intros D L I. destruct (found times v D L I) as (lo & i & hi & j & t0 & k0 & t1 & k1 & E1 & E2 & E3 & E4 & L0 & L1 & Ar).
  exists i, j, lo, hi. split; [exact Ar|]. destruct Ar as (Ai & Aj & Alh & _). intros n w y [Ly Fy]. unfold interp.
  set (ps := split (length times) n y). assert (length ps = length times) as Lp by apply split_length.
  assert (forall k, k < length times -> nth_error ps k = Some (firstn n (skipn (k * n) y))) as Np by (intros k Lk; now apply split_nth).
  assert (forall k, k < length times -> length (firstn n (skipn (k * n) y)) = n) as Lk.
  { intros k Lk. rewrite firstn_length, skipn_length, Ly. apply Nat.min_l. nia. }
  assert (forallb (fun q => Nat.eqb (length q) n) ps = true) as Fp.
  { apply forallb_forall. intros q Hq. apply In_nth_error in Hq as (k & Hq). assert (k < length times) as Lk' by (rewrite <- Lp; apply nth_error_Some; congruence).
    rewrite (Np k Lk') in Hq. injection Hq as <-. rewrite (Lk k Lk'). apply Nat.eqb_refl. }
  unfold interp1d. assert (exists p ps', ps = p :: ps' /\ length p = n) as (p & ps' & Ep & Lp0).
  { pose proof (Np 0 ltac:(lia)) as N0. pose proof (Lk 0 ltac:(lia)) as K0. destruct ps as [|p ps']; [discriminate|]. cbn in N0. injection N0 as ->. eauto. }
  rewrite Ep. rewrite Lp0, <- Ep, Fp.
  assert (sort (combine times ps) = map (fun x => (fst x, nth (snd x) ps [])) (tagged times)) as Es.
  { rewrite (combine_seq times ps [] 0 Lp). unfold tagged. rewrite <- (sort_map (fun k => nth k ps [])). f_equal. apply map_ext. intros [a b]. cbn. now rewrite Nat.sub_0_r. }
  rewrite Es. rewrite map_length, tagged_length.
  assert (map fst (map (fun x : Q * nat => (fst x, nth (snd x) ps [])) (tagged times)) = map fst (tagged times)) as -> by (rewrite map_map; reflexivity).
  rewrite !nth_error_map, E1, E2, E3, E4. cbn [option_map fst snd].
  assert ((Nat.ltb (length times) 2 || qltb v t0 || qltb t1 v)%bool = false) as ->.
  { apply Bool.orb_false_iff. split; [apply Bool.orb_false_iff; split|]; [apply Nat.ltb_ge; lia|now apply qltb_not|now apply qltb_not]. }
  assert (i < length times) as Li by (apply nth_error_Some; congruence). assert (j < length times) as Lj by (apply nth_error_Some; congruence).
  rewrite (nth_error_nth ps i [] (Np i Li)), (nth_error_nth ps j [] (Np j Lj)). eexists. split; [reflexivity|].
  assert (forall r s k, k < length times -> r < n -> match nth_error (firstn n (skipn (k * n) y)) r with Some x => nth_error x s | None => None end = value y (k * n + r) s) as Vk.
  { intros r s k Lk' Lr. unfold value. rewrite nth_firstn by exact Lr. now rewrite nth_skip. }
  assert (forall l l' : list row, length l = n -> length l' = n -> length (map2 (map2 (linear lo hi v)) l l') = n) as Lm.
  { clear. induction n as [|n IH]; intros [|a l] [|b l'] E E'; try discriminate; [reflexivity|]. cbn in *. f_equal. apply IH; lia. }
  split; [apply Lm; apply Lk; assumption|]. split.
  - apply Forall_forall. intros x Hx. apply In_nth_error in Hx as (r & Hx). rewrite map2_nth in Hx.
    match type of Hx with match ?e with _ => _ end = _ => destruct e as [x1|] eqn:X1; [|discriminate] end.
    match type of Hx with match ?e with _ => _ end = _ => destruct e as [x2|] eqn:X2; [|discriminate] end. injection Hx as <-.
    assert (forall k x, nth_error (firstn n (skipn (k * n) y)) r = Some x -> length x = w) as Ex.
    { intros k x Hk. rewrite Forall_forall in Fy. apply Fy. apply nth_error_In in Hk. rewrite <- (firstn_skipn (k * n) y). apply in_app_iff. right.
      rewrite <- (firstn_skipn n (skipn (k * n) y)). apply in_app_iff. now left. }
    apply Ex in X1. apply Ex in X2. clear - X1 X2. revert x1 x2 X1 X2. induction w as [|w IH]; intros [|a x1] [|b x2] E E'; try discriminate; [reflexivity|].
    cbn in *. f_equal. apply IH; lia.
  - intros r s a b Lr Va Vb. rewrite <- Vk in Va, Vb by assumption. unfold value. rewrite map2_nth.
    change (list num) with row in *.
    destruct (nth_error (firstn n (skipn (i * n) y)) r) as [x1|]; [|discriminate].
    destruct (nth_error (firstn n (skipn (j * n) y)) r) as [x2|]; [|discriminate]. rewrite map2_nth, Va, Vb. eexists. split; [reflexivity|].
    unfold linear. destruct a as [a|], b as [b|]; cbn; try reflexivity. field. lra.
Qed.
Print Assumptions C145_interpolation.
Definition ex_times : list Q := [3#1; 1#1; 2#1].
Definition ex_y : list row := [[Some (30#1); Some (31#1)]; [Some (10#1); None]; [Some (20#1); Some (21#1)]].
Example C145_example : distinct ex_times /\ inside ex_times (5#2) /\ shaped ex_times 1 2 ex_y
  /\ interp ex_times 1 ex_y (5#2) = Ok [[Some (50#2); Some (52#2)]].
Proof.
  split; [|split; [|split]].
  - intros i j a b Hi Hj E. destruct i as [|[|[|i]]], j as [|[|[|j]]]; try reflexivity; cbn in Hi, Hj; try (now destruct i); try (now destruct j);
      injection Hi as <-; injection Hj as <-; unfold Qeq in E; cbn in E; lia.
  - split; [exists (1#1)|exists (3#1)]; (split; [cbn; auto|unfold Qle; cbn; lia]).
  - split; [reflexivity|]. repeat constructor.
  - vm_compute. reflexivity.
Qed.

(** Outside of the times the point is refused. *)
Theorem C145_outside times n y v : (forall t, In t times -> (v < t)%Q) \/ (forall t, In t times -> (t < v)%Q) -> interp times n y v = Err ValueError.
Proof.
  intros H. unfold interp, interp1d. destruct (split (length times) n y) as [|p ps] eqn:Ep; [reflexivity|]. rewrite <- Ep. destruct forallb; [|reflexivity].
  set (xy := sort (combine times (split (length times) n y))). destruct (nth_error xy 0) as [[t0 q0]|] eqn:E0; [|reflexivity].
  destruct (nth_error xy (length xy - 1)) as [[t1 q1]|] eqn:E1; [|reflexivity].
  assert (forall t q k, nth_error xy k = Some (t, q) -> In t times) as K.
  { intros t q k E. apply nth_error_In in E. apply (Permutation_in _ (sort_perm _)) in E. now apply in_combine_l in E. }
  assert ((qltb v t0 || qltb t1 v)%bool = true) as B.
  { apply Bool.orb_true_iff. rewrite !qltb_iff. destruct H as [H|H]; [left; apply H; eapply K; eauto|right; apply H; eapply K; eauto]. }
  destruct (nth_error xy (Nat.min _ _ - 1)) as [[lo a]|]; [|reflexivity]. destruct (nth_error xy (Nat.min _ _)) as [[hi b]|]; [|reflexivity].
  rewrite <- Bool.orb_assoc, B, Bool.orb_true_r. reflexivity.
Qed.
Print Assumptions C145_outside.

Lemma index_nth times v k : index times v = Some k -> exists t, nth_error times k = Some t /\ (t == v)%Q.
Proof.
  revert k. induction times as [|t times IH]; cbn; intros k H; [discriminate|]. destruct (Qeq_bool t v) eqn:E.
  - injection H as <-. exists t. split; [reflexivity|]. now apply Qeq_bool_iff.
  - destruct (index times v) as [m|]; [|discriminate]. injection H as <-. now apply IH.
Qed.
Lemma value_row y r s c : value y r s = Some c -> exists x, In x y /\ In c x.
Proof.
  unfold value. destruct (nth_error y r) as [x|] eqn:E; [|discriminate]. intros H. exists x. split; eapply nth_error_In; eauto.
Qed.
Lemma value_some times n w y k r s : shaped times n w y -> k < length times -> r < n -> s < w -> exists c, value y (k * n + r) s = Some c.
Proof.
  intros [Ly Fy] Lk Lr Ls. unfold value. destruct (nth_error y (k * n + r)) as [x|] eqn:E.
  - rewrite Forall_forall in Fy. specialize (Fy x (nth_error_In _ _ E)). destruct (nth_error x s) as [c|] eqn:Ec; [eauto|]. apply nth_error_None in Ec. lia.
  - apply nth_error_None in E. nia.
Qed.

(** C146: at one of its times a series without NaN gives the item of that time. *)
Definition same (a b : option num) : Prop :=
  match a, b with Some (Some x), Some (Some y) => (x == y)%Q | Some None, Some None => True | None, None => True | _, _ => False end.
Theorem C146_at_times_partial times n w y v : distinct times -> 2 <= length times -> shaped times n w y -> (forall x, In x y -> ~ In None x) ->
  (exists t, In t times /\ (t == v)%Q) ->
  exists z z', interp times n y v = Ok z /\ item times n y v = Ok z' /\ forall r s, same (value z r s) (value z' r s).
Proof.
  intros D L Sh Nn (t & Ht & Et).
  assert (inside times v) as I by (split; exists t; split; auto; lra).
  destruct (C145_interpolation times v D L I) as (i & j & lo & hi & (Ai & Aj & A1 & A2 & A3 & A4) & H).
  destruct (H n w y Sh) as (z & Ez & Lz & Fz & Hz). exists z, (firstn n (skipn (match index times v with Some k => k | None => 0 end * n) y)).
  assert (exists k, index times v = Some k) as (k & Ek).
  { clear - Ht Et. induction times as [|a times IH]; [destruct Ht|]. cbn. destruct (Qeq_bool a v) eqn:E; [eauto|]. destruct Ht as [->|Ht].
    - apply Qeq_bool_iff in Et. congruence.
    - destruct (IH Ht) as (k & ->). cbn. eauto. }
  split; [exact Ez|]. unfold item. rewrite Ek. split; [reflexivity|]. destruct (index_nth _ _ _ Ek) as (tk & Hk & Ek').
  assert (k < length times) as Lk by (apply nth_error_Some; congruence). assert (i < length times) as Li by (apply nth_error_Some; congruence).
  assert (j < length times) as Lj by (apply nth_error_Some; congruence).
  intros r s. destruct (Nat.lt_ge_cases r n) as [Lr|Lr].
  2:{ unfold value. assert (nth_error z r = None) as -> by (apply nth_error_None; lia).
      assert (nth_error (firstn n (skipn (k * n) y)) r = None) as ->; [|exact Logic.I]. apply nth_error_None. rewrite firstn_length. lia. }
  assert (value (firstn n (skipn (k * n) y)) r s = value y (k * n + r) s) as -> by (unfold value; rewrite nth_firstn by exact Lr; now rewrite nth_skip).
  destruct (Nat.lt_ge_cases s w) as [Ls|Ls].
  2:{ assert (forall y' r', Forall (fun x : row => length x = w) y' -> value y' r' s = None) as Vn.
      { intros y' r' F. unfold value. destruct (nth_error y' r') as [x|] eqn:E; [|reflexivity]. apply nth_error_None. rewrite Forall_forall in F.
        rewrite (F x (nth_error_In _ _ E)). exact Ls. }
      rewrite !Vn; [exact Logic.I|apply Sh|exact Fz]. }
  destruct (value_some _ _ _ _ i r s Sh Li Lr Ls) as (a & Va), (value_some _ _ _ _ j r s Sh Lj Lr Ls) as (b & Vb).
  assert (forall k' c, value y k' s = Some c -> c <> None) as Fin.
  { intros k' c Vc ->. apply value_row in Vc as (x & Hx & Hc). exact (Nn x Hx Hc). }
  destruct (Hz r s a b Lr Va Vb) as (c & Vc & Hc). rewrite Vc.
  destruct a as [a|]; [|now destruct (Fin _ _ Va)]. destruct b as [b|]; [|now destruct (Fin _ _ Vb)]. destruct c as [c|]; [|destruct Hc].
  destruct (A4 tk (nth_error_In _ _ Hk)) as [T|T].
  - assert (lo == tk)%Q as E by lra. rewrite <- (D i k _ _ Ai Hk E), Va. cbn. rewrite Hc. assert (v == lo)%Q as -> by lra. field. lra.
  - assert (hi == tk)%Q as E by lra. rewrite <- (D j k _ _ Aj Hk E), Vb. cbn. rewrite Hc. assert (v == hi)%Q as -> by lra. field. lra.
Qed.
Print Assumptions C146_at_times_partial.
Example C146_example : shaped ex_times 1 1 [[Some (30#1)]; [Some (10#1)]; [Some (20#1)]]
  /\ (forall x, In x [[Some (30#1)]; [Some (10#1)]; [Some (20#1)]] -> ~ In None x) /\ exists t, In t ex_times /\ (t == 4#2)%Q.
Proof.
  split; [split; [reflexivity|repeat constructor]|]. split.
  - intros x [<-|[<-|[<-|[]]]] [H|[]]; discriminate H.
  - exists (2#1). split; [cbn; auto|reflexivity].
Qed.
(** With a NaN at the time before, the value at a time is lost although the item has it. *)
Theorem C146_at_times_refuted : exists times n w y v q, distinct times /\ 2 <= length times /\ shaped times n w y /\ In v times
  /\ item times n y v = Ok [[Some q]] /\ interp times n y v = Ok [[None]].
Proof.
  exists [1#1; 2#1], 1, 1, [[None]; [Some (5#1)]], (2#1), (5#1). split; [|split; [|split; [|split; [|split]]]].
  - intros i j a b Hi Hj E. destruct i as [|[|i]], j as [|[|j]]; try reflexivity; cbn in Hi, Hj; try (now destruct i); try (now destruct j);
      injection Hi as <-; injection Hj as <-; unfold Qeq in E; cbn in E; lia.
  - cbn. lia.
  - split; [reflexivity|repeat constructor].
  - cbn. auto.
  - reflexivity.
  - vm_compute. reflexivity.
Qed.
Print Assumptions C146_at_times_refuted.

(** C147: the mean of an interpolated series is the interpolation of the means. Any weighted sum over the samples does. *)
Fixpoint dot (c : list Q) (x : row) : num :=
  match c, x with a :: c', b :: x' => lift2 Qplus (lift1 (Qmult a) b) (dot c' x') | _, _ => Some 0%Q end.
Lemma dot_finite c x : ~ In None x -> exists d, dot c x = Some d.
Proof.
  revert x. induction c as [|a c IH]; intros [|b x] N; cbn; eauto. destruct b as [b|]; [|now destruct N; left].
  destruct (IH x) as (d & ->); [intros H; apply N; now right|]. cbn. eauto.
Qed.
Lemma dot_linear lo hi v c : ~ (hi == lo)%Q -> forall x1 x2 x d1 d2, length x1 = length x2 -> length x = length x1 ->
  (forall s a b, nth_error x1 s = Some (Some a) -> nth_error x2 s = Some (Some b) ->
     exists z, nth_error x s = Some (Some z) /\ (z == ((hi - v) * a + (v - lo) * b) / (hi - lo))%Q) ->
  dot c x1 = Some d1 -> dot c x2 = Some d2 -> ~ In None x1 -> ~ In None x2 ->
  exists d, dot c x = Some d /\ (d == ((hi - v) * d1 + (v - lo) * d2) / (hi - lo))%Q.
Proof.
  intros Ne. assert (~ hi - lo == 0)%Q as Ne' by (intros E; apply Ne; lra).
  induction c as [|k c IH]; intros x1 x2 x d1 d2 L1 L2 H D1 D2 N1 N2.
  - cbn in *. injection D1 as <-. injection D2 as <-. exists 0%Q. split; [reflexivity|]. field. exact Ne'.
  - destruct x1 as [|a x1], x2 as [|b x2], x as [|z x]; try discriminate.
    + cbn in *. injection D1 as <-. injection D2 as <-. exists 0%Q. split; [reflexivity|]. field. exact Ne'.
    + destruct a as [a|]; [|now destruct N1; left]. destruct b as [b|]; [|now destruct N2; left]. cbn in D1, D2.
      assert (~ In None x1) as N1' by (intros X; apply N1; now right). assert (~ In None x2) as N2' by (intros X; apply N2; now right).
      destruct (dot_finite c x1 N1') as (e1 & E1), (dot_finite c x2 N2') as (e2 & E2). rewrite E1 in D1. rewrite E2 in D2. cbn in D1, D2.
      injection D1 as <-. injection D2 as <-. destruct (H 0 a b eq_refl eq_refl) as (z0 & Ez & Hz). cbn in Ez. injection Ez as ->.
      destruct (IH x1 x2 x e1 e2) as (d & Ed & Hd); auto.
      * intros s p q Hp Hq. exact (H (S s) p q Hp Hq).
      * cbn. rewrite Ed. cbn. eexists. split; [reflexivity|]. rewrite Hz, Hd. field. exact Ne'.
Qed.
Theorem C147_means times n w y v c : distinct times -> 2 <= length times -> inside times v -> shaped times n w y -> (forall x, In x y -> ~ In None x) ->
  exists z m, interp times n y v = Ok z /\ interp times n (map (fun x => [dot c x]) y) v = Ok m
  /\ length z = n /\ length m = n /\ forall r x, nth_error z r = Some x -> same (Some (dot c x)) (value m r 0).
Proof.
  intros D L I Sh Nn. destruct (C145_interpolation times v D L I) as (i & j & lo & hi & (Ai & Aj & A1 & A2 & A3 & A4) & H).
  destruct (H n w y Sh) as (z & Ez & Lz & Fz & Hz).
  assert (shaped times n 1 (map (fun x => [dot c x]) y)) as Sh'.
  { destruct Sh as [Ly _]. split; [now rewrite map_length|]. apply Forall_forall. intros x Hx. apply in_map_iff in Hx as (x0 & <- & _). reflexivity. }
  destruct (H n 1 _ Sh') as (m & Em & Lm & Fm & Hm). exists z, m. split; [exact Ez|]. split; [exact Em|]. split; [exact Lz|]. split; [exact Lm|].
  intros r x Hx. assert (r < n) as Lr by (rewrite <- Lz; apply nth_error_Some; congruence).
  assert (i < length times) as Li by (apply nth_error_Some; congruence). assert (j < length times) as Lj by (apply nth_error_Some; congruence).
  destruct Sh as [Ly Fy]. assert (forall k, k < length times -> exists x', nth_error y (k * n + r) = Some x' /\ length x' = w /\ ~ In None x') as Row.
  { intros k Lk. destruct (nth_error y (k * n + r)) as [x'|] eqn:E; [|apply nth_error_None in E; nia]. exists x'. split; [reflexivity|].
    apply nth_error_In in E. rewrite Forall_forall in Fy. split; auto. }
  destruct (Row i Li) as (x1 & R1 & W1 & F1), (Row j Lj) as (x2 & R2 & W2 & F2).
  destruct (dot_finite c x1 F1) as (d1 & D1), (dot_finite c x2 F2) as (d2 & D2).
  assert (value (map (fun x => [dot c x]) y) (i * n + r) 0 = Some (Some d1)) as V1 by (unfold value; rewrite nth_error_map, R1; cbn; now rewrite D1).
  assert (value (map (fun x => [dot c x]) y) (j * n + r) 0 = Some (Some d2)) as V2 by (unfold value; rewrite nth_error_map, R2; cbn; now rewrite D2).
  destruct (Hm r 0 _ _ Lr V1 V2) as (e & Ve & He). rewrite Ve. cbn in He. destruct e as [e|]; [|destruct He].
  destruct (dot_linear lo hi v c) with (x1 := x1) (x2 := x2) (x := x) (d1 := d1) (d2 := d2) as (d & Ed & Hd); try assumption.
  - lra.
  - exact (eq_trans W1 (eq_sym W2)).
  - etransitivity; [|symmetry; exact W1]. rewrite Forall_forall in Fz. apply Fz. now apply nth_error_In in Hx.
  - intros s a b Ha Hb. destruct (Hz r s (Some a) (Some b) Lr) as (q & Vq & Hq).
    + unfold value. rewrite R1. exact Ha.
    + unfold value. rewrite R2. exact Hb.
    + unfold value in Vq. rewrite Hx in Vq. destruct q as [q|]; [|destruct Hq]. eauto.
  - rewrite Ed. cbn. rewrite Hd, He. reflexivity.
Qed.
Print Assumptions C147_means.
Example C147_example : let y := [[Some (30#1); Some (10#1)]; [Some (10#1); Some (4#1)]; [Some (20#1); Some (0#1)]] in
  distinct ex_times /\ inside ex_times (5#2) /\ shaped ex_times 1 2 y /\ (forall x, In x y -> ~ In None x)
  /\ interp ex_times 1 (map (fun x => [dot [1#2; 1#2] x]) y) (5#2) <> Err ValueError.
Proof.
  cbv zeta. split; [exact (proj1 C145_example)|]. split; [exact (proj1 (proj2 C145_example))|]. split; [split; [reflexivity|repeat constructor]|]. split.
  - intros x [<-|[<-|[<-|[]]]] [H|[H|[]]]; discriminate H.
  - vm_compute. discriminate.
Qed.
