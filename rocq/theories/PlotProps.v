(** Data of the plots: C187 - C192. *)
From Coq Require Import Reals Lra.
From Verif Require Import Base BaseFacts PlotModel PlotFacts.
Open Scope R_scope.

(** ** C187: the subset of moments *)
Definition increasing (l : list Z) : Prop := forall i j, (i < j < length l)%nat -> (nth i l 0 < nth j l 0)%Z.
Definition pointwise_le (a b : list Z) : Prop := forall i, (i < length a)%nat -> (nth i a 0 <= nth i b 0)%Z.
(** The geometrical sequence of k numbers from 1 to n - 1. *)
Definition geometric (n k i : nat) : R := Rpower (INR n - 1) (INR i / INR (k - 1)).

Section Rounding.
Variable rnd : R -> Z.
Hypothesis rnd_ok : nearest rnd.

Lemma subset_unfold n k : (2 <= n)%nat -> (1 <= k)%nat -> exists x l, map rnd (geomspace (INR (n - 1)) k) = x :: l /\
  moments_subset rnd n (Some k) = Ok (x :: bump x l) /\ length l = (k - 1)%nat /\
  (forall i, (i < k)%nat -> nth i (x :: l) 0%Z = rnd (geometric n k i)).
Proof.
  intros Hn Hk. unfold moments_subset. assert ((n <=? 1)%nat = false) as -> by (apply Nat.leb_gt; lia).
  assert (L : length (map rnd (geomspace (INR (n - 1)) k)) = k) by (rewrite map_length; apply geomspace_length).
  assert (P : 0 < INR (n - 1)) by (apply lt_0_INR; lia).
  assert (G : forall i, (i < k)%nat -> nth i (map rnd (geomspace (INR (n - 1)) k)) 0%Z = rnd (geometric n k i)).
  { intros i Hi. rewrite (nth_indep _ 0%Z (rnd 0)) by lia. rewrite map_nth, geomspace_nth by assumption.
    unfold geometric. rewrite minus_INR by lia. reflexivity. }
  destruct (map rnd (geomspace (INR (n - 1)) k)) as [|x l]; [cbn in L; lia|].
  exists x, l. cbn [length] in L. repeat apply conj; auto. lia.
Qed.

(** The first [k] indices chosen among fewer than [n] moments: different, in range, from 1 to n - 1, and the least increasing
    sequence which is nowhere below the rounded geometrical one. *)
Theorem C187_subset n k : (1 <= k)%nat -> (k < n)%nat -> exists l, moments_subset rnd n (Some k) = Ok l /\ length l = k /\
  increasing l /\ (forall x, In x l -> 1 <= x <= Z.of_nat n - 1)%Z /\ nth 0 l 0%Z = 1%Z /\ ((2 <= k)%nat -> nth (k - 1) l 0%Z = (Z.of_nat n - 1)%Z) /\
  let g := map (fun i => rnd (geometric n k i)) (seq 0 k) in
  pointwise_le g l /\ (forall l', length l' = k -> increasing l' -> pointwise_le g l' -> pointwise_le l l').
Proof.
  intros Hk Hn. destruct (subset_unfold n k ltac:(lia) Hk) as (x & l & E & S & L & G).
  assert (LB : length (x :: bump x l) = k) by (cbn [length]; rewrite bump_length; lia).
  assert (ST : forall i, (Datatypes.S i < length (x :: bump x l))%nat -> (nth i (x :: bump x l) 0 < nth (Datatypes.S i) (x :: bump x l) 0)%Z).
  { intros i Hi. apply bump_step. lia. }
  assert (N1 : INR n - 1 = IZR (Z.of_nat n - 1)) by (rewrite minus_IZR, <- INR_IZR_INZ; reflexivity).
  assert (P : 1 <= INR n - 1). { rewrite N1. apply IZR_le. lia. }
  assert (X0 : nth 0 (x :: l) 0%Z = 1%Z).
  { rewrite G by lia. unfold geometric. change (INR 0) with 0. unfold Rdiv. rewrite Rmult_0_l, Rpower_O by lra. apply (nearest_int rnd 1 rnd_ok). }
  assert (UP : forall j, (j <= length l)%nat -> (nth j (x :: l) 0 + (Z.of_nat (k - 1) - Z.of_nat j) <= Z.of_nat n - 1)%Z).
  { intros j Hj. destruct (Nat.eq_dec k 1) as [->|K1].
    { assert (j = 0)%nat as -> by lia. rewrite X0. lia. }
    rewrite G by lia. cut (rnd (geometric n k j) <= Z.of_nat n - 1 - (Z.of_nat (k - 1) - Z.of_nat j))%Z; [lia|].
    apply nearest_le; [exact rnd_ok|]. rewrite !minus_IZR, <- !INR_IZR_INZ.
    assert (KP : 0 < INR (k - 1)) by (apply lt_0_INR; lia).
    set (t := INR j / INR (k - 1)).
    assert (T : 0 <= t <= 1).
    { unfold t. split; [apply Rmult_le_pos; [apply pos_INR|left; apply Rinv_0_lt_compat; exact KP]|].
      apply (Rmult_le_reg_r (INR (k - 1))); [exact KP|]. unfold Rdiv. rewrite Rmult_assoc, Rinv_l, Rmult_1_r, Rmult_1_l by lra. apply le_INR. lia. }
    assert (TJ : INR j = t * INR (k - 1)) by (unfold t; field; lra).
    unfold geometric. fold t. pose proof (power_chord (INR n - 1) t ltac:(lra) T) as C.
    assert (D : INR (k - 1) <= INR n - 2). { rewrite minus_INR by lia. change (INR 1) with 1. assert (INR k + 1 <= INR n) by (rewrite <- S_INR; apply le_INR; lia). lra. }
    assert (E2 : (1 - t) * INR (k - 1) <= (1 - t) * (INR n - 2)) by (apply Rmult_le_compat_l; lra).
    rewrite TJ. nra. }
  assert (UB : forall i, (i < k)%nat -> (nth i (x :: bump x l) 0 + (Z.of_nat (k - 1) - Z.of_nat i) <= Z.of_nat n - 1)%Z).
  { intros i Hi. apply bump_upper; [exact UP|lia]. }
  exists (x :: bump x l). split; [exact S|]. split; [exact LB|].
  split; [intros i j H; apply steps_increasing; auto|].
  split.
  { intros y Hy. apply (In_nth _ _ 0%Z) in Hy. destruct Hy as (i & Hi & <-).
    pose proof (steps_lower _ ST i Hi) as SL. cbn [nth] in X0. change (nth 0 (x :: bump x l) 0%Z) with x in SL.
    pose proof (UB i ltac:(lia)). lia. }
  split; [exact X0|]. split.
  { intros K2. apply Z.le_antisymm.
    - pose proof (UB (k - 1)%nat ltac:(lia)). lia.
    - eapply Z.le_trans; [|apply bump_ge]. rewrite G by lia. unfold geometric.
      replace (INR (k - 1) / INR (k - 1)) with 1 by (field; apply not_0_INR; lia). rewrite Rpower_1 by lra. rewrite N1, (nearest_int rnd _ rnd_ok). lia. }
  cbv zeta.
  assert (GN : forall i, (i < k)%nat -> nth i (map (fun i => rnd (geometric n k i)) (seq 0 k)) 0%Z = nth i (x :: l) 0%Z).
  { intros i Hi. rewrite (nth_indep _ 0%Z (rnd (geometric n k 0))) by (rewrite map_length, seq_length; exact Hi).
    rewrite (map_nth (fun i => rnd (geometric n k i)) (seq 0 k) 0%nat i), seq_nth by exact Hi. rewrite G by exact Hi. reflexivity. }
  split.
  - intros i Hi. rewrite map_length, seq_length in Hi. rewrite GN by exact Hi. apply bump_ge.
  - intros l' L' I' P' i Hi. rewrite LB in Hi. apply bump_least; try lia.
    + intros j Hj. apply I'. lia.
    + intros j Hj. rewrite <- GN by lia. apply P'. rewrite map_length, seq_length. lia.
Qed.

(** Without a number all moments except the first one are taken. *)
Theorem C187_all n : exists l, moments_subset rnd n None = Ok l /\ increasing l /\ forall x, In x l <-> (1 <= x < Z.of_nat n)%Z.
Proof.
  eexists. split; [reflexivity|]. split.
  - intros i j H. rewrite map_length, seq_length in H.
    change 0%Z with (Z.of_nat 0). rewrite !map_nth, !seq_nth by lia. lia.
  - intros x. rewrite in_map_iff. split.
    + intros (i & <- & Hi). apply in_seq in Hi. lia.
    + intros H. exists (Z.to_nat x). split; [lia|]. apply in_seq. lia.
Qed.

(** With [n] or more indices asked for, some index is outside of the moments. *)
Theorem C187_too_many n k : (2 <= n)%nat -> (n <= k)%nat -> exists l, moments_subset rnd n (Some k) = Ok l /\ exists x, In x l /\ (Z.of_nat n <= x)%Z.
Proof.
  intros Hn Hk. destruct (subset_unfold n k Hn ltac:(lia)) as (x & l & E & S & L & G).
  exists (x :: bump x l). split; [exact S|].
  assert (ST : forall i, (Datatypes.S i < length (x :: bump x l))%nat -> (nth i (x :: bump x l) 0 < nth (Datatypes.S i) (x :: bump x l) 0)%Z).
  { intros i Hi. apply bump_step. cbn [length] in Hi. rewrite bump_length in Hi. lia. }
  exists (nth (k - 1) (x :: bump x l) 0%Z). split; [apply nth_In; cbn [length]; rewrite bump_length; lia|].
  pose proof (steps_lower _ ST (k - 1)%nat ltac:(cbn [length]; rewrite bump_length; lia)) as SL.
  change (nth 0 (x :: bump x l) 0%Z) with (nth 0 (x :: l) 0%Z) in SL. rewrite G in SL by lia.
  assert (1 <= rnd (geometric n k 0))%Z.
  { apply nearest_ge; [exact rnd_ok|]. apply power_ge1.
    - assert (INR 2 <= INR n) by (apply le_INR; lia). change (INR 2) with (1 + 1) in H. lra.
    - change (INR 0) with 0. unfold Rdiv. rewrite Rmult_0_l. lra. }
  lia.
Qed.
End Rounding.

(** Rounding exists. *)
Definition half_up (x : R) : Z := (up (x - 1 / 2))%Z.
Lemma half_up_nearest : nearest half_up.
Proof. intros x. unfold half_up. destruct (archimed (x - 1 / 2)). apply Rabs_le. lra. Qed.

Example C187_example : moments_subset half_up 3 (Some 2%nat) = Ok [1; 2]%Z /\ (exists l, moments_subset half_up 3 (Some 4%nat) = Ok l /\ exists x, In x l /\ (3 <= x)%Z).
Proof.
  split.
  - destruct (C187_subset half_up half_up_nearest 3 2 ltac:(lia) ltac:(lia)) as (l & E & L & I & B & F & La & _).
    rewrite E. destruct l as [|a [|b [|c l]]]; cbn in L; try lia. cbn in F, La. specialize (La ltac:(lia)). subst. reflexivity.
  - exact (C187_too_many half_up half_up_nearest 3 4 ltac:(lia) ltac:(lia)).
Qed.

(** ** C188: plot of the level variances *)
(** One MLMC method added to the plot: its steps and the table of variances. *)
Definition method := (list R * list (list R))%type.
Section Points.
Variable rnd : R -> Z.
Variable kind : option nat.
Variable n : nat.

Fixpoint add_methods (ms : list method) (s : varplot) : varplot * res unit :=
  match ms with
  | [] => (s, Ok tt)
  | m :: ms' => match add_level_variances rnd kind n (fst m) (snd m) s with
                | (s', Ok _) => add_methods ms' s'
                | (s', Err e) => (s', Err e)
                end
  end.

(** All points of moment [i]. *)
Definition points (ms : list method) (i : Z) : list (R * R) :=
  flat_map (fun m => combine (fst m) (map (fun row => nth (Z.to_nat i) row 0) (snd m))) ms.
Definition rectangular (m : method) : Prop := length (fst m) = length (snd m) /\ (1 <= length (fst m))%nat.
(** Steps from the coarsest to the finest. *)
Definition coarse_to_fine (l : list R) : Prop := forall x, In x l -> last l 0 <= x <= hd 0 l.
End Points.

Lemma combine_app {A B} (a a' : list A) (b b' : list B) : length a = length b -> combine (a ++ a') (b ++ b') = combine a b ++ combine a' b'.
Proof. revert b. induction a as [|x a IH]; intros [|y b] H; cbn in *; try lia; [reflexivity|]. f_equal. apply IH. lia. Qed.

Lemma collect_get steps cols : forall m d k, dget (collect m steps cols d) k =
  if (m <=? k)%nat && (k <? m + length cols)%nat then
    let old := match dget d k with Some p => p | None => ([], []) end in Some (fst old ++ steps, snd old ++ nth (k - m) cols [])
  else dget d k.
Proof.
  induction cols as [|c cols IH]; intros m d k; cbn [collect length].
  - destruct (Nat.leb_spec m k), (Nat.ltb_spec k (m + 0)); cbn [andb]; try reflexivity; lia.
  - rewrite IH. destruct (Nat.eq_dec m k) as [->|N].
    + rewrite dget_dset_eq.
      destruct (Nat.leb_spec (S k) k), (Nat.leb_spec k k), (Nat.ltb_spec k (k + S (length cols))); cbn [andb]; try lia.
      rewrite Nat.sub_diag. reflexivity.
    + rewrite dget_dset_neq by auto.
      destruct (Nat.leb_spec (S m) k), (Nat.leb_spec m k), (Nat.ltb_spec k (S m + length cols)), (Nat.ltb_spec k (m + S (length cols))); cbn [andb]; try lia; try reflexivity.
      cbv zeta. replace (k - m)%nat with (S (k - S m)) by lia. reflexivity.
Qed.

Lemma columns_rows t sub vars : columns t sub = Ok vars -> length vars = length t /\
  (forall l q, (l < length t)%nat -> (q < length sub)%nat -> nth q (nth l vars []) 0 = nth (Z.to_nat (nth q sub 0%Z)) (nth l t []) 0) /\
  Forall (fun r => length r = length sub) vars.
Proof.
  unfold columns. intros E. apply mapr_ok in E. induction E as [|row v t vars Er F IH].
  - split; [reflexivity|]. split; [intros l q H; cbn in H; lia|constructor].
  - destruct IH as (L & V & W). apply mapr_ok in Er.
    assert (LV : length v = length sub) by (clear - Er; induction Er; cbn; auto).
    split; [cbn; lia|]. split; [|constructor; assumption].
    intros [|l] q Hl Hq; [|cbn [nth]; apply V; cbn in Hl; lia]. cbn [nth].
    clear - Er Hq. revert q Hq. induction Er as [|z y sub v E F IH]; intros q Hq; cbn [length] in Hq; [lia|].
    destruct q as [|q]; cbn [nth].
    + unfold at_index in E. destruct (nth_error row (Z.to_nat z)) as [x|] eqn:N; [|discriminate]. injection E as <-.
      symmetry. apply nth_error_nth. exact N.
    + apply IH. lia.
Qed.

Lemma column_rows t sub vars q : columns t sub = Ok vars -> (q < length sub)%nat ->
  column vars q = map (fun row => nth (Z.to_nat (nth q sub 0%Z)) row 0) t.
Proof.
  intros E Hq. destruct (columns_rows _ _ _ E) as (L & V & _). unfold column.
  apply (nth_ext _ _ 0 0); rewrite !map_length; [exact L|]. intros l Hl.
  rewrite (nth_indep _ 0 (nth q [] 0)) by (rewrite map_length; lia). rewrite (map_nth (fun row => nth q row 0) vars []).
  rewrite V by lia. rewrite (nth_indep (map _ t) 0 (nth (Z.to_nat (nth q sub 0%Z)) [] 0)) by (rewrite map_length; lia).
  rewrite (map_nth (fun row => nth (Z.to_nat (nth q sub 0%Z)) row 0) t []). reflexivity.
Qed.

Definition big : R := powerRZ 10 300.

Section PointsProof.
Variable rnd : R -> Z.
Variable kind : option nat.
Variable n : nat.

(** State after the methods [ms]. *)
Definition holds (ms : list method) (s : varplot) : Prop :=
  match ms with
  | [] => s = vp_init
  | _ => vp_n s = Some n /\ moments_subset rnd n kind = Ok (vp_subset s) /\
      (forall k, (k < length (vp_subset s))%nat -> exists X Y, dget (vp_data s) k = Some (X, Y) /\ length X = length Y /\
         combine X Y = points ms (nth k (vp_subset s) 0%Z)) /\
      (Forall (fun m => coarse_to_fine (fst m)) ms -> (forall m x, In m ms -> In x (fst m) -> 0 < x < big) ->
        (forall m x, In m ms -> In x (fst m) -> vp_min s <= x <= vp_max s) /\
        (exists m x, In m ms /\ In x (fst m) /\ vp_min s = x) /\ (exists m x, In m ms /\ In x (fst m) /\ vp_max s = x))
  end.

Lemma holds_step ms m s s' : holds ms s -> rectangular m -> add_level_variances rnd kind n (fst m) (snd m) s = (s', Ok tt) -> holds (ms ++ [m]) s'.
Proof.
  intros H [R1 R2] E. unfold add_level_variances in E.
  set (ch := match vp_n s with None => _ | Some _ => _ end) in E.
  assert (CH : fst ch = Some n /\ snd ch = moments_subset rnd n kind \/ exists e, snd ch = Err e).
  { unfold ch. destruct ms as [|m0 ms].
    - cbn in H. subst s. left. split; reflexivity.
    - cbn [holds] in H. destruct H as (N & SB & _). rewrite N. cbn. rewrite Nat.eqb_refl. left. auto. }
  destruct CH as [[C1 C2]|[e C]]; [|rewrite C in E; discriminate].
  rewrite C2 in E. destruct (moments_subset rnd n kind) as [sub|e] eqn:SUB; [|discriminate].
  destruct (columns (snd m) sub) as [vars|e] eqn:COL; [|destruct (fst m); discriminate].
  destruct (fst m) as [|f steps] eqn:FS; [discriminate|].
  set (st := f :: steps) in *.
  assert (E' : s' = {| vp_n := fst ch; vp_subset := sub; vp_min := Rmin (vp_min s) (last st 0); vp_max := Rmax (vp_max s) f;
     vp_data := collect 0 st (map (column vars) (seq 0 (length sub))) (vp_data s) |}) by congruence.
  clear E. subst s'. cbn [vp_n vp_subset vp_min vp_max vp_data].
  assert (OLD : forall k, (k < length sub)%nat -> exists X Y, match dget (vp_data s) k with Some p => p | None => ([], []) end = (X, Y) /\ length X = length Y /\ combine X Y = points ms (nth k sub 0%Z)).
  { intros k Hk. destruct ms as [|m0 ms].
    - cbn in H. subst s. exists [], []. cbn. auto.
    - destruct H as (N & SB & D & _). assert (vp_subset s = sub) as Es by congruence. rewrite Es in D. destruct (D k Hk) as (X & Y & -> & L & P). exists X, Y. auto. }
  assert (G : holds (ms ++ [m]) {| vp_n := fst ch; vp_subset := sub; vp_min := Rmin (vp_min s) (last st 0); vp_max := Rmax (vp_max s) f;
     vp_data := collect 0 st (map (column vars) (seq 0 (length sub))) (vp_data s) |} <-> 
     (fun ms' s => vp_n s = Some n /\ Ok sub = Ok (vp_subset s) /\
      (forall k, (k < length (vp_subset s))%nat -> exists X Y, dget (vp_data s) k = Some (X, Y) /\ length X = length Y /\
         combine X Y = points ms' (nth k (vp_subset s) 0%Z)) /\
      (Forall (fun m => coarse_to_fine (fst m)) ms' -> (forall m x, In m ms' -> In x (fst m) -> 0 < x < big) ->
        (forall m x, In m ms' -> In x (fst m) -> vp_min s <= x <= vp_max s) /\
        (exists m x, In m ms' /\ In x (fst m) /\ vp_min s = x) /\ (exists m x, In m ms' /\ In x (fst m) /\ vp_max s = x))) (ms ++ [m]) {| vp_n := fst ch; vp_subset := sub; vp_min := Rmin (vp_min s) (last st 0); vp_max := Rmax (vp_max s) f;
     vp_data := collect 0 st (map (column vars) (seq 0 (length sub))) (vp_data s) |}).
  { unfold holds. rewrite SUB. destruct ms; cbn [app]; reflexivity. }
  apply G. clear G. cbn [vp_n vp_subset vp_min vp_max vp_data]. cbv beta.
  split; [exact C1|]. split; [reflexivity|]. split.
  - intros k Hk. rewrite collect_get. rewrite map_length, seq_length. cbn [Nat.leb Nat.add andb].
    assert ((k <? length sub)%nat = true) as -> by (apply Nat.ltb_lt; exact Hk). cbv zeta.
    destruct (OLD k Hk) as (X & Y & -> & L & P). cbn [fst snd].
    rewrite Nat.sub_0_r. rewrite (nth_indep _ [] (column vars 0)) by (rewrite map_length, seq_length; exact Hk).
    rewrite map_nth, seq_nth by exact Hk. cbn [Nat.add]. rewrite (column_rows _ _ _ _ COL Hk).
    eexists _, _. split; [reflexivity|]. split.
    + rewrite !app_length, map_length. lia.
    + rewrite combine_app by exact L. unfold points. rewrite flat_map_app. cbn [flat_map]. rewrite app_nil_r, FS. f_equal. exact P.
  - intros CF BD.
    assert (CFm : coarse_to_fine st). { apply Forall_app in CF. destruct CF as [_ CF]. inversion CF as [|a b CA CB]. subst. rewrite <- FS. exact CA. }
    assert (INf : In f st) by (left; reflexivity).
    assert (INl : In (last st 0) st). { unfold st. clear. revert f. induction steps as [|g l IH]; intros f; [left; reflexivity|]. right. apply (IH g). }
    assert (BM : forall x, In x st -> 0 < x < big). { intros x Hx. apply (BD m); [apply in_or_app; right; left; reflexivity|]. rewrite FS. exact Hx. }
    assert (Im : In m (ms ++ [m])) by (apply in_or_app; right; left; reflexivity).
    destruct ms as [|m0 ms'].
    + cbn in H. subst s. cbn [vp_init vp_min vp_max].
      pose proof (BM _ INf) as Bf. pose proof (BM _ INl) as Bl. fold big in *.
      rewrite Rmin_right by lra. rewrite Rmax_right by lra.
      split; [|split].
      * intros m' x [<-|[]] Hx. rewrite FS in Hx. exact (CFm x Hx).
      * exists m, (last st 0). repeat apply conj; auto. rewrite FS. exact INl.
      * exists m, f. repeat apply conj; auto. rewrite FS. exact INf.
    + destruct H as (_ & _ & _ & H). 
      destruct H as (B & (ma & xa & Ia & Ja & Ka) & (mb & xb & Ib & Jb & Kb)).
      { apply Forall_app in CF. apply CF. }
      { intros m' x Hm Hx. apply (BD m'); auto. apply in_or_app. left. exact Hm. }
      split; [|split].
      * intros m' x Hm Hx. apply in_app_or in Hm. pose proof (Rmin_l (vp_min s) (last st 0)). pose proof (Rmin_r (vp_min s) (last st 0)).
        pose proof (Rmax_l (vp_max s) f). pose proof (Rmax_r (vp_max s) f).
        destruct Hm as [Hm|[<-|[]]]; [destruct (B m' x Hm Hx); lra|]. rewrite FS in Hx. destruct (CFm x Hx) as [c1 c2]. cbn [hd st] in c2. unfold st in c2. cbn [hd] in c2. lra.
      * unfold Rmin. destruct (Rle_dec (vp_min s) (last st 0)).
        -- exists ma, xa. repeat apply conj; auto. apply in_or_app. left. exact Ia.
        -- exists m, (last st 0). repeat apply conj; auto. rewrite FS. exact INl.
      * unfold Rmax. destruct (Rle_dec (vp_max s) f).
        -- exists m, f. repeat apply conj; auto. rewrite FS. exact INf.
        -- exists mb, xb. repeat apply conj; auto. apply in_or_app. left. exact Ib.
Qed.

Lemma holds_run ms : Forall rectangular ms -> forall s done s', holds done s -> add_methods rnd kind n ms s = (s', Ok tt) -> holds (done ++ ms) s'.
Proof.
  induction 1 as [|m ms Rm F IH]; intros s done s' H E; cbn [add_methods] in E.
  - rewrite app_nil_r. congruence.
  - destruct (add_level_variances rnd kind n (fst m) (snd m) s) as [s1 [[]|e]] eqn:A; [|discriminate].
    pose proof (holds_step _ _ _ _ H Rm A) as H1. specialize (IH _ _ _ H1 E). rewrite <- app_assoc in IH. exact IH.
Qed.

(** The data kept for the k-th chosen moment are all its points, and the range of steps is the range of all steps. *)
Theorem C188_points ms s : Forall rectangular ms -> ms <> [] -> add_methods rnd kind n ms vp_init = (s, Ok tt) ->
  exists sub, moments_subset rnd n kind = Ok sub /\
  (forall k, (k < length sub)%nat -> exists X Y, dget (vp_data s) k = Some (X, Y) /\ length X = length Y /\ combine X Y = points ms (nth k sub 0%Z)) /\
  (Forall (fun m => coarse_to_fine (fst m)) ms -> (forall m x, In m ms -> In x (fst m) -> 0 < x < big) ->
    (forall m x, In m ms -> In x (fst m) -> vp_min s <= x <= vp_max s) /\
    (exists m x, In m ms /\ In x (fst m) /\ vp_min s = x) /\ (exists m x, In m ms /\ In x (fst m) /\ vp_max s = x)).
Proof.
  intros F NE E. pose proof (holds_run ms F vp_init [] s eq_refl E) as H. cbn [app] in H.
  destruct ms as [|m ms]; [congruence|]. destruct H as (_ & SB & D & M). exists (vp_subset s). auto.
Qed.
End PointsProof.

(** The curve: sorted steps. *)
Definition ascending (l : list R) : Prop := forall i j, (i < j < length l)%nat -> nth i l 0 < nth j l 0.
(** [y] is the value of the first point with the step [x]. *)
Definition first_value (X Y : list R) (x y : R) : Prop := exists i, nth_error X i = Some x /\ nth_error Y i = Some y /\ forall j, (j < i)%nat -> nth_error X j <> Some x.

Inductive sorted : list (R * nat) -> Prop :=
| sorted_nil : sorted []
| sorted_cons x i l : (forall y j, In (y, j) l -> x < y) -> sorted l -> sorted ((x, i) :: l).

Lemma insert_in x i l y j : In (y, j) (insert x i l) -> (y, j) = (x, i) \/ In (y, j) l.
Proof.
  induction l as [|[z k] l IH]; cbn [insert]; [intros [E|[]]; auto|].
  destruct (Rlt_dec x z); [intros [E|H]; auto|]. destruct (Req_EM_T x z); [auto|].
  intros [E|H]; [right; left; exact E|]. destruct (IH H); auto. right. right. assumption.
Qed.
Lemma insert_keeps x i l p : In p l -> In p (insert x i l).
Proof.
  induction l as [|[z k] l IH]; cbn [insert]; [intros []|].
  destruct (Rlt_dec x z); [intros H; right; exact H|]. destruct (Req_EM_T x z); [auto|].
  intros [E|H]; [left; exact E|right; auto].
Qed.
Lemma insert_has x i l : exists j, In (x, j) (insert x i l).
Proof.
  induction l as [|[z k] l IH]; cbn [insert]; [exists i; left; reflexivity|].
  destruct (Rlt_dec x z); [exists i; left; reflexivity|]. destruct (Req_EM_T x z); [subst; exists k; left; reflexivity|].
  destruct IH as [j H]. exists j. right. exact H.
Qed.
Lemma insert_new x i l : sorted l -> In (x, i) (insert x i l) -> (forall j, In (x, j) l -> In (x, i) l).
Proof.
  intros S. induction S as [|z k l B S IH]; cbn [insert]; [intros _ j []|].
  destruct (Rlt_dec x z) as [L|L].
  - intros _ j [E|H]; [injection E as -> _; lra|]. specialize (B _ _ H). lra.
  - destruct (Req_EM_T x z) as [E|N]; [auto|]. intros [E|H] j [E'|H']; try (injection E as -> _; congruence); try (injection E' as -> _; congruence). right. eapply IH; eauto.
Qed.
Lemma insert_sorted x i l : sorted l -> sorted (insert x i l).
Proof.
  induction 1 as [|z k l B S IH]; cbn [insert]; [repeat constructor; intros y j []|].
  destruct (Rlt_dec x z) as [L|L].
  - constructor; [|constructor; assumption]. intros y j [E|H]; [injection E as <- _; exact L|]. specialize (B _ _ H). lra.
  - destruct (Req_EM_T x z) as [E|N]; [constructor; assumption|]. constructor; [|exact IH].
    intros y j H. apply insert_in in H. destruct H as [E|H]; [injection E as -> _; lra|]. eapply B; eauto.
Qed.

Definition firsts (pre : list R) (u : list (R * nat)) : Prop :=
  sorted u /\ (forall x i, In (x, i) u -> nth_error pre i = Some x /\ forall j, (j < i)%nat -> nth_error pre j <> Some x) /\
  (forall x, In x pre -> exists i, In (x, i) u).

Lemma unique_firsts X : forall pre acc, firsts pre acc -> firsts (pre ++ X) (unique_from (length pre) X acc).
Proof.
  induction X as [|x X IH]; intros pre acc H; cbn [unique_from]; [rewrite app_nil_r; exact H|].
  specialize (IH (pre ++ [x]) (insert x (length pre) acc)). rewrite app_length in IH. cbn [length] in IH. rewrite Nat.add_1_r in IH.
  rewrite <- app_assoc in IH. apply IH. clear IH. destruct H as (S & F & A).
  split; [apply insert_sorted; exact S|]. split.
  - intros y i H. destruct (insert_in _ _ _ _ _ H) as [E|O].
    + injection E as -> ->. split; [rewrite nth_error_app2, Nat.sub_diag by lia; reflexivity|].
      intros j Hj E. rewrite nth_error_app1 in E by exact Hj.
      destruct (A x (nth_error_In _ _ E)) as [k Hk]. pose proof (insert_new _ _ _ S H _ Hk) as I.
      destruct (F _ _ I) as [G _]. assert (length pre < length pre)%nat; [|lia]. apply nth_error_Some. rewrite G. discriminate.
    + destruct (F _ _ O) as [G1 G2]. assert (i < length pre)%nat by (apply nth_error_Some; rewrite G1; discriminate).
      split; [rewrite nth_error_app1 by lia; exact G1|]. intros j Hj. rewrite nth_error_app1 by lia. apply G2. exact Hj.
  - intros y Hy. apply in_app_or in Hy. destruct Hy as [Hy|[<-|[]]]; [|apply insert_has].
    destruct (A y Hy) as [i Hi]. exists i. apply insert_keeps. exact Hi.
Qed.

Lemma sorted_ascending u : sorted u -> ascending (map fst u).
Proof.
  induction 1 as [|x i l B S IH]; intros a b [H1 H2]; cbn [map length] in *; [lia|].
  destruct b as [|b]; [lia|]. destruct a as [|a]; cbn [map nth fst].
  - assert (In (nth b (map fst l) 0) (map fst l)) as I by (apply nth_In; lia).
    apply in_map_iff in I. destruct I as ([y j] & E & I). cbn in E. rewrite <- E. eapply B; eauto.
  - apply IH. lia.
Qed.

(** The points used for the curve: one for every step except the smallest, with the value of the point added first. *)
Theorem C188_curve X Y : length X = length Y -> exists cX cY, curve X Y = Ok (cX, cY) /\ length cX = length cY /\ ascending cX /\
  (forall i, (i < length cX)%nat -> first_value X Y (nth i cX 0) (nth i cY 0)) /\
  (forall x, In x cX <-> In x X /\ exists y, In y X /\ y < x).
Proof.
  intros L. pose proof (unique_firsts X [] []) as U. cbn [app length] in U. fold (unique X) in U.
  assert (F0 : firsts [] []) by (split; [constructor|split; [intros x i []|intros x []]]).
  specialize (U F0). destruct U as (S & F & A). unfold curve, make_monotone. set (u := unique X) in *. clearbody u. clear F0.
  assert (M : exists ys, mapr (fun p : R * nat => match nth_error Y (snd p) with Some y => Ok y | None => Err IndexError end) u = Ok ys).
  { assert (FF : forall p, In p u -> exists y, match nth_error Y (snd p) with Some y => Ok y | None => Err IndexError end = Ok y).
    { intros [x i] H. destruct (F _ _ H) as [G _]. cbn [snd]. destruct (nth_error Y i) as [y|] eqn:N; [eauto|].
      apply nth_error_None in N. assert (i < length X)%nat by (apply nth_error_Some; rewrite G; discriminate). lia. }
    clear - FF. induction u as [|p u IH]; [exists []; reflexivity|]. cbn [mapr].
    destruct (FF p (or_introl eq_refl)) as [y ->]. destruct IH as [ys ->]; [intros q Hq; apply FF; right; exact Hq|]. exists (y :: ys). reflexivity. }
  destruct M as [ys M]. rewrite M. cbn [bind fst snd]. apply mapr_ok in M.
  eexists _, _. split; [reflexivity|].
  pose proof (sorted_ascending _ S) as AS.
  assert (LU : length u = length ys) by (clear - M; induction M; cbn; auto).
  assert (NT : forall {A} (l : list A) i d, nth i (tl l) d = nth (Datatypes.S i) l d) by (intros T [|a l] [|i] d; reflexivity).
  assert (TL : forall {A} (l : list A), length (tl l) = (length l - 1)%nat) by (intros T [|a l]; cbn; lia).
  split; [rewrite !TL, map_length; lia|]. split.
  { intros i j H. rewrite TL, map_length in H. rewrite !NT. apply AS. rewrite map_length. lia. }
  split.
  { intros i Hi. rewrite TL, map_length in Hi. rewrite !NT.
    assert (E : exists p, nth_error u (Datatypes.S i) = Some p). { destruct (nth_error u (Datatypes.S i)) eqn:N; [eauto|]. apply nth_error_None in N. lia. }
    destruct E as [[x k] E]. destruct (F x k (nth_error_In _ _ E)) as [G1 G2].
    assert (nth (Datatypes.S i) (map fst u) 0 = x) as ->. { apply nth_error_nth. rewrite nth_error_map, E. reflexivity. }
    exists k. split; [exact G1|]. split; [|exact G2].
    clear - M E. revert E. generalize (Datatypes.S i). induction M as [|p y u ys Ep M IH]; intros [|q] E; cbn in *; try discriminate.
    - injection E as ->. cbn in Ep. destruct (nth_error Y k); [|discriminate]. injection Ep as ->. reflexivity.
    - apply IH. exact E. }
  intros x. destruct S as [|z k l B S].
  { cbn. split; [intros []|]. intros [H _]. destruct (A x H) as [i []]. }
  cbn [map fst tl]. split.
  - intros H. apply in_map_iff in H. destruct H as ([y j] & E & H). cbn in E. subst y.
    destruct (F x j (or_intror H)) as [G _]. split; [eapply nth_error_In; eauto|].
    exists z. destruct (F z k (or_introl eq_refl)) as [Gz _]. split; [eapply nth_error_In; eauto|]. eapply B; eauto.
  - intros [H (y & Hy & L')]. destruct (A x H) as [i [E|I]].
    + injection E as -> _. destruct (A y Hy) as [j [E|J]]; [injection E as -> _; lra|]. specialize (B _ _ J). lra.
    + apply in_map_iff. exists (x, i). auto.
Qed.

Example C188_example : exists cX cY, curve [4; 2; 1; 4; 1] [10; 11; 12; 13; 14] = Ok (cX, cY) /\ In 4 cX /\ In 2 cX /\ ~ In 1 cX.
Proof.
  destruct (C188_curve [4; 2; 1; 4; 1] [10; 11; 12; 13; 14] eq_refl) as (cX & cY & E & _ & _ & _ & I).
  exists cX, cY. split; [exact E|]. split; [|split].
  - apply I. split; [cbn; auto|]. exists 1. split; [cbn; auto 10|lra].
  - apply I. split; [cbn; auto|]. exists 1. split; [cbn; auto 10|lra].
  - intros H. apply I in H. destruct H as [_ (y & Hy & L)]. cbn in Hy. lra.
Qed.

Example C188_points_example : let ms := [([4; 1], [[9; 5]; [9; 6]]); ([2], [[9; 7]])] in
  Forall rectangular ms /\ snd (add_methods half_up None 2 ms vp_init) = Ok tt /\ points ms 1 = [(4, 5); (1, 6); (2, 7)].
Proof.
  cbv zeta. split; [|split].
  - repeat constructor.
  - reflexivity.
  - reflexivity.
Qed.

(** ** C189: contributions of the levels to the variance *)
(** Contribution of a level to the variance of the estimate in column [j]: column 0 is the average over the chosen moments. *)
Definition share (sub : list Z) (row : list R) (n : R) (j : nat) : R :=
  match j with
  | O => fold_right Rplus 0 (map (fun i => nth (Z.to_nat i) row 0) sub) / INR (length sub) / n
  | S q => nth (Z.to_nat (nth q sub 0%Z)) row 0 / n
  end.
(** Sum of the contributions of the levels from [l] on. *)
Definition above (sub : list Z) (lv : list (list R)) (ns : list R) (l j : nat) : R :=
  fold_right Rplus 0 (map (fun p => share sub (fst p) (snd p) j) (skipn l (combine lv ns))).

Lemma zip_with_nth (f : R -> R -> R) a b j : length a = length b -> (j < length a)%nat -> nth j (zip_with f a b) 0 = f (nth j a 0) (nth j b 0).
Proof.
  revert b j. induction a as [|x a IH]; intros [|y b] j L H; cbn [length] in *; try lia.
  destruct j as [|j]; [reflexivity|]. cbn. apply (IH b j); lia.
Qed.
Lemma zip_with_length (f : R -> R -> R) a b : length a = length b -> length (zip_with f a b) = length a.
Proof. intros L. unfold zip_with. rewrite map_length, combine_length. lia. Qed.

Lemma heights_length vars n : length (heights vars n) = S (length vars).
Proof. unfold heights. cbn [map length]. now rewrite map_length. Qed.

Lemma heights_share sub row vars n j : mapr (at_index row) sub = Ok vars -> (j <= length sub)%nat -> nth j (heights vars n) 0 = share sub row n j.
Proof.
  intros E Hj. apply mapr_ok in E.
  assert (V : vars = map (fun i => nth (Z.to_nat i) row 0) sub).
  { clear - E. induction E as [|z y sub v E F IH]; cbn [map]; [reflexivity|]. f_equal; [|exact IH].
    unfold at_index in E. destruct (nth_error row (Z.to_nat z)) as [x|] eqn:N; [|discriminate]. injection E as <-. symmetry. apply nth_error_nth. exact N. }
  destruct j as [|q]; cbn [heights map nth share].
  - unfold mean, rsum. rewrite V, map_length. reflexivity.
  - rewrite (nth_indep _ 0 (0 / n)) by (rewrite map_length, V, map_length; lia). rewrite (map_nth (fun v => v / n)). f_equal.
    rewrite V. rewrite (nth_indep _ 0 (nth (Z.to_nat 0) row 0)) by (rewrite map_length; lia). rewrite (map_nth (fun i => nth (Z.to_nat i) row 0) sub 0%Z). reflexivity.
Qed.

(** What is drawn for one row of the stack: [low]: what is already drawn in each column. *)
Definition drawn (X : list R) (sub : list Z) (row : list R) (n : R) (ref : option (list R)) (low : nat -> R) (b : bar) : Prop :=
  b_x b = X /\ length (b_h b) = S (length sub) /\ length (b_bottom b) = S (length sub) /\
  (forall j, (j <= length sub)%nat -> nth j (b_h b) 0 = share sub row n j /\ nth j (b_bottom b) 0 = low j) /\
  match ref, b_err b with
  | None, None => True
  | Some r, Some (down, up) => length down = S (length sub) /\ length up = S (length sub) /\
      forall j, (j <= length sub)%nat -> 0 <= nth j down 0 /\ 0 <= nth j up 0 /\ (nth j down 0 = 0 \/ nth j up 0 = 0) /\
        nth j (b_h b) 0 + nth j up 0 - nth j down 0 = share sub r n j
  | _, _ => False
  end.

Inductive stacked (X : list R) (sub : list Z) : (nat -> R) -> list (list R * R * option (list R)) -> list bar -> Prop :=
| stacked_nil low : stacked X sub low [] []
| stacked_cons low row n ref rows b bars : drawn X sub row n ref low b ->
    stacked X sub (fun j => low j + share sub row n j) rows bars -> stacked X sub low ((row, n, ref) :: rows) (b :: bars).

(** Rows of the tables and the values chosen from them. *)
Definition picked (sub : list Z) (a b : list R * R * option (list R)) : Prop :=
  mapr (at_index (fst (fst a))) sub = Ok (fst (fst b)) /\ snd (fst a) = snd (fst b) /\
  match snd a, snd b with None, None => True | Some r, Some r' => mapr (at_index r) sub = Ok r' | _, _ => False end.

Lemma mapr_length {A B} (f : A -> res B) l ys : mapr f l = Ok ys -> length ys = length l.
Proof. intros E. apply mapr_ok in E. induction E; cbn; auto. Qed.

Lemma stack_stacked X sub rows rows' : Forall2 (picked sub) rows rows' -> forall low sumY, length sumY = S (length sub) ->
  (forall j, (j <= length sub)%nat -> nth j sumY 0 = low j) -> stacked X sub low rows (stack X sumY rows').
Proof.
  induction 1 as [|[[row n] ref] [[vars n'] ref'] rows rows' P F IH]; intros low sumY L S; cbn [stack]; [constructor|].
  destruct P as (P1 & P2 & P3). cbn [fst snd] in *. subst n'.
  assert (LH : length (heights vars n) = Datatypes.S (length sub)) by (rewrite heights_length, (mapr_length _ _ _ P1); reflexivity).
  constructor.
  - split; [reflexivity|]. split; [exact LH|]. split; [exact L|]. split.
    + intros j Hj. split; [apply heights_share; assumption|apply S; exact Hj].
    + destruct ref as [r|], ref' as [r'|]; try contradiction; cbn [b_err]; [|exact I].
      assert (LR : length (heights r' n) = Datatypes.S (length sub)) by (rewrite heights_length, (mapr_length _ _ _ P3); reflexivity).
      unfold error_bars. assert (LZ : length (zip_with Rminus (heights r' n) (heights vars n)) = Datatypes.S (length sub)) by (rewrite zip_with_length; lia).
      rewrite !map_length. split; [exact LZ|]. split; [exact LZ|]. intros j Hj. cbn [b_h].
      rewrite (nth_indep _ 0 (- Rmin 0 0)) by (rewrite map_length; lia). rewrite (map_nth (fun d => - Rmin d 0)).
      rewrite (nth_indep (map (fun d => Rmax d 0) _) 0 (Rmax 0 0)) by (rewrite map_length; lia). rewrite (map_nth (fun d => Rmax d 0)).
      rewrite zip_with_nth by lia. rewrite (heights_share _ _ _ _ _ P1 Hj), (heights_share _ _ _ _ _ P3 Hj).
      set (d := share sub r n j - share sub row n j). unfold Rmin, Rmax. destruct (Rle_dec d 0); unfold d in *; repeat apply conj; lra.
  - apply IH; [rewrite zip_with_length; lia|]. intros j Hj. rewrite zip_with_nth by lia. rewrite S, (heights_share _ _ _ _ _ P1) by exact Hj. reflexivity.
Qed.

Lemma Forall2_combine {A B C D} (P : A -> C -> Prop) (Q : B -> D -> Prop) a b c d : Forall2 P a c -> Forall2 Q b d ->
  Forall2 (fun x y => P (fst x) (fst y) /\ Q (snd x) (snd y)) (combine a b) (combine c d).
Proof. intros F. revert b d. induction F; intros b d G; cbn [combine]; [constructor|]. destruct G; cbn [combine]; constructor; auto. Qed.
Lemma Forall2_rev' {A B} (P : A -> B -> Prop) a b : Forall2 P a b -> Forall2 P (rev a) (rev b).
Proof. induction 1; cbn [rev]; [constructor|]. apply Forall2_app; auto. Qed.
Lemma Forall2_same {A} (l : list A) : Forall2 eq l l.
Proof. induction l; constructor; auto. Qed.

Section Breakdown.
Variable rnd : R -> Z.
Variable kind : option nat.
Variable n : nat.

(** Rows in the order of drawing: from the last level to the first. *)
Definition levels_down (lv : list (list R)) (ns : list R) (ref : option (list (list R))) : list (list R * R * option (list R)) :=
  rev (combine (combine lv ns) (match ref with None => map (fun _ => None) lv | Some t => map Some (firstn (length lv) t) end)).

(** One method: the bars of its levels stand on each other and every column ends at the variance of the estimate. *)
Theorem C189_stack lv ns ref s s' : (forall m, In m ns -> 0 < m) -> add_variances rnd kind n lv ns ref s = (s', Ok tt) ->
  exists X new, bd_bars s' = bd_bars s ++ new /\ bd_X s' = bd_X s ++ [X] /\ length new = length lv /\ length X = S (length (bd_subset s')) /\
    bd_labels s' = bd_labels s ++ None :: map Some (bd_subset s') /\
    stacked X (bd_subset s') (fun _ => 0) (levels_down lv ns ref) new /\
    forall b j, last new {| b_x := []; b_h := []; b_bottom := []; b_err := None |} = b -> new <> [] -> (j <= length (bd_subset s'))%nat ->
      nth j (b_bottom b) 0 + nth j (b_h b) 0 = above (bd_subset s') lv ns 0 j.
Proof.
  intros _. unfold add_variances. destruct (Nat.eqb_spec (length ns) (length lv)) as [LN|]; cbn [negb]; [|discriminate].
  set (ch := match bd_n s with None => _ | Some _ => _ end). destruct (snd ch) as [sub|e]; [|discriminate].
  destruct (columns lv sub) as [vars|e] eqn:COL; [|discriminate].
  set (refs := match ref with None => _ | Some _ => _ end). destruct refs as [rs|e] eqn:RS; [|discriminate].
  intros E. injection E as <-. cbn [bd_bars bd_X bd_subset bd_labels].
  destruct (columns_rows _ _ _ COL) as (LV & _ & _). unfold columns in COL. pose proof (mapr_ok _ _ _ COL) as FC.
  assert (FR : Forall2 (fun a b => match a, b with None, None => True | Some r, Some r' => mapr (at_index r) sub = Ok r' | _, _ => False end)
    (match ref with None => map (fun _ => None) lv | Some t => map Some (firstn (length lv) t) end) rs /\ length rs = length lv).
  { unfold refs in RS. destruct ref as [t|].
    - destruct (Nat.ltb_spec (length t) (length vars)); [discriminate|]. destruct (columns (firstn (length vars) t) sub) as [r|] eqn:CR; cbn [bind] in RS; [|discriminate].
      injection RS as <-. rewrite LV in CR. unfold columns in CR. pose proof (mapr_length _ _ _ CR) as LR. apply mapr_ok in CR.
      split; [|rewrite map_length, LR, firstn_length; lia]. clear - CR. induction CR; cbn [map]; constructor; auto.
    - injection RS as <-. split; [|rewrite map_length; exact LV]. clear - LV. revert lv LV. induction vars as [|v vars IH]; intros [|a lv] L; cbn [length map] in *; try lia; constructor; auto. }
  destruct FR as [FR LR].
  set (X := positions (bd_shift s) (length sub + 1)).
  assert (PK : Forall2 (picked sub) (levels_down lv ns ref) (rev (combine (combine vars ns) rs))).
  { unfold levels_down. apply Forall2_rev'.
    pose proof (Forall2_combine _ _ _ _ _ _ (Forall2_combine _ _ _ _ _ _ FC (Forall2_same ns)) FR) as F.
    clear - F. induction F as [|a b la lb [[P1 P2] P3] F IH]; constructor; auto. split; [exact P1|]. split; [exact P2|exact P3]. }
  pose proof (stack_stacked X sub _ _ PK (fun _ => 0) (repeat 0 (length sub + 1)) ltac:(rewrite repeat_length; lia) ltac:(intros j Hj; apply nth_repeat)) as ST.
  exists X, (stack X (repeat 0 (length sub + 1)) (rev (combine (combine vars ns) rs))).
  split; [reflexivity|]. split; [reflexivity|].
  assert (LS : forall rows sumY, length (stack X sumY rows) = length rows) by (induction rows as [|[[a b] c] rows IH]; intros sumY; cbn [stack length]; auto).
  split; [rewrite LS, rev_length, !combine_length; lia|]. split; [unfold X, positions; rewrite map_length, seq_length; lia|].
  split; [reflexivity|]. split; [exact ST|].
  intros b j <- NE Hj.
  assert (T : forall low rows bars, stacked X sub low rows bars -> bars <> [] -> forall d,
    nth j (b_bottom (last bars d)) 0 + nth j (b_h (last bars d)) 0 = low j + fold_right Rplus 0 (map (fun p => share sub (fst (fst p)) (snd (fst p)) j) rows)).
  { induction 1 as [|low row m r rows b bars D S IH]; intros N d; [congruence|]. cbn [map fold_right fst snd].
    destruct D as (_ & _ & _ & D & _). destruct (D j Hj) as [D1 D2].
    destruct bars as [|b' bars]; [inversion S; subst; cbn [last map fold_right]; rewrite D1, D2; ring|].
    change (last (b :: b' :: bars) d) with (last (b' :: bars) d). rewrite IH by discriminate. cbv beta. ring. }
  rewrite (T _ _ _ ST NE). unfold above, levels_down. cbn [skipn]. rewrite Rplus_0_l.
  set (rr := match ref with None => _ | Some _ => _ end). assert (LRR : length rr = length lv) by (rewrite <- LR; clear - FR; induction FR; cbn; auto).
  assert (PS : forall (f : list R * R * option (list R) -> R) l, fold_right Rplus 0 (map f (rev l)) = fold_right Rplus 0 (map f l)).
  { intros f l. induction l as [|a l IH]; [reflexivity|]. cbn [rev map fold_right]. rewrite map_app, fold_right_app. cbn [map fold_right]. rewrite Rplus_0_r.
    rewrite <- IH. generalize (map f (rev l)) (f a). clear. intros l x. revert x. induction l as [|y l IH]; intros x; cbn [fold_right]; [ring|]. rewrite IH. ring. }
  rewrite PS. f_equal. clearbody rr. clear - LN LRR. revert ns rr LN LRR. induction lv as [|a lv IH]; intros [|b ns] [|c rr] L1 L2; cbn in *; try lia; auto. f_equal. apply IH; lia.
Qed.

(** Adding several methods. *)
Definition bmethod := (list (list R) * list R * option (list (list R)))%type.
Fixpoint add_all (ms : list bmethod) (s : breakdown) : breakdown * res unit :=
  match ms with
  | [] => (s, Ok tt)
  | (lv, ns, ref) :: ms' => match add_variances rnd kind n lv ns ref s with
                | (s', Ok _) => add_all ms' s'
                | (s', Err e) => (s', Err e)
                end
  end.

Definition apart (l : list R) : Prop := forall i j, (i < j < length l)%nat -> nth i l 0 + 11 / 100 <= nth j l 0.

Lemma positions_nth sh m i : (i < m)%nat -> nth i (positions sh m) 0 = sh + 11 / 100 * INR i.
Proof.
  intros H. unfold positions. rewrite (nth_indep _ 0 (sh + width * (11 / 10) * INR 0)) by (rewrite map_length, seq_length; exact H).
  rewrite (map_nth (fun i => sh + width * (11 / 10) * INR i)), seq_nth by exact H. unfold width. cbn [Nat.add]. lra.
Qed.

Definition laid_out (s : breakdown) : Prop := let P := concat (bd_X s) in apart P /\ length (bd_labels s) = length P /\ forall x, In x P -> x + 3 / 10 <= bd_shift s.

Lemma laid_out_step lv ns ref s s' : laid_out s -> add_variances rnd kind n lv ns ref s = (s', Ok tt) -> laid_out s'.
Proof.
  intros (A & LL & B). unfold add_variances. destruct (negb _); [discriminate|].
  set (ch := match bd_n s with None => _ | Some _ => _ end). destruct (snd ch) as [sub|e]; [|discriminate].
  destruct (columns lv sub) as [vars|e]; [|discriminate].
  set (refs := match ref with None => _ | Some _ => _ end). destruct refs as [rs|e]; [|discriminate].
  intros E. injection E as <-. unfold laid_out. cbn [bd_X bd_labels bd_shift]. rewrite concat_app. cbn [concat]. rewrite app_nil_r.
  set (X := positions (bd_shift s) (length sub + 1)). set (P := concat (bd_X s)) in *.
  assert (LX : length X = (length sub + 1)%nat) by (unfold X, positions; rewrite map_length, seq_length; reflexivity).
  assert (LA : last X 0 = bd_shift s + 11 / 100 * INR (length sub)).
  { rewrite <- (positions_nth (bd_shift s) (length sub + 1)) by lia. fold X. clear - LX. 
    assert (forall (l : list R), l <> [] -> last l 0 = nth (length l - 1) l 0).
    { induction l as [|a [|b l] IH]; intros N; [congruence|reflexivity|]. change (last (a :: b :: l) 0) with (last (b :: l) 0). rewrite IH by discriminate.
      cbn [length]. replace (S (S (length l)) - 1)%nat with (S (S (length l) - 1)) by lia. reflexivity. }
    rewrite H; [rewrite LX; f_equal; lia|]. intros ->. cbn in LX. lia. }
  split; [|split].
  - intros i j [H1 H2]. rewrite app_length in H2.
    destruct (Nat.lt_ge_cases j (length P)) as [J|J]; [rewrite !app_nth1 by lia; apply A; lia|].
    rewrite (app_nth2 P X 0 J). unfold X at 2. rewrite positions_nth by lia.
    pose proof (pos_INR (j - length P)) as PJ.
    destruct (Nat.lt_ge_cases i (length P)) as [I|I].
    + rewrite app_nth1 by exact I. pose proof (B _ (nth_In P 0 I)). lra.
    + rewrite app_nth2 by exact I. unfold X. rewrite positions_nth by lia.
      assert (INR (i - length P) + 1 <= INR (j - length P)) by (rewrite <- S_INR; apply le_INR; lia). lra.
  - rewrite !app_length. cbn [length]. rewrite map_length, LX, LL. lia.
  - intros x Hx. rewrite LA. pose proof (pos_INR (length sub)). unfold width. apply in_app_or in Hx. destruct Hx as [Hx|Hx]; [specialize (B x Hx); lra|].
    apply (In_nth _ _ 0) in Hx. destruct Hx as (i & Hi & <-). unfold X. rewrite positions_nth by lia.
    assert (INR i <= INR (length sub)) by (apply le_INR; lia). lra.
Qed.

(** All columns of the plot, of one method or of different ones, are further apart than the width of a bar; every column has
    its label. *)
Theorem C189_columns ms s : add_all ms bd_init = (s, Ok tt) ->
  let P := concat (bd_X s) in length (bd_labels s) = length P /\ forall i j, (i < j < length P)%nat -> nth i P 0 + width < nth j P 0.
Proof.
  assert (G : forall s0, laid_out s0 -> add_all ms s0 = (s, Ok tt) -> laid_out s).
  { induction ms as [|[[lv ns] ref] ms' IH]; intros s0 H E; cbn [add_all] in E; [congruence|].
    destruct (add_variances rnd kind n lv ns ref s0) as [s1 [[]|e]] eqn:A; [|discriminate].
    apply (IH s1); [eapply laid_out_step; eauto|exact E]. }
  intros E. destruct (G bd_init) as (A & L & _); [|exact E|].
  - unfold laid_out, apart. cbn. split; [intros i j H; lia|]. split; [reflexivity|intros x []].
  - cbv zeta. split; [exact L|]. intros i j H. specialize (A i j H). unfold width. lra.
Qed.
End Breakdown.

Example C189_example : let lv := [[0; 6; 8]; [0; 2; 4]] in
  exists s, add_variances half_up None 3 lv [2; 4] (Some [[0; 7; 7]; [0; 2; 4]]) bd_init = (s, Ok tt) /\
    above (bd_subset s) lv [2; 4] 0 1 = 7 / 2 /\ above (bd_subset s) lv [2; 4] 0 0 = 17 / 4 /\ snd (add_all half_up None 3 [(lv, [2; 4], None); (lv, [3; 3], None)] bd_init) = Ok tt.
Proof. cbv zeta. eexists. split; [reflexivity|]. cbn. split; [|split; [|reflexivity]]; unfold above, share; cbn; change (Pos.to_nat 1) with 1%nat; change (Pos.to_nat 2) with 2%nat; cbv iota beta; field. Qed.

(** ** C190: eigenvalues in the logarithmic scale *)
(** The eigenvalues drawn in the logarithmic scale are the positive ones: one value too much is drawn. *)
Theorem C190_positive_refuted : exists values drawn, (forall i j, (i < j < length values)%nat -> nth j values 0 <= nth i values 0) /\
  add_values true values = Ok drawn /\ exists x, In x drawn /\ x <= 0.
Proof.
  exists [2; 1; -1; -2], [2; 1; -1]. split; [|split].
  - intros i j [H1 H2]. cbn [length] in H2. destruct i as [|[|[|[|i]]]], j as [|[|[|[|j]]]]; try lia; cbn; lra.
  - unfold add_values. cbn [last]. destruct (Rlt_dec 2 (-2)); [lra|]. cbn [rev app map]. unfold positive.
    destruct (Rlt_dec 0 (-2)); [lra|]. destruct (Rlt_dec 0 (-1)); [lra|]. destruct (Rlt_dec 0 1); [|lra]. destruct (Rlt_dec 0 2); [|lra]. reflexivity.
  - exists (-1). split; [cbn; auto|lra].
Qed.

Lemma argmax_from_skip i a b : argmax_from i (map (fun _ => false) (a : list R) ++ true :: b) = Some (i + length a)%nat.
Proof. revert i. induction a as [|x a IH]; intros i; cbn [map app argmax_from length]; [f_equal; lia|]. rewrite IH. f_equal. lia. Qed.

Lemma positive_map l : Forall (fun x => x <= 0) l -> map positive l = map (fun _ => false) l.
Proof. induction 1 as [|x l H F IH]; cbn [map]; [reflexivity|]. rewrite IH. unfold positive. destruct (Rlt_dec 0 x); [lra|reflexivity]. Qed.

(** What is drawn: all positive values and, if there are other values, the first of them. *)
Theorem C190_positive_partial pos rest : Forall (fun x => 0 < x) pos -> Forall (fun x => x <= 0) rest -> pos <> [] -> last (pos ++ rest) 0 <= hd 0 pos ->
  add_values true (pos ++ rest) = Ok (pos ++ firstn 1 rest).
Proof.
  intros P N NE D. destruct pos as [|v pos]; [congruence|]. cbn [hd] in D. unfold add_values. cbn [app].
  change (v :: pos ++ rest) with ((v :: pos) ++ rest). destruct (Rlt_dec v (last ((v :: pos) ++ rest) 0)); [lra|].
  set (p := v :: pos) in *. assert (E : exists q y, p = q ++ [y]) by (destruct (exists_last NE) as (q & y & E); eauto).
  destruct E as (q & y & E). rewrite rev_app_distr, map_app, positive_map by (apply Forall_rev; exact N).
  rewrite E, rev_app_distr. cbn [rev app map]. rewrite E in P. apply Forall_app in P. destruct P as [_ Py]. inversion Py as [|a b Hy _]; subst a b.
  assert (positive y = true) as -> by (unfold positive; destruct (Rlt_dec 0 y); [reflexivity|lra]).
  unfold argmax. rewrite argmax_from_skip. cbn [Nat.add]. rewrite rev_length, <- E, app_length.
  replace (length p + length rest - length rest + 1)%nat with (length p + 1)%nat by lia. rewrite firstn_app_2. reflexivity.
Qed.

Example C190_example : add_values true ([3; 2] ++ [0; -1]) = Ok [3; 2; 0].
Proof.
  rewrite C190_positive_partial; [reflexivity|repeat constructor; lra|repeat constructor; lra|discriminate|cbn; lra].
Qed.

(** ** C191: common domain *)
(** After any domains the common one is the smallest interval containing all of them. *)
Theorem C191_hull ds : ds <> [] -> exists lo hi, fold_left adjust_domain ds None = Some (lo, hi) /\
  (forall d, In d ds -> lo <= fst d /\ snd d <= hi) /\ (exists d, In d ds /\ fst d = lo) /\ (exists d, In d ds /\ snd d = hi).
Proof.
  assert (G : forall ds lo hi, exists lo' hi', fold_left adjust_domain ds (Some (lo, hi)) = Some (lo', hi') /\ lo' <= lo /\ hi <= hi' /\
    (forall d, In d ds -> lo' <= fst d /\ snd d <= hi') /\ (lo' = lo \/ exists d, In d ds /\ fst d = lo') /\ (hi' = hi \/ exists d, In d ds /\ snd d = hi')).
  { clear. induction ds as [|d ds IH]; intros lo hi; cbn [fold_left adjust_domain fst snd].
    - exists lo, hi. split; [reflexivity|]. split; [lra|]. split; [lra|]. split; [intros d []|]. split; left; reflexivity.
    - destruct (IH (Rmin lo (fst d)) (Rmax hi (snd d))) as (lo' & hi' & E & A & B & C & D1 & D2).
      pose proof (Rmin_l lo (fst d)). pose proof (Rmin_r lo (fst d)). pose proof (Rmax_l hi (snd d)). pose proof (Rmax_r hi (snd d)).
      exists lo', hi'. split; [exact E|]. split; [lra|]. split; [lra|]. split.
      { intros d' [<-|H']; [split; lra|auto]. }
      split.
      + destruct D1 as [->|(d' & I & J)]; [|right; exists d'; split; [right; exact I|exact J]].
        unfold Rmin. destruct (Rle_dec lo (fst d)); [left; reflexivity|right; exists d; split; [left; reflexivity|reflexivity]].
      + destruct D2 as [->|(d' & I & J)]; [|right; exists d'; split; [right; exact I|exact J]].
        unfold Rmax. destruct (Rle_dec hi (snd d)); [right; exists d; split; [left; reflexivity|reflexivity]|left; reflexivity]. }
  intros NE. destruct ds as [|[a b] ds]; [congruence|]. cbn [fold_left adjust_domain].
  destruct (G ds a b) as (lo & hi & E & A & B & C & D1 & D2). exists lo, hi. split; [exact E|]. split.
  { intros d [<-|H]; [cbn; lra|auto]. }
  split.
  - destruct D1 as [->|(d & I & J)]; [exists (a, b); split; [left; reflexivity|reflexivity]|exists d; split; [right; exact I|exact J]].
  - destruct D2 as [->|(d & I & J)]; [exists (a, b); split; [left; reflexivity|reflexivity]|exists d; split; [right; exact I|exact J]].
Qed.

Example C191_example : exists lo hi, fold_left adjust_domain [(1, 3); (-2, 0); (2, 5)] None = Some (lo, hi) /\ lo = -2 /\ hi = 5.
Proof.
  destruct (C191_hull [(1, 3); (-2, 0); (2, 5)] ltac:(discriminate)) as (lo & hi & E & A & (d1 & I1 & J1) & (d2 & I2 & J2)).
  exists lo, hi. split; [exact E|].
  pose proof (A (-2, 0) ltac:(cbn; auto)) as A1. pose proof (A (2, 5) ltac:(cbn; auto)) as A2. cbn [fst snd] in *.
  cbn in I1, I2. split.
  - destruct I1 as [<-|[<-|[<-|[]]]]; cbn in J1; lra.
  - destruct I2 as [<-|[<-|[<-|[]]]]; cbn in J2; lra.
Qed.

(** ** C192: names of the saved files *)
Definition ends_with (e f : pystr) : Prop := exists b, f = b ++ e.

(** A saved plot has the extension .pdf: not if the given name ends with the letters pdf. *)
Theorem C192_extension_refuted : exists f title g, save_name (Some f) title = Some g /\ ~ ends_with (str ".pdf") g.
Proof.
  exists (str "mypdf"), (str "T"), (str "mypdf"). split; [reflexivity|]. intros [b E].
  assert (skipn (length (str "mypdf") - 4) (str "mypdf") = str ".pdf").
  { rewrite E. rewrite app_length. change (length (str ".pdf")) with 4%nat. rewrite Nat.add_sub. rewrite skipn_app, skipn_all, Nat.sub_diag. reflexivity. }
  vm_compute in H. discriminate.
Qed.

Lemma last3_spec f : last3 f = str "pdf" -> ends_with (str "pdf") f.
Proof. intros E. exists (firstn (length f - 3) f). rewrite <- E. unfold last3. symmetry. apply firstn_skipn. Qed.

(** The name always ends with pdf, the extension is added to the title or to the name exactly when this one does not end so,
    and saving under the resulting name again gives the same file. *)
Theorem C192_extension_partial f title g : save_name (Some f) title = Some g ->
  let base := match f with [] => title | _ => f end in
  ends_with (str "pdf") g /\ (ends_with (str "pdf") base /\ g = base \/ ~ ends_with (str "pdf") base /\ g = base ++ str ".pdf") /\ save_name (Some g) title = Some g.
Proof.
  unfold save_name at 1. set (b := match f with [] => title | _ => f end). intros E. cbv zeta.
  assert (g = if pystr_eq_dec (last3 b) (str "pdf") then b else b ++ str ".pdf") as -> by congruence. clear E.
  assert (L3 : forall x, ends_with (str "pdf") x -> last3 x = str "pdf").
  { intros x [y ->]. unfold last3. rewrite app_length. change (length (str "pdf")) with 3%nat. rewrite Nat.add_sub, skipn_app, skipn_all, Nat.sub_diag. reflexivity. }
  assert (Same : forall x, ends_with (str "pdf") x -> save_name (Some x) title = Some x).
  { intros x H. pose proof H as [y Ey]. destruct x as [|c x]; [destruct y; discriminate|]. unfold save_name. rewrite (L3 _ H). destruct (pystr_eq_dec (str "pdf") (str "pdf")); congruence. }
  destruct (pystr_eq_dec (last3 b) (str "pdf")) as [Y|N].
  - pose proof (last3_spec b Y) as Hb. split; [exact Hb|]. split; [left; split; [exact Hb|reflexivity]|apply Same; exact Hb].
  - assert (Hb : ends_with (str "pdf") (b ++ str ".pdf")) by (exists (b ++ str "."); rewrite <- app_assoc; reflexivity).
    split; [exact Hb|]. split; [right; split; [intros H; apply N, L3, H|reflexivity]|apply Same; exact Hb].
Qed.

Example C192_example : save_name (Some []) (str "Eigenvalues") = Some (str "Eigenvalues.pdf") /\ save_name (Some (str "a.pdf")) (str "T") = Some (str "a.pdf").
Proof. split; reflexivity. Qed.

Print Assumptions C187_subset.
Print Assumptions C187_all.
Print Assumptions C187_too_many.
Print Assumptions C188_points.
Print Assumptions C188_curve.
Print Assumptions C189_stack.
Print Assumptions C189_columns.
Print Assumptions C190_positive_refuted.
Print Assumptions C190_positive_partial.
Print Assumptions C191_hull.
Print Assumptions C192_extension_refuted.
Print Assumptions C192_extension_partial.
