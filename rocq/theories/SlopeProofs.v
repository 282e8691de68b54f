(** Lemmas on fits and windows. *)
From Verif Require Import Base SlopeModel SlopeSpec.
From Coq Require Import Reals Lra Lia List.
Import ListNotations.
Local Open Scope R_scope.

(** ** Sums. *)
Lemma rsum_app l l' : rsum (l ++ l') = rsum l + rsum l'.
Proof. unfold rsum. induction l; cbn; lra. Qed.
Lemma rsum_plus {A} (f g : A -> R) l : rsum (map (fun x => f x + g x) l) = rsum (map f l) + rsum (map g l).
Proof. induction l; unfold rsum in *; cbn; lra. Qed.
Lemma rsum_scal {A} c (f : A -> R) l : rsum (map (fun x => c * f x) l) = c * rsum (map f l).
Proof. induction l; unfold rsum in *; cbn; lra. Qed.
Lemma rsum_const {A} c (l : list A) : rsum (map (fun _ => c) l) = INR (length l) * c.
Proof. induction l as [|x l IH]; [cbn; lra|]. change (length (x :: l)) with (S (length l)). rewrite S_INR. unfold rsum in *. cbn [map fold_right]. lra. Qed.
Lemma rsum_ext {A} (f g : A -> R) l : (forall x, In x l -> f x = g x) -> rsum (map f l) = rsum (map g l).
Proof. intros H. f_equal. now apply map_ext_in. Qed.
Lemma rsum_nonneg {A} (f : A -> R) l : (forall x, 0 <= f x) -> 0 <= rsum (map f l).
Proof. intros H. induction l as [|x l IH]; unfold rsum in *; cbn; [lra|]. specialize (H x). lra. Qed.
Lemma rsum_member {A} (f : A -> R) l x : (forall x, 0 <= f x) -> In x l -> f x <= rsum (map f l).
Proof.
  intros H. induction l as [|y l IH]; [contradiction|]. intros [-> | I].
  - pose proof (rsum_nonneg f l H). unfold rsum in *. cbn. lra.
  - specialize (IH I). specialize (H y). unfold rsum in *. cbn. lra.
Qed.

(** ** Least squares. *)
Definition spread (P : list (R * R)) : R :=
  INR (length P) * rsum (map (fun p => fst p * fst p) P) - rsum (map fst P) * rsum (map fst P).
Lemma spread_pos P p q : In p P -> In q P -> fst p <> fst q -> 0 < spread P.
Proof.
  intros Hp Hq N. set (n := INR (length P)). set (sx := rsum (map fst P)).
  assert (Hn : 0 < n). { unfold n. apply lt_0_INR. destruct P; [contradiction|cbn; lia]. }
  assert (E : rsum (map (fun p => (n * fst p - sx) ^ 2) P) = n * spread P).
  { rewrite (rsum_ext _ (fun p => (n * n) * (fst p * fst p) + (((-2) * n * sx) * fst p + sx * sx))) by (intros; ring).
    rewrite !rsum_plus, !rsum_scal, rsum_const. unfold spread. fold n sx. ring. }
  assert (G : forall x : R * R, 0 <= (n * fst x - sx) ^ 2) by (intros; apply pow2_ge_0).
  assert (0 <= n * spread P) by (rewrite <- E; now apply rsum_nonneg with (f := fun p : R * R => (n * fst p - sx) ^ 2)).
  destruct (Rle_lt_dec (spread P) 0) as [L|]; [exfalso|assumption].
  assert (Z0 : n * spread P <= 0). { rewrite <- (Rmult_0_r n). apply Rmult_le_compat_l; lra. }
  assert (K : forall x, In x P -> n * fst x = sx).
  { intros x Hx. pose proof (rsum_member (fun p : R * R => (n * fst p - sx) ^ 2) P x G Hx) as B. cbv beta in B. specialize (G x). nra. }
  apply N. apply (Rmult_eq_reg_l n); [|lra]. rewrite (K p Hp), (K q Hq). reflexivity.
Qed.
Lemma polyfit_normal P : spread P <> 0 ->
  rsum (map (fun p => snd p - line (polyfit P) (fst p)) P) = 0 /\ rsum (map (fun p => (snd p - line (polyfit P) (fst p)) * fst p) P) = 0.
Proof.
  intros D. unfold spread in D.
  assert (N : INR (length P) <> 0). { intros E. apply D. destruct P; cbn in *; [ring|]. pose proof (pos_INR (length P)). rewrite E. destruct P; cbn in *; lra. }
  unfold line.
  rewrite (rsum_ext _ (fun p => snd p + ((- fst (polyfit P)) * fst p + - snd (polyfit P)))) by (intros; ring).
  rewrite (rsum_ext (fun p => (snd p - _) * fst p) (fun p => fst p * snd p + ((- fst (polyfit P)) * (fst p * fst p) + (- snd (polyfit P)) * fst p))) by (intros; ring).
  rewrite !rsum_plus, !rsum_scal, rsum_const. unfold polyfit. cbn [fst snd].
  set (n := INR (length P)) in *. set (sx := rsum (map fst P)) in *. set (sxx := rsum (map (fun p => fst p * fst p) P)) in *.
  set (sy := rsum (map snd P)). set (sxy := rsum (map (fun p => fst p * snd p) P)). split; field; split; assumption.
Qed.
Lemma residual_split P g : spread P <> 0 ->
  residual g P = residual (polyfit P) P + rsum (map (fun p => (line g (fst p) - line (polyfit P) (fst p))²) P).
Proof.
  intros D. destruct (polyfit_normal P D) as [A B]. set (f := polyfit P) in *. unfold residual.
  rewrite (rsum_ext (fun p => (snd p - line g (fst p))²)
    (fun p => (snd p - line f (fst p))² + ((line g (fst p) - line f (fst p))² + ((-2 * (fst g - fst f)) * ((snd p - line f (fst p)) * fst p)
       + (-2 * (snd g - snd f)) * (snd p - line f (fst p)))))) by (intros; unfold line, Rsqr; ring).
  rewrite !rsum_plus, !rsum_scal, A, B. ring.
Qed.
Lemma polyfit_best P g : spread P <> 0 -> residual (polyfit P) P <= residual g P.
Proof.
  intros D. rewrite (residual_split P g D).
  pose proof (rsum_nonneg (fun p : R * R => (line g (fst p) - line (polyfit P) (fst p))²) P) as H. cbv beta in H.
  specialize (H (fun x => Rle_0_sqr _)). lra.
Qed.

(** ** Windows. *)
Lemma window_length v a b : (a <= b <= length v)%nat -> length (window v a b) = (b - a)%nat.
Proof. intros H. unfold window. rewrite firstn_length, skipn_length. lia. Qed.
Lemma firstn_skipn_map v a n : (a + n <= length v)%nat -> firstn n (skipn a v) = map (fun i => nth i v 0) (seq a n).
Proof.
  revert a. induction n as [|n IH]; intros a H; [reflexivity|]. cbn [seq map]. rewrite <- IH by lia.
  assert (E : skipn a v = nth a v 0 :: skipn (S a) v).
  { clear IH. revert v H. induction a as [|a IHa]; intros [|x v] H; cbn in H; try lia; [reflexivity|]. cbn [skipn nth]. apply IHa. lia. }
  rewrite E. reflexivity.
Qed.
Lemma points_window v a b : (a <= b <= length v)%nat -> points a (window v a b) = map (fun i => (INR i, nth i v 0)) (seq a (b - a)).
Proof.
  intros H. unfold points. rewrite window_length by lia. unfold window. rewrite firstn_skipn_map by lia.
  generalize (seq a (b - a)). induction l; cbn; congruence.
Qed.
Lemma residual_distance v a b g : (a <= b <= length v)%nat -> residual g (points a (window v a b)) = distance v a b g.
Proof.
  intros H. rewrite points_window by lia. unfold residual, distance, rsum. rewrite map_map. f_equal. apply map_ext. intros i.
  cbn [fst snd]. unfold line, Rsqr. ring.
Qed.
Lemma spread_window v a b : (a + 1 < b <= length v)%nat -> 0 < spread (points a (window v a b)).
Proof.
  intros H. rewrite points_window by lia.
  apply (spread_pos _ (INR a, nth a v 0) (INR (S a), nth (S a) v 0)).
  - apply in_map_iff. exists a. split; [reflexivity|]. apply in_seq. lia.
  - apply in_map_iff. exists (S a). split; [reflexivity|]. apply in_seq. lia.
  - cbn [fst]. intros E. apply INR_eq in E. lia.
Qed.
Lemma fit_of_best v a b : (a + 1 < b <= length v)%nat -> best_line v a b (fit_of v a b).
Proof.
  intros H g. rewrite <- !residual_distance by lia. unfold fit_of. apply polyfit_best. pose proof (spread_window v a b H). lra.
Qed.
Lemma fit_value_score v a b : (a <= b <= length v)%nat -> fit_value v a b = score v a b (fit_of v a b).
Proof. intros H. unfold fit_value, score. now rewrite residual_distance by lia. Qed.
Lemma best_score v a b f g : (a < b)%nat -> best_line v a b f -> score v a b f <= score v a b g.
Proof.
  intros H B. unfold score, Rdiv. apply Rmult_le_compat_r; [|apply B]. left. apply Rinv_0_lt_compat. apply pow_lt. apply lt_0_INR. lia.
Qed.

(** ** The search. *)
Definition okz (v : list R) (ab : Z * Z) : Prop := (0 <= fst ab /\ fst ab + 2 < snd ab < Z.of_nat (length v))%Z.
Lemma fit_step_bad v best ab : ~ okz v ab -> fit_step v best ab = best.
Proof.
  intros H. destruct ab as [a b]. unfold fit_step. destruct ((0 <=? a) && (a + 2 <? b) && (b <? Z.of_nat (length v)))%Z eqn:E; [|reflexivity].
  exfalso. apply H. rewrite !andb_true_iff, Z.leb_le, !Z.ltb_lt in E. unfold okz. cbn. lia.
Qed.
Definition entry (v : list R) (a b : nat) := (a, b, fit_of v a b, fit_value v a b).
Lemma fit_step_ok v best ab : okz v ab -> exists a b, ab = (Z.of_nat a, Z.of_nat b) /\ inner v a b
  /\ fit_step v best ab = match best with None => Some (entry v a b)
       | Some (x, w) => if Rlt_dec (fit_value v a b) w then Some (entry v a b) else best end.
Proof.
  destruct ab as [a b]. unfold okz. cbn [fst snd]. intros H. exists (Z.to_nat a), (Z.to_nat b). split; [f_equal; lia|].
  split; [unfold inner; lia|]. unfold fit_step.
  replace ((0 <=? a) && (a + 2 <? b) && (b <? Z.of_nat (length v)))%Z with true; [reflexivity|].
  symmetry. rewrite !andb_true_iff, Z.leb_le, !Z.ltb_lt. lia.
Qed.
Definition good (v : list R) (L : list (Z * Z)) (best : option (nat * nat * (R * R) * R)) : Prop :=
  match best with
  | None => forall a b, inner v a b -> ~ In (Z.of_nat a, Z.of_nat b) L
  | Some e => exists a b, e = entry v a b /\ inner v a b /\ In (Z.of_nat a, Z.of_nat b) L
      /\ forall a' b', inner v a' b' -> In (Z.of_nat a', Z.of_nat b') L -> fit_value v a b <= fit_value v a' b'
  end.
Lemma inner_okz v a b : inner v a b <-> okz v (Z.of_nat a, Z.of_nat b).
Proof. unfold inner, okz. cbn. lia. Qed.
Lemma search_good v L : good v L (fold_left (fit_step v) L None).
Proof.
  induction L as [|ab L IH] using rev_ind; [cbn; auto|]. rewrite fold_left_app. cbn [fold_left].
  destruct (fold_left (fit_step v) L None) as [e|] eqn:F; cbn [good] in IH.
  - destruct IH as (a & b & -> & I & M & B).
    assert (D : okz v ab \/ ~ okz v ab) by (unfold okz; lia). destruct D as [D|D].
    + destruct (fit_step_ok v (Some (entry v a b)) ab D) as (a1 & b1 & -> & I1 & ->). unfold entry at 1.
      destruct (Rlt_dec (fit_value v a1 b1) (fit_value v a b)) as [L1|L1]; cbn [good].
      * exists a1, b1. split; [reflexivity|]. split; [exact I1|]. split; [apply in_or_app; right; left; reflexivity|].
        intros a' b' I' H'. apply in_app_or in H' as [H'|[H'|[]]]; [specialize (B a' b' I' H'); lra|].
        injection H' as Ha Hb. apply Nat2Z.inj in Ha, Hb. subst. lra.
      * exists a, b. split; [reflexivity|]. split; [exact I|]. split; [apply in_or_app; now left|].
        intros a' b' I' H'. apply in_app_or in H' as [H'|[H'|[]]]; [auto|].
        injection H' as Ha Hb. apply Nat2Z.inj in Ha, Hb. subst. lra.
    + rewrite fit_step_bad by exact D. cbn [good]. exists a, b. split; [reflexivity|]. split; [exact I|]. split; [apply in_or_app; now left|].
      intros a' b' I' H'. apply in_app_or in H' as [H'|[H'|[]]]; [auto|]. exfalso. apply D. subst ab. now apply inner_okz.
  - assert (D : okz v ab \/ ~ okz v ab) by (unfold okz; lia). destruct D as [D|D].
    + destruct (fit_step_ok v None ab D) as (a1 & b1 & -> & I1 & ->). cbn [good].
      exists a1, b1. split; [reflexivity|]. split; [exact I1|]. split; [apply in_or_app; right; left; reflexivity|].
      intros a' b' I' H'. apply in_app_or in H' as [H'|[H'|[]]]; [now apply IH in H'|].
      injection H' as Ha Hb. apply Nat2Z.inj in Ha, Hb. subst. lra.
    + rewrite fit_step_bad by exact D. cbn [good]. intros a b I H. apply in_app_or in H as [H|[H|[]]]; [now apply IH in H|].
      subst ab. apply D. now apply inner_okz.
Qed.
Definition candidates (v : list R) (ra rb : list Z) (a b : nat) : Prop := inner v a b /\ In (Z.of_nat a) ra /\ In (Z.of_nat b) rb.
Lemma best_fit_all_some v ra rb a b f : best_fit_all v ra rb = Some (a, b, f) ->
  f = fit_of v a b /\ optimal (candidates v ra rb) v a b f.
Proof.
  unfold best_fit_all. pose proof (search_good v (list_prod ra rb)) as G. destruct (fold_left _ _ _) as [e|]; [|discriminate].
  destruct G as (a1 & b1 & -> & I & M & B). cbn [option_map entry fst]. intros H. injection H as -> -> <-. split; [reflexivity|].
  apply in_prod_iff in M as [Ma Mb]. unfold inner in I. split; [split; [unfold inner; lia|auto]|]. split; [apply fit_of_best; lia|].
  intros a' b' g ((I' & I2) & Ha & Hb). rewrite <- fit_value_score by lia. eapply Rle_trans; [apply (B a' b'); [split; lia|apply in_prod; auto]|].
  rewrite fit_value_score by lia. apply best_score; [lia|]. apply fit_of_best; lia.
Qed.
Lemma best_fit_all_none v ra rb : best_fit_all v ra rb = None <-> forall a b, ~ candidates v ra rb a b.
Proof.
  unfold best_fit_all. pose proof (search_good v (list_prod ra rb)) as G. destruct (fold_left _ _ _) as [e|]; cbn [good option_map] in *.
  - split; [discriminate|]. intros H. exfalso. destruct G as (a & b & _ & I & M & _). apply in_prod_iff in M. apply (H a b). split; tauto.
  - split; [|reflexivity]. intros _ a b (I & Ha & Hb). apply (G a b I). now apply in_prod.
Qed.

(** ** Halving. *)
Lemma pair_means_length v : length (pair_means v) = (length v / 2)%nat.
Proof.
  assert (G : forall n v, (length v <= n)%nat -> length (pair_means v) = (length v / 2)%nat).
  { induction n as [|n IH]; intros [|x [|y w]] H; cbn [length] in H; try reflexivity; try lia.
    cbn [pair_means length]. rewrite IH by lia. replace (S (S (length w))) with (length w + 1 * 2)%nat by lia. rewrite Nat.div_add by lia. lia. }
  now apply (G (length v)).
Qed.
Lemma best_p1_some fuel : forall v, (length v <= fuel)%nat -> (4 <= length v)%nat ->
  exists a b, best_p1 fuel v = Ok (Some (a, b, fit_of v a b)) /\ inner v a b
    /\ ((length v <= 12)%nat -> optimal (inner v) v a b (fit_of v a b)).
Proof.
  induction fuel as [|fuel IH]; intros v Lf L4; [lia|]. cbn [best_p1]. destruct (Nat.ltb_spec 12 (length v)) as [H|H].
  - pose proof (pair_means_length v) as PL. assert (D : (6 <= length v / 2)%nat) by (apply Nat.div_le_lower_bound; lia).
    assert (D2 : (2 * (length v / 2) <= length v)%nat) by (apply Nat.mul_div_le; lia).
    destruct (IH (pair_means v)) as (a & b & -> & I & _); [lia|lia|]. cbn [bind]. unfold inner in I. rewrite PL in I.
    set (az := (2 * Z.of_nat a)%Z). set (bz := (2 * Z.of_nat b)%Z).
    destruct (best_fit_all v [az - 1; az; az + 1]%Z [bz - 1; bz; bz + 1]%Z) as [[[a1 b1] f]|] eqn:E.
    + destruct (best_fit_all_some _ _ _ _ _ _ E) as [-> ((J & _) & _)]. exists a1, b1. split; [reflexivity|]. split; [exact J|]. lia.
    + exfalso. eapply best_fit_all_none with (a := (2 * a)%nat) (b := (2 * b)%nat) in E. apply E. unfold candidates, inner, az, bz. cbn [In].
      split; [lia|]. split; right; left; lia.
  - set (r := map Z.of_nat (seq 0 (length v))).
    assert (C : forall a b, inner v a b -> candidates v r r a b).
    { intros a b I. split; [exact I|]. unfold inner in I. split; apply in_map, in_seq; lia. }
    destruct (best_fit_all v r r) as [[[a1 b1] f]|] eqn:E.
    + destruct (best_fit_all_some _ _ _ _ _ _ E) as [-> (J & B & M)]. exists a1, b1. split; [reflexivity|]. split; [apply J|].
      intros _. split; [apply J|]. split; [exact B|]. intros a' b' g I. apply M. auto.
    + exfalso. eapply best_fit_all_none with (a := 0%nat) (b := 3%nat) in E. apply E. apply C. unfold inner. lia.
Qed.
Lemma best_p1_short v : (length v < 4)%nat -> best_p1_fit v = Ok None.
Proof.
  intros H. unfold best_p1_fit. assert (E : forall n, best_p1 n v = if (12 <? length v)%nat then best_p1 n v else
     let r := map Z.of_nat (seq 0 (length v)) in Ok (best_fit_all v r r)).
  { intros [|n]; cbn [best_p1]; destruct (12 <? length v)%nat; reflexivity. }
  rewrite E. destruct (Nat.ltb_spec 12 (length v)) as [K|K]; [lia|]. cbv zeta. f_equal. apply best_fit_all_none.
  intros a b (I & _). unfold inner in I. lia.
Qed.

(** ** Values on a line. *)
Definition is_line (v : list R) (s c : R) : Prop := forall i, (i < length v)%nat -> nth i v 0 = s * INR i + c.
Lemma line_distance v s c a b : is_line v s c -> (a <= b <= length v)%nat -> distance v a b (s, c) = 0.
Proof.
  intros L H. unfold distance. cbn [fst snd]. change (rsum (map (fun i => (nth i v 0 - (s * INR i + c)) ^ 2) (seq a (b - a))) = 0).
  rewrite (rsum_ext _ (fun _ => 0)); [rewrite rsum_const; ring|]. intros i Hi. apply in_seq in Hi. rewrite L by lia. ring.
Qed.
Lemma distance_nonneg v a b g : 0 <= distance v a b g.
Proof. unfold distance. apply (rsum_nonneg (fun i => (nth i v 0 - (fst g * INR i + snd g)) ^ 2)). intros. apply pow2_ge_0. Qed.
Lemma line_fit v s c a b : is_line v s c -> (a + 1 < b <= length v)%nat -> fit_of v a b = (s, c) /\ fit_value v a b = 0.
Proof.
  intros L H. assert (Z0 : distance v a b (fit_of v a b) = 0).
  { pose proof (fit_of_best v a b H (s, c)) as B. rewrite (line_distance v s c) in B by (auto; lia). pose proof (distance_nonneg v a b (fit_of v a b)). lra. }
  split.
  - pose proof (spread_window v a b H) as SP. pose proof (residual_split (points a (window v a b)) (s, c) ltac:(lra)) as E.
    change (polyfit (points a (window v a b))) with (fit_of v a b) in E.
    rewrite !residual_distance in E by lia. rewrite Z0, (line_distance v s c) in E by (auto; lia).
    rewrite points_window, map_map in E by lia. cbn [fst] in E. set (f := fit_of v a b) in *.
    pose proof (fun i => rsum_member (fun i => (line (s, c) (INR i) - line f (INR i))²) (seq a (b - a)) i (fun x => Rle_0_sqr _)) as M. cbv beta in M.
    assert (A : forall i, (a <= i < b)%nat -> line (s, c) (INR i) = line f (INR i)).
    { intros i Hi. apply Rminus_diag_uniq, Rsqr_0_uniq. apply Rle_antisym; [|apply Rle_0_sqr]. specialize (M i ltac:(apply in_seq; lia)). unfold rsum in *. lra. }
    pose proof (A a ltac:(lia)) as A1. pose proof (A (S a) ltac:(lia)) as A2. unfold line in A1, A2. cbn [fst snd] in A1, A2. rewrite S_INR in A2.
    destruct f as [s' c']. cbn [fst snd] in A1, A2. assert (s = s') by lra. subst. f_equal. lra.
  - rewrite fit_value_score by lia. unfold score. rewrite Z0. unfold Rdiv. ring.
Qed.
Lemma search_first v s c L1 a b L2 : is_line v s c -> (forall x, In x L1 -> ~ okz v x) -> inner v a b ->
  fold_left (fit_step v) (L1 ++ (Z.of_nat a, Z.of_nat b) :: L2) None = Some (entry v a b).
Proof.
  intros HL H1 I. rewrite fold_left_app. replace (fold_left (fit_step v) L1 None) with (@None (nat * nat * (R * R) * R)).
  2:{ symmetry. revert H1. induction L1 as [|x L1 IH]; intros H1; [reflexivity|]. cbn [fold_left]. rewrite fit_step_bad by (apply H1; now left).
      apply IH. intros y Hy. apply H1. now right. }
  cbn [fold_left].
  destruct (fit_step_ok v None (Z.of_nat a, Z.of_nat b)) as (a1 & b1 & E & _ & ->); [now apply inner_okz|].
  injection E as Ea Eb. apply Nat2Z.inj in Ea, Eb. subst a1 b1.
  induction L2 as [|x L2 IH]; [reflexivity|]. cbn [fold_left].
  assert (D : okz v x \/ ~ okz v x) by (unfold okz; lia). destruct D as [D|D]; [|now rewrite fit_step_bad].
  destruct (fit_step_ok v (Some (entry v a b)) x D) as (a1 & b1 & -> & I1 & ->). unfold entry at 1. unfold inner in *.
  rewrite (proj2 (line_fit v s c a1 b1 HL ltac:(lia))), (proj2 (line_fit v s c a b HL ltac:(lia))).
  destruct (Rlt_dec 0 0); [lra|]. exact IH.
Qed.
Lemma pair_means_nth v i : (i < length v / 2)%nat -> nth i (pair_means v) 0 = (nth (2 * i) v 0 + nth (2 * i + 1) v 0) / 2.
Proof.
  revert v. induction i as [|i IH]; intros [|x [|y v]] H; try (cbn in H; lia); [reflexivity|].
  cbn [pair_means nth]. rewrite IH.
  - replace (2 * S i)%nat with (S (S (2 * i))) by lia. cbn [nth Nat.add]. reflexivity.
  - cbn [length] in H. replace (S (S (length v))) with (length v + 1 * 2)%nat in H by lia. rewrite Nat.div_add in H by lia. lia.
Qed.
Lemma line_means v s c : is_line v s c -> is_line (pair_means v) (2 * s) (c + s / 2).
Proof.
  intros L i Hi. rewrite pair_means_length in Hi. rewrite pair_means_nth by exact Hi.
  assert (D2 : (2 * (length v / 2) <= length v)%nat) by (apply Nat.mul_div_le; lia).
  rewrite !L by lia. rewrite plus_INR, mult_INR. cbn. lra.
Qed.
Lemma best_p1_line fuel : forall v s c, (length v <= fuel)%nat -> (4 <= length v)%nat -> is_line v s c ->
  exists b, best_p1 fuel v = Ok (Some (0%nat, b, (s, c))).
Proof.
  induction fuel as [|fuel IH]; intros v s c Lf L4 HL; [lia|]. cbn [best_p1]. destruct (Nat.ltb_spec 12 (length v)) as [H|H].
  - pose proof (pair_means_length v) as PL. assert (D : (6 <= length v / 2)%nat) by (apply Nat.div_le_lower_bound; lia).
    assert (D2 : (2 * (length v / 2) <= length v)%nat) by (apply Nat.mul_div_le; lia).
    destruct (best_p1_some fuel (pair_means v)) as (a & b & E & I & _); [lia|lia|].
    destruct (IH (pair_means v) _ _ ltac:(lia) ltac:(lia) (line_means v s c HL)) as [b1 E1].
    rewrite E in E1. injection E1 as -> <- _. rewrite E. cbn [bind]. unfold inner in I. rewrite PL in I.
    exists (2 * b - 1)%nat. do 2 f_equal. unfold best_fit_all. change (2 * Z.of_nat 0)%Z with 0%Z.
    set (bz := (2 * Z.of_nat b)%Z). cbn [list_prod map app Z.sub Z.add Z.opp Z.pos_sub].
    pose proof (search_first v s c [(-1, bz - 1); (-1, bz); (-1, bz + 1)]%Z 0 (2 * b - 1) [(0, bz); (0, bz + 1); (1, bz - 1); (1, bz); (1, bz + 1)]%Z HL) as F.
    cbn [app] in F. replace (Z.of_nat (2 * b - 1)) with (bz - 1)%Z in F by (unfold bz; lia). change (Z.of_nat 0) with 0%Z in F.
    rewrite F.
    + cbn [option_map entry fst]. rewrite (proj1 (line_fit v s c 0 (2 * b - 1) HL ltac:(lia))). reflexivity.
    + intros x Hx. cbn [In] in Hx. unfold okz. intuition subst; cbn [fst snd] in *; lia.
    + unfold inner. lia.
  - exists 3%nat. do 2 f_equal. unfold best_fit_all.
    assert (E : exists L2, list_prod (map Z.of_nat (seq 0 (length v))) (map Z.of_nat (seq 0 (length v)))
      = [(0, 0); (0, 1); (0, 2)]%Z ++ (Z.of_nat 0, Z.of_nat 3) :: L2).
    { destruct v as [|? [|? [|? [|? v]]]]; cbn [length] in L4; try lia. cbn [length seq map list_prod app]. eexists. reflexivity. }
    destruct E as [L2 ->]. rewrite (search_first v s c _ 0 3 L2 HL).
    + cbn [option_map entry fst]. rewrite (proj1 (line_fit v s c 0 3 HL ltac:(lia))). reflexivity.
    + intros x Hx. cbn [In] in Hx. unfold okz. intuition subst; cbn [fst snd] in *; lia.
    + unfold inner. lia.
Qed.

(** ** The first positive value. *)
Lemma first_positive_app z p : Forall (fun x => x <= 0) z -> Forall (fun x => 0 < x) p -> p <> [] -> first_positive (z ++ p) = Some (length z).
Proof.
  intros Hz Hp N. induction Hz as [|x z Hx Hz IH]; cbn [app first_positive length].
  - destruct p as [|y p]; [congruence|]. inversion Hp; subst. cbn. destruct (Rlt_dec 0 y); [reflexivity|contradiction].
  - destruct (Rlt_dec 0 x); [lra|]. now rewrite IH.
Qed.
Lemma detect_eq z p : Forall (fun x => x <= 0) z -> Forall (fun x => 0 < x) p -> p <> [] ->
  detect (z ++ p) = bind (best_p1_fit (map ln p)) (fun r => match r with None => Err TypeError | Some (a, _, fit) =>
     let t := (a + length z)%nat in
     Ok (t, map exp (map (fun i => line fit (INR i - INR (length z))) (seq 0 t) ++ skipn t (z ++ map ln p))) end).
Proof.
  intros Hz Hp N. unfold detect, argmax_positive. rewrite first_positive_app by assumption.
  rewrite firstn_app, skipn_app, Nat.sub_diag, firstn_all, skipn_all. cbn [firstn skipn app]. rewrite app_nil_r.
  destruct (z ++ p) eqn:E; [apply app_eq_nil in E; tauto|]. clear E.
  replace (forallb _ p) with true; [reflexivity|]. symmetry. apply forallb_forall. intros x Hx. rewrite Forall_forall in Hp.
  specialize (Hp x Hx). destruct (Rlt_dec 0 x); [reflexivity|contradiction].
Qed.
