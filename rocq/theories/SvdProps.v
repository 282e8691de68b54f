(** Samples of correlated fields belong to the points set last, number of terms: C97 to C100. *)
From Coq Require Import Lqa.
From Verif Require Import Base BaseFacts SvdModel.

(** ** Specification *)
Section Spec.
Context {P V : Type}.
Variables add mul : V -> V -> V.
Variable field : list P -> nat -> nat -> list V.
Definition coef_at (c : @coef V) (i : nat) : option V := match c with Scalar v => Some v | Array l => nth_error l i end.
(** One value for each point: sigma times that of a field for these points, plus mu. *)
Definition belongs (pts : list P) (mu sigma : @coef V) (y : list V) : Prop :=
  length y = length pts
  /\ exists m k, forall i, i < length pts ->
     exists s f u, coef_at sigma i = Some s /\ nth_error (field pts m k) i = Some f /\ coef_at mu i = Some u
       /\ nth_error y i = Some (add u (mul s f)).
(** Calls of methods of a field object. *)
Inductive op := OSet (pts : list P) (amu asigma : @arg V) | OCov | OSvd (precision : Q) (lo : nat) (hi : option nat) | OSample.
End Spec.

Section Run.
Context {P V : Type}.
Variables add mul : V -> V -> V.
Variable est : list P -> nat -> Q.
Variable rsvd : list P -> nat -> list Q.
Variable field : list P -> nat -> nat -> list V.
Notation rf := (@rf P V).
(** A sample taken: points, mu and sigma of the object at that time, and the values returned. *)
Definition taken := (list P * @coef V * @coef V * list V)%type.
Fixpoint run (s : rf) (ops : list op) : res (rf * list taken) :=
  match ops with
  | [] => Ok (s, [])
  | o :: ops' =>
      bind (match o with
            | OSet pts am asg => bind (set_points s pts am asg) (fun s => Ok (s, []))
            | OCov => bind (cov_matrix s) (fun s => Ok (s, []))
            | OSvd p lo hi => bind (svd_dcmp est rsvd s p lo hi) (fun s => Ok (s, []))
            | OSample => bind (sample add mul est rsvd field s) (fun '(s, y) =>
                Ok (s, match points s with Some pts => [(pts, mu s, sigma s, y)] | None => [] end))
            end) (fun '(s, a) => bind (run s ops') (fun '(s, b) => Ok (s, a ++ b)))
  end.
Definition good (t : taken) : Prop := let '(pts, m, sg, y) := t in belongs add mul field pts m sg y.
(** C97 in full. *)
Definition samples_belong : Prop := forall mu0 sigma0 ops s outs, run (new_rf mu0 sigma0) ops = Ok (s, outs) -> Forall good outs.

(** Calls in which a decomposition follows every set_points but perhaps the first one, and every call of cov_matrix. *)
Inductive block := BSet (pts : list P) (amu asigma : @arg V) (precision : Q) (lo : nat) (hi : option nat)
  | BCov (precision : Q) (lo : nat) (hi : option nat) | BSvd (precision : Q) (lo : nat) (hi : option nat) | BSample.
Definition ops_of (b : block) : list (@op P V) :=
  match b with
  | BSet pts am asg p lo hi => [OSet pts am asg; OSvd p lo hi]
  | BCov p lo hi => [OCov; OSvd p lo hi]
  | BSvd p lo hi => [OSvd p lo hi]
  | BSample => [OSample]
  end.

Hypothesis field_length : forall pts m k, length (field pts m k) = length pts.

(** ** Proofs *)
Definition coef_ok (c : @coef V) (pts : list P) : Prop := match c with Scalar _ => True | Array l => length l = length pts end.
Definition inv (s : rf) : Prop :=
  cov s = None
  /\ (forall p m, factor s = Some (p, m) -> points s = Some p)
  /\ (forall p, points s = Some p -> coef_ok (mu s) p /\ coef_ok (sigma s) p).
Lemma run_app a : forall s b, run s (a ++ b) = bind (run s a) (fun '(s, x) => bind (run s b) (fun '(s, y) => Ok (s, x ++ y))).
Proof.
  induction a as [|o a IH]; intros s b; cbn [app run bind].
  - destruct (run s b) as [[s' y]|]; reflexivity.
  - match goal with |- bind ?r _ = _ => destruct r as [[s1 x]|] end; cbn [bind]; [|reflexivity]. rewrite IH.
    destruct (run s1 a) as [[s2 x2]|]; cbn [bind]; [|reflexivity]. destruct (run s2 b) as [[s3 x3]|]; cbn [bind]; [|reflexivity]. now rewrite app_assoc.
Qed.
Lemma set_points_spec (s : rf) pts am asg (s' : rf) : set_points s pts am asg = Ok s' ->
  points s' = Some pts /\ coef_ok (mu s') pts /\ coef_ok (sigma s') pts /\ cov s' = cov s /\ factor s' = factor s.
Proof.
  unfold set_points. intros H. destruct (to_array (mu s) am) as [v|l] eqn:Em; cbn [bind] in H.
  - destruct (to_array (sigma s) asg) as [v'|l'] eqn:Es; cbn [bind] in H.
    + injection H as <-. cbn. auto.
    + destruct asg as [|v1|l1|l1]; try discriminate. destruct (Nat.eqb_spec (length l1) (length pts)); [|discriminate]. cbn in Es. injection Es as <-. injection H as <-. cbn. auto.
  - destruct (Nat.eqb_spec (length l) (length pts)); [|discriminate]. cbn [bind] in H. destruct (to_array (sigma s) asg) as [v'|l'] eqn:Es; cbn [bind] in H.
    + injection H as <-. cbn. auto.
    + destruct asg as [|v1|l1|l1]; try discriminate. destruct (Nat.eqb_spec (length l1) (length pts)); [|discriminate]. cbn in Es. injection Es as <-. injection H as <-. cbn. auto.
Qed.
Lemma svd_spec (s : rf) p lo hi (s' : rf) : svd_dcmp est rsvd s p lo hi = Ok s' -> (cov s = None \/ cov s = points s) ->
  cov s' = None /\ points s' = points s /\ mu s' = mu s /\ sigma s' = sigma s /\ draws s' = draws s /\ exists pts m, points s = Some pts /\ factor s' = Some (pts, m).
Proof.
  unfold svd_dcmp. intros H Hc. assert (exists pts, points s = Some pts /\ bind (n_terms est rsvd (length pts) pts p lo hi)
     (fun m => Ok (mkRf (points s) (mu s) (sigma s) None (Some (pts, m)) (draws s))) = Ok s') as [pts [E H']].
  { destruct (cov s) as [c|] eqn:C.
    - cbn [bind] in H. rewrite C in H. destruct Hc as [Hc|Hc]; [discriminate|]. rewrite <- Hc in *. exists c. split; [reflexivity|]. exact H.
    - unfold cov_matrix in H. destruct (points s) as [pts|] eqn:E; [|discriminate]. cbn [bind cov points] in H. exists pts. split; [reflexivity|]. exact H. }
  destruct (n_terms _ _ _ _ _ _ _) as [m|]; [|discriminate]. cbn [bind] in H'. injection H' as <-. cbn. repeat split; auto. exists pts, m. auto.
Qed.
Lemma combine_ok f c l (pts : list P) r : coef_ok c pts -> length l = length pts -> combine_coef f c l = Ok r ->
  length r = length pts /\ forall i, i < length pts -> exists a x, coef_at c i = Some a /\ nth_error l i = Some x /\ nth_error r i = Some (f a x).
Proof.
  intros C L H. destruct c as [v|a]; cbn [combine_coef coef_ok] in *.
  - injection H as <-. rewrite map_length. split; [exact L|]. intros i Hi. destruct (nth_error l i) as [x|] eqn:E; [|apply nth_error_None in E; lia].
    exists v, x. cbn. repeat split; auto. rewrite nth_error_map, E. reflexivity.
  - rewrite L, C, Nat.eqb_refl in H. injection H as <-. rewrite map_length, combine_length, C, L, Nat.min_id. split; [reflexivity|]. intros i Hi.
    assert (Li : i < length a) by lia. assert (Ll : i < length l) by lia. clear - Li Ll.
    revert l i Li Ll. induction a as [|y a IH]; intros [|x l] i Li Ll; cbn in *; try lia. destruct i as [|i]; [exists y, x; auto|]. apply (IH l i); lia.
Qed.
Lemma sample_good (s s' : rf) y : sample add mul est rsvd field s = Ok (s', y) -> inv s ->
  inv s' /\ exists pts, points s' = Some pts /\ belongs add mul field pts (mu s') (sigma s') y.
Proof.
  unfold sample. intros H I.
  assert (exists s1 pts m, inv s1 /\ factor s1 = Some (pts, m) /\ bind (combine_coef mul (sigma s1) (field pts m (draws s1))) (fun x =>
      bind (combine_coef add (mu s1) x) (fun y => Ok (mkRf (points s1) (mu s1) (sigma s1) (cov s1) (factor s1) (S (draws s1)), y))) = Ok (s', y)) as [s1 [pts [m [I1 [F1 H1]]]]].
  { destruct (factor s) as [[pts m]|] eqn:F.
    - cbn [bind] in H. rewrite F in H. exists s, pts, m. rewrite F. auto.
    - destruct (svd_dcmp est rsvd s _ _ _) as [s1|] eqn:Sv; [|discriminate]. cbn [bind] in H. destruct I as [I1 [I2 I3]].
      destruct (svd_spec _ _ _ _ _ Sv (or_introl I1)) as [A [B [C [D [E [pts [m [Hp Fa]]]]]]]]. rewrite Fa in H. exists s1, pts, m. split; [|rewrite Fa; auto].
      split; [exact A|]. split; [intros p m' X; rewrite Fa in X; injection X as -> ->; rewrite B; exact Hp|]. rewrite B, C, D. exact I3. }
  destruct I1 as [J1 [J2 J3]]. pose proof (J2 _ _ F1) as Hp. destruct (J3 _ Hp) as [Cm Cs].
  destruct (combine_coef mul _ _) as [x|] eqn:E1; [|discriminate]. cbn [bind] in H1. destruct (combine_coef add _ _) as [z|] eqn:E2; [|discriminate]. cbn [bind] in H1.
  injection H1 as <- <-. destruct (combine_ok _ _ _ pts _ Cs (field_length pts m (draws s1)) E1) as [Lx Hx]. destruct (combine_ok _ _ _ pts _ Cm Lx E2) as [Lz Hz].
  split; [repeat split; cbn; auto; intros; apply (J3 _ H0)|]. exists pts. split; [exact Hp|]. cbn. split; [exact Lz|]. exists m, (draws s1). intros i Hi.
  destruct (Hx i Hi) as [a [fx [A1 [A2 A3]]]]. destruct (Hz i Hi) as [b [gx [B1 [B2 B3]]]]. rewrite A3 in B2. injection B2 as <-. exists a, fx, b. auto.
Qed.
Lemma block_good b (s s' : rf) outs : run s (ops_of b) = Ok (s', outs) -> inv s -> inv s' /\ Forall good outs.
Proof.
  assert (SV : forall (s : rf) p lo hi (s' : rf), svd_dcmp est rsvd s p lo hi = Ok s' -> (cov s = None \/ cov s = points s) ->
    (forall q, points s = Some q -> coef_ok (mu s) q /\ coef_ok (sigma s) q) -> inv s').
  { intros s1 p lo hi s1' H C K. destruct (svd_spec _ _ _ _ _ H C) as [A [B [D [E [_ [pts [m [Hp Fa]]]]]]]].
    split; [exact A|]. split; [intros q m' X; rewrite Fa in X; injection X as -> ->; congruence|]. rewrite B, D, E. exact K. }
  destruct b as [pts am asg p lo hi|p lo hi|p lo hi|]; cbn [ops_of run]; intros H [I1 [I2 I3]].
  - destruct (set_points s pts am asg) as [s1|] eqn:E; [|discriminate]. cbn [bind] in H. destruct (svd_dcmp est rsvd s1 p lo hi) as [s2|] eqn:E2; [|discriminate].
    cbn [bind app] in H. injection H as <- <-. split; [|constructor]. destruct (set_points_spec _ _ _ _ _ E) as [A [B [C [D F]]]].
    apply (SV _ _ _ _ _ E2); [left; congruence|]. intros q Hq. rewrite A in Hq. injection Hq as <-. auto.
  - unfold cov_matrix in H. destruct (points s) as [pts|] eqn:Hp; [|discriminate]. cbn [bind] in H. destruct (svd_dcmp est rsvd _ p lo hi) as [s2|] eqn:E2; [|discriminate].
    cbn [bind app] in H. injection H as <- <-. split; [|constructor]. apply (SV _ _ _ _ _ E2); cbn; auto.
  - destruct (svd_dcmp est rsvd s p lo hi) as [s2|] eqn:E2; [|discriminate]. cbn [bind app] in H. injection H as <- <-. split; [|constructor]. apply (SV _ _ _ _ _ E2); auto.
  - destruct (sample add mul est rsvd field s) as [[s2 y]|] eqn:E2; [|discriminate]. cbn [bind app] in H. injection H as <- <-.
    destruct (sample_good _ _ _ E2 (conj I1 (conj I2 I3))) as [J [pts [Hp B]]]. split; [exact J|]. rewrite Hp. cbn [app]. constructor; [exact B|constructor].
Qed.
Lemma blocks_good bs : forall s s' outs, run s (flat_map ops_of bs) = Ok (s', outs) -> inv s -> Forall good outs.
Proof.
  induction bs as [|b bs IH]; intros s s' outs H I; cbn [flat_map] in H; [cbn in H; injection H as <- <-; constructor|].
  rewrite run_app in H. destruct (run s (ops_of b)) as [[s1 x]|] eqn:E; [|discriminate]. cbn [bind] in H.
  destruct (run s1 (flat_map ops_of bs)) as [[s2 y]|] eqn:E2; [|discriminate]. cbn [bind] in H. injection H as <- <-.
  destruct (block_good _ _ _ _ E I) as [I1 G]. apply Forall_app. split; [exact G|]. apply (IH _ _ _ E2 I1).
Qed.
Theorem blocks_belong mu0 sigma0 pts am asg bs s outs :
  run (new_rf mu0 sigma0) (OSet pts am asg :: flat_map ops_of bs) = Ok (s, outs) -> Forall good outs.
Proof.
  intros H. cbn [run] in H. destruct (set_points _ pts am asg) as [s1|] eqn:E; [|discriminate]. cbn [bind] in H.
  destruct (run s1 _) as [[s2 y]|] eqn:E2; [|discriminate]. cbn [bind app] in H. injection H as <- <-.
  destruct (set_points_spec _ _ _ _ _ E) as [A [B [C [D F]]]]. cbn in D, F. apply (blocks_good _ _ _ _ E2). split; [exact D|]. split; [intros p m X; congruence|].
  intros q Hq. rewrite A in Hq. injection Hq as <-. auto.
Qed.
End Run.

(** C98: on a new object, if a decomposition follows every set_points but the first one and every call of cov_matrix, as in Field.set_points
    (correlated_field.py:82-93), every sample belongs to the points set last. *)
Theorem C98_samples {P V} add mul est rsvd (field : list P -> nat -> nat -> list V) :
  (forall pts m k, length (field pts m k) = length pts) ->
  forall mu0 sigma0 pts am asg bs s outs,
  run add mul est rsvd field (new_rf mu0 sigma0) (OSet pts am asg :: flat_map ops_of bs) = Ok (s, outs) -> Forall (good add mul field) outs.
Proof. intros H. intros. eapply blocks_belong; eassumption. Qed.
Print Assumptions C98_samples.

(** C97, part: with one call of set_points and no others than samples. Missing: it is false if points are set again. *)
Theorem C97_partial {P V} add mul est rsvd (field : list P -> nat -> nat -> list V) :
  (forall pts m k, length (field pts m k) = length pts) ->
  forall mu0 sigma0 pts am asg n s outs,
  run add mul est rsvd field (new_rf mu0 sigma0) (OSet pts am asg :: repeat OSample n) = Ok (s, outs) -> Forall (good add mul field) outs.
Proof.
  intros L mu0 sigma0 pts am asg n s outs H. apply (C98_samples add mul est rsvd field L mu0 sigma0 pts am asg (repeat BSample n) s outs).
  replace (flat_map ops_of (repeat BSample n)) with (repeat (@OSample P V) n); [exact H|]. clear. induction n as [|n IH]; [reflexivity|]. cbn. now rewrite IH.
Qed.
Print Assumptions C97_partial.
(** Points set again after a sample: the values are still those for the first points. *)
Theorem C97_refuted : exists (field : list Z -> nat -> nat -> list Z) est rsvd, (forall pts m k, length (field pts m k) = length pts)
  /\ ~ samples_belong Z.add Z.mul est rsvd field
  /\ exists s, run Z.add Z.mul est rsvd field (new_rf 0%Z 1%Z) [OSet [1%Z; 2%Z] ANone ANone; OSample; OSet [5%Z; 6%Z; 7%Z] ANone ANone; OSample]
     = Ok (s, [([1%Z; 2%Z], Scalar 0%Z, Scalar 1%Z, [1%Z; 2%Z]); ([5%Z; 6%Z; 7%Z], Scalar 0%Z, Scalar 1%Z, [1%Z; 2%Z])]).
Proof.
  exists (fun pts _ _ => pts), (fun _ _ => 1%Q), (fun _ m => repeat 1%Q m). split; [reflexivity|].
  assert (R : exists s, run Z.add Z.mul (fun _ _ => 1%Q) (fun _ m => repeat 1%Q m) (fun pts _ _ => pts) (new_rf 0%Z 1%Z) [OSet [1%Z; 2%Z] ANone ANone; OSample; OSet [5%Z; 6%Z; 7%Z] ANone ANone; OSample]
     = Ok (s, [([1%Z; 2%Z], Scalar 0%Z, Scalar 1%Z, [1%Z; 2%Z]); ([5%Z; 6%Z; 7%Z], Scalar 0%Z, Scalar 1%Z, [1%Z; 2%Z])])) by (eexists; vm_compute; reflexivity).
  split; [|exact R]. intros H. destruct R as [s R]. apply H in R. inversion R as [|x l _ G]; subst. inversion G as [|x l G2 _]; subst. destruct G2 as [L _]. discriminate L.
Qed.
Print Assumptions C97_refuted.
Example C98_example : exists s outs, run Z.add Z.mul (fun _ _ => 1%Q) (fun _ m => repeat 1%Q m) (fun pts _ _ => pts) (new_rf 3%Z 2%Z)
  (OSet [1%Z; 2%Z] ANone ANone :: flat_map ops_of [BSample; BSet [5%Z; 6%Z; 7%Z] (AArray [1%Z; 1%Z; 2%Z]) ANone (1 # 100) 10 (Some 100); BSample; BCov (1 # 10) 2 None; BSample])
  = Ok (s, outs) /\ map (fun t => snd t) outs = [[5%Z; 7%Z]; [11%Z; 13%Z; 16%Z]; [11%Z; 13%Z; 16%Z]].
Proof. eexists. eexists. split; vm_compute; reflexivity. Qed.

(** ** Number of terms *)
Section Terms.
Context {P : Type}.
Variable est : list P -> nat -> Q.
Variable rsvd : list P -> nat -> list Q.
Lemma grow_gt m : 1 <= m -> m < grow m.
Proof. intros H. unfold grow. apply (Nat.lt_le_trans _ (S m)); [lia|]. apply Nat.div_le_lower_bound; lia. Qed.
Lemma loop_spec svd precision hi m0 : forall fuel thr m k, 1 <= k -> m0 <= k <= hi -> thr = threshold (svd k) -> m = grow k -> hi < m + fuel ->
  exists k', terms_loop fuel svd precision thr m hi (Some (svd k)) = Some (Some (svd k')) /\ m0 <= k' <= hi /\ 1 <= k'
    /\ ((threshold (svd k') < precision)%Q \/ hi < grow k').
Proof.
  assert (D : forall thr k, 1 <= k -> m0 <= k <= hi -> thr = threshold (svd k) -> (Qle_bool precision thr && Nat.leb (grow k) hi)%bool = false ->
     exists k', Some (Some (svd k)) = Some (Some (svd k')) /\ m0 <= k' <= hi /\ 1 <= k' /\ ((threshold (svd k') < precision)%Q \/ hi < grow k')).
  { intros thr k K1 K -> H. exists k. repeat split; auto; try lia. apply andb_false_iff in H. destruct H as [H|H]; [left|right; now apply Nat.leb_gt].
    destruct (Qlt_le_dec (threshold (svd k)) precision) as [L|L]; [exact L|]. apply Qle_bool_iff in L. congruence. }
  induction fuel as [|fuel IH]; intros thr m k K1 K T -> Fu; cbn [terms_loop]; destruct (Qle_bool precision thr && Nat.leb (grow k) hi)%bool eqn:E.
  - apply andb_true_iff in E. destruct E as [_ E]. apply Nat.leb_le in E. lia.
  - apply (D thr); auto.
  - apply andb_true_iff in E. destruct E as [_ E]. apply Nat.leb_le in E. pose proof (grow_gt k K1). apply IH; auto; try lia. pose proof (grow_gt (grow k) ltac:(lia)). lia.
  - apply (D thr); auto.
Qed.
Lemma loop_start svd precision hi m : 1 <= m <= hi -> (0 <= precision)%Q ->
  exists k, terms_loop (S hi) svd precision (2 * precision)%Q m hi None = Some (Some (svd k)) /\ m <= k <= hi
    /\ ((threshold (svd k) < precision)%Q \/ hi < grow k).
Proof.
  intros M Hp. cbn [terms_loop]. assert (Qle_bool precision (2 * precision) = true) as -> by (apply Qle_bool_iff; lra).
  assert (Nat.leb m hi = true) as -> by (apply Nat.leb_le; lia). cbn [andb]. pose proof (grow_gt m ltac:(lia)).
  destruct (loop_spec svd precision hi m hi (threshold (svd m)) (grow m) m) as [k [A [B [_ C]]]]; try lia; auto. exists k. auto.
Qed.
End Terms.

(** Smallest and largest number of terms allowed for [n] points. *)
Definition least (lo : nat) : nat := Nat.max 1 lo.
Definition most (n : nat) (hi : option nat) : nat := match hi with None => n | Some h => Nat.min n h end.
(** The smallest of [m] singular values in terms of the largest one is under the precision. *)
Definition precise (sv : list Q) (precision : Q) : Prop := (last sv 0 / hd 0 sv < precision)%Q.

(** C99 in full: the number of terms is large enough for the precision, or the largest allowed one. *)
Definition terms_precise {P} (est : list P -> nat -> Q) (rsvd : list P -> nat -> list Q) : Prop :=
  forall n pts precision lo hi m, lo < n -> least lo <= most n hi -> (0 <= precision)%Q -> n_terms est rsvd n pts precision lo hi = Ok m ->
  precise (rsvd pts m) precision \/ m = most n hi.
(** C100: it lies in the range, and if the singular values are not precise enough, one and a half times as many terms are more than the range
    allows; the only exception is that of the missing sp.optmize. With as few points as the smallest number, all terms are taken. *)
Theorem C100_terms {P} est rsvd n (pts : list P) precision lo hi :
  (0 <= precision)%Q -> least lo <= most n hi -> (forall m, 1 <= m <= n -> length (rsvd pts m) = m) ->
  match n_terms est rsvd n pts precision lo hi with
  | Ok m => n <= lo /\ m = n \/ lo < n /\ least lo <= m <= most n hi /\ (precise (rsvd pts m) precision \/ 2 * most n hi < 3 * m + 1)
  | Err e => e = AttributeError /\ lo < n /\ (est pts (least lo) <= precision)%Q /\ (precision <= est pts (most n hi))%Q
  end.
Proof.
  intros Hp R L. unfold n_terms. destruct (Nat.leb_spec n lo) as [H|H]; [left; auto|].
  fold (least lo). fold (most n hi). cbv zeta. assert (Mn : most n hi <= n) by (unfold most; destruct hi; lia). assert (1 <= least lo) by (unfold least; lia).
  assert (G : forall m, m = least lo \/ m = most n hi ->
    match (match terms_loop (S (most n hi)) (rsvd pts) precision (2 * precision)%Q (Nat.max m (least lo)) (most n hi) None with
     | Some (Some ev) => Ok (Nat.min (length ev) (most n hi)) | Some None => Err UnboundLocalError | None => Err PyException end) with
    | Ok m => n <= lo /\ m = n \/ lo < n /\ least lo <= m <= most n hi /\ (precise (rsvd pts m) precision \/ 2 * most n hi < 3 * m + 1)
    | Err e => e = AttributeError /\ lo < n /\ (est pts (least lo) <= precision)%Q /\ (precision <= est pts (most n hi))%Q
    end).
  { intros m Hm. destruct (loop_start (rsvd pts) precision (most n hi) (Nat.max m (least lo))) as [k [-> [K1 K2]]]; [lia|exact Hp|].
    rewrite L by lia. rewrite Nat.min_l by lia. right. split; [exact H|]. split; [lia|]. destruct K2 as [K2|K2]; [left; exact K2|right].
    unfold grow in K2. pose proof (Nat.mul_div_le (3 * k + 1) 2 ltac:(lia)). lia. }
  destruct (Qle_bool (est pts (least lo)) precision) eqn:E1; cbn [negb bind]; [|apply G; auto].
  destruct (Qle_bool precision (est pts (most n hi))) eqn:E2; cbn [negb bind]; [|apply G; auto].
  split; [reflexivity|]. split; [exact H|]. split; apply Qle_bool_iff; assumption.
Qed.
Print Assumptions C100_terms.
(** C99, part: if the estimates of the eigen values are under the precision at both ends of the range. Missing: false if the estimate at the
    smallest number of terms is over the precision. *)
Theorem C99_partial {P} est rsvd n (pts : list P) precision lo hi m :
  (forall m, 1 <= m <= n -> length (rsvd pts m) = m) -> (est pts (least lo) <= precision)%Q -> (est pts (most n hi) < precision)%Q ->
  lo < n -> least lo <= most n hi -> (0 <= precision)%Q -> n_terms est rsvd n pts precision lo hi = Ok m ->
  m = most n hi.
Proof.
  intros L E1 E2 H R Hp. unfold n_terms. destruct (Nat.leb_spec n lo) as [H'|_]; [lia|]. fold (least lo). fold (most n hi). cbv zeta.
  assert (Mn : most n hi <= n) by (unfold most; destruct hi; lia). assert (1 <= least lo) by (unfold least; lia).
  apply Qle_bool_iff in E1. rewrite E1. cbn [negb]. destruct (Qle_bool precision (est pts (most n hi))) eqn:E; [apply Qle_bool_iff in E; lra|]. cbn [negb bind].
  destruct (loop_start (rsvd pts) precision (most n hi) (Nat.max (most n hi) (least lo))) as [k [-> [K1 K2]]]; [lia|exact Hp|].
  rewrite L by lia. intros [= <-]. lia.
Qed.
Print Assumptions C99_partial.
(** The range (10, 100) of Field.set_points with 100 points: 80 terms, though the singular values are all the same. *)
Theorem C99_refuted : exists (est : list nat -> nat -> Q) rsvd, (forall pts m, length (rsvd pts m) = m) /\ ~ terms_precise est rsvd
  /\ n_terms est rsvd 100 (seq 0 100) (1 # 100) 10 (Some 100) = Ok 80.
Proof.
  exists (fun _ _ => 1%Q), (fun _ m => repeat 1%Q m). split; [intros; apply repeat_length|].
  assert (E : n_terms (fun _ _ => 1%Q) (fun _ m => repeat 1%Q m) 100 (seq 0 100) (1 # 100) 10 (Some 100) = Ok 80) by (vm_compute; reflexivity).
  split; [|exact E]. intros H. destruct (H 100 (seq 0 100) (1 # 100)%Q 10 (Some 100) 80) as [X|X]; [lia|vm_compute; lia|lra|exact E| |discriminate X].
  unfold precise in X. assert (last (repeat 1%Q 80) 0%Q = 1%Q) as X1 by (vm_compute; reflexivity). rewrite X1 in X. vm_compute in X. discriminate X.
Qed.
Print Assumptions C99_refuted.
Example C100_example : n_terms (fun _ _ => 1%Q) (fun _ m => map (fun i => (1 # Pos.of_nat (S i))%Q) (seq 0 m)) 30 (seq 0 30) (1 # 10) 3 None = Ok 12.
Proof. vm_compute. reflexivity. Qed.
Example C99_partial_example : n_terms (fun _ m => (1 # Pos.of_nat (2 ^ m))%Q) (fun _ m => map (fun i => (1 # Pos.of_nat (S i))%Q) (seq 0 m)) 6 (seq 0 6) (1 # 2) 2 (Some 5) = Ok 5.
Proof. vm_compute. reflexivity. Qed.
