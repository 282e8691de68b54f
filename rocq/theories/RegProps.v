(** Properties of the regression of level variances: C120-C123. *)
From Verif Require Import Base AllocModel RegModel RegSpec.
From Coq Require Import Reals Lra Lia List.
Import ListNotations.
Local Open Scope R_scope.

Definition rs (l : list R) : R := fold_right Rplus 0 l.
Lemma nth_map {A B} (f : A -> B) l n d d' : (n < length l)%nat -> nth n (map f l) d = f (nth n l d').
Proof. intros H. rewrite (nth_indep _ d (f d')) by (rewrite map_length; exact H). apply map_nth. Qed.
Lemma column_length m v : length (column m v) = length v.
Proof. apply map_length. Qed.
Lemma column_nth m v l : (l < length v)%nat -> nth l (column m v) 0 = at_ v l m.
Proof. intros H. unfold column, at_. apply (nth_map (fun r => nth m r 0)). exact H. Qed.
Lemma close0_spec x : close0 x = true <-> Rabs x <= / 100000000.
Proof. unfold close0. destruct (Rle_dec _ _); split; auto; discriminate. Qed.
Lemma tiny_spec v m : forallb close0 (column m v) = true <-> tiny_column v m.
Proof.
  rewrite forallb_forall. split.
  - intros H l Hl. apply close0_spec, H. rewrite <- column_nth by exact Hl. apply nth_In. now rewrite column_length.
  - intros H x Hx. apply In_nth with (d := 0) in Hx as [l [Hl <-]]. rewrite column_length in Hl. rewrite column_nth by exact Hl. apply close0_spec. auto.
Qed.

Section Reg.
Variable lstsq : list (R * R * R) -> list R -> R * R * R.
Variable log_chi_var : Z -> R.
Notation moment_regression := (moment_regression lstsq).
Notation columns := (columns lstsq log_chi_var).
Notation diff_vars_regression := (diff_vars_regression lstsq log_chi_var).

(** The steps used for levels 1, ... *)
Definition used_steps (raw steps : list R) (hs : list R) : Prop :=
  length hs = (length raw - 1)%nat /\ (tl steps = hs \/ exists h, tl steps = [h] /\ hs = repeat h (length raw - 1)).
Definition unchanged (raw : list R) : bool := Nat.ltb (length raw) 3 || forallb close0 raw.
Lemma regression_ok vv raw steps x : moment_regression vv raw steps = Ok x ->
  if unchanged raw then x = raw
  else exists hs, used_steps raw steps hs /\ x = hd 0 raw :: map (fun h => exp (xdot (xrow h) (lstsq (map xrow hs) (map ln (tl raw))))) hs.
Proof.
  unfold RegModel.moment_regression, unchanged. destruct (Nat.ltb (length raw) 3 || forallb close0 raw); [intros H; injection H as ->; reflexivity|].
  destruct vv as [w|e]; [|discriminate]. cbn [bind].
  assert (G : forall hs, used_steps raw steps hs -> Ok (hd 0 raw :: map (fun r => exp (xdot r (lstsq (map xrow hs) (map ln (tl raw))))) (map xrow hs)) = Ok x ->
     exists hs, used_steps raw steps hs /\ x = hd 0 raw :: map (fun h => exp (xdot (xrow h) (lstsq (map xrow hs) (map ln (tl raw))))) hs).
  { intros hs U H. injection H as <-. exists hs. split; [exact U|]. now rewrite map_map. }
  destruct (tl steps) as [|h [|h2 t]] eqn:E.
  - destruct (Nat.eqb_spec (length (@nil R)) (length raw - 1)) as [D|D]; [|discriminate]. cbn [bind]. apply (G []). split; [exact D|auto].
  - cbn [bind]. apply (G (repeat h (length raw - 1))). split; [apply repeat_length|]. right. exists h. auto.
  - destruct (Nat.eqb_spec (length (h :: h2 :: t)) (length raw - 1)) as [D|D]; [|discriminate]. cbn [bind]. apply (G (h :: h2 :: t)). split; [exact D|auto].
Qed.
Lemma columns_ok : forall todo saved n raw steps s cols, columns saved n raw steps todo = (s, Ok cols) ->
  length cols = length todo /\ forall k, (k < length todo)%nat -> exists vv, moment_regression vv (column (nth k todo 0%nat) raw) steps = Ok (nth k cols []).
Proof.
  induction todo as [|m todo IH]; intros saved n raw steps s cols H; cbn [RegModel.columns] in H.
  - injection H as _ <-. split; [reflexivity|]. intros k Hk. cbn in Hk. lia.
  - destruct (if Nat.ltb _ _ || _ then _ else _) as [s1 vv]. destruct (moment_regression vv (column m raw) steps) as [x|e] eqn:E; [|discriminate].
    destruct (columns s1 n raw steps todo) as [s2 [xs|e]] eqn:C; [|discriminate]. cbn [bind] in H. injection H as _ <-.
    destruct (IH _ _ _ _ _ _ C) as [L K]. split; [cbn; lia|]. intros [|k] Hk; cbn [nth]; [eauto|]. apply K. cbn in Hk. lia.
Qed.
(** What a successful call returns, entry by entry. *)
Lemma result_entries saved n L M raw steps n_ops est s v ops : is_array L M raw ->
  diff_vars_regression saved n M (Some raw) est steps n_ops = (s, Ok (v, ops)) ->
  ops = n_ops /\ M <> 0%nat /\ tiny_column raw 0 /\ is_array L M v
  /\ (forall l, (l < L)%nat -> at_ v l 0 = at_ raw l 0)
  /\ forall m, (0 < m < M)%nat -> exists vv c, moment_regression vv (column m raw) steps = Ok c
       /\ length c = L /\ forall l, (l < L)%nat -> at_ v l m = nth l c 0.
Proof.
  intros [AL AR] H. unfold RegModel.diff_vars_regression, all_moments_regression in H.
  destruct (columns saved n raw steps (seq 1 (M - 1))) as [s1 [cols|e]] eqn:C; [|discriminate]. cbn [bind] in H.
  destruct (Nat.eqb_spec M 0) as [|M0]; [discriminate|].
  destruct (forallb close0 (column 0 raw)) eqn:T; [|discriminate]. cbn [bind] in H. injection H as _ <- <-.
  apply columns_ok in C as [LC K]. rewrite seq_length in *. split; [reflexivity|]. split; [exact M0|]. split; [now apply tiny_spec|].
  assert (R0 : forall l, (l < L)%nat -> nth l (map (fun l => entry raw l 0 :: map (fun c => nth l c 0) cols) (seq 0 (length raw))) []
      = entry raw l 0 :: map (fun c => nth l c 0) cols).
  { intros l Hl. rewrite (nth_map _ _ l [] 0%nat) by (rewrite seq_length; lia). rewrite seq_nth by lia. reflexivity. }
  split; [|split].
  - split; [rewrite map_length, seq_length; exact AL|]. apply Forall_forall. intros r Hr. apply in_map_iff in Hr as [l [<- _]].
    cbn [length]. rewrite map_length. lia.
  - intros l Hl. unfold at_ at 1. rewrite R0 by exact Hl. reflexivity.
  - intros m Hm. destruct (K (m - 1)%nat ltac:(lia)) as [vv E]. rewrite seq_nth in E by lia. replace (1 + (m - 1))%nat with m in E by lia.
    exists vv, (nth (m - 1) cols []). split; [exact E|]. split.
    + pose proof (regression_ok _ _ _ _ E) as Q. destruct (unchanged (column m raw)) eqn:U.
      * rewrite Q. now rewrite column_length.
      * destruct Q as (hs & [Lh _] & ->). cbn [length]. rewrite map_length, Lh, column_length. unfold unchanged in U. apply orb_false_iff in U as [U _].
        apply Nat.ltb_ge in U. rewrite column_length in U. lia.
    + intros l Hl. unfold at_. rewrite R0 by exact Hl. destruct m as [|m]; [lia|]. cbn [nth]. rewrite Nat.sub_succ, Nat.sub_0_r.
      now rewrite (nth_map _ _ m 0 []) by lia.
Qed.
Lemma unchanged_spec L M raw m : is_array L M raw -> (unchanged (column m raw) = true <-> (L < 3)%nat \/ tiny_column raw m).
Proof. intros [A _]. unfold unchanged. rewrite orb_true_iff, Nat.ltb_lt, column_length, tiny_spec, A. reflexivity. Qed.

(** ** C120: what stays and what the sign is. *)
Theorem C120_entries : forall saved n L M raw steps n_ops est s v ops, is_array L M raw ->
  diff_vars_regression saved n M (Some raw) est steps n_ops = (s, Ok (v, ops)) ->
  ops = n_ops /\ is_array L M v /\ tiny_column raw 0
  /\ (forall l m, (l < L)%nat -> (m < M)%nat -> (l = 0 \/ m = 0 \/ L < 3)%nat \/ tiny_column raw m -> at_ v l m = at_ raw l m)
  /\ (forall l m, (0 < l < L)%nat -> (0 < m < M)%nat -> (3 <= L)%nat -> ~ tiny_column raw m -> 0 < at_ v l m).
Proof.
  intros saved n L M raw steps n_ops est s v ops A H. destruct (result_entries _ _ _ _ _ _ _ _ _ _ _ A H) as (E1 & E2 & E3 & E4 & E5 & E6).
  split; [exact E1|]. split; [exact E4|]. split; [exact E3|]. split.
  - intros l m Hl Hm D. destruct (Nat.eq_dec m 0) as [->|Nm]; [now apply E5|]. destruct (E6 m ltac:(lia)) as (vv & c & Q & Lc & V). rewrite V by exact Hl.
    apply regression_ok in Q. destruct (unchanged (column m raw)) eqn:U.
    + rewrite Q. apply column_nth. destruct A. lia.
    + assert (l = 0%nat) as ->.
      { destruct D as [[D|[D|D]]|D]; [exact D|lia| |]; exfalso; assert (X : unchanged (column m raw) = true) by (apply (unchanged_spec L M); auto); congruence. }
      destruct Q as (hs & _ & ->). cbn [nth]. destruct raw as [|r raw]; [destruct A; cbn in *; lia|]. reflexivity.
  - intros l m Hl Hm L3 T. destruct (E6 m ltac:(lia)) as (vv & c & Q & Lc & V). rewrite V by lia. apply regression_ok in Q.
    destruct (unchanged (column m raw)) eqn:U; [apply (unchanged_spec L M) in U; [|exact A]; destruct U; [lia|contradiction]|].
    destruct Q as (hs & _ & ->). destruct l as [|l]; [lia|]. cbn [nth]. cbn [length] in Lc. rewrite map_length in Lc.
    rewrite (nth_map _ _ l 0 0) by lia. apply exp_pos.
Qed.
(** The numbers of samples and the cache do not change the result. *)
Theorem C120_independent : forall saved n saved' n' M given est steps n_ops s s' r r',
  diff_vars_regression saved n M given est steps n_ops = (s, Ok r) -> diff_vars_regression saved' n' M given est steps n_ops = (s', Ok r') -> r = r'.
Proof.
  assert (MR : forall vv vv' raw steps x x', moment_regression vv raw steps = Ok x -> moment_regression vv' raw steps = Ok x' -> x = x').
  { intros vv vv' raw steps x x' A B. unfold RegModel.moment_regression in *. destruct (Nat.ltb (length raw) 3 || forallb close0 raw); [congruence|].
    destruct vv; [|discriminate]. destruct vv'; [|discriminate]. cbn [bind] in *. congruence. }
  assert (CO : forall todo saved n saved' n' raw steps s s' x x', columns saved n raw steps todo = (s, Ok x) -> columns saved' n' raw steps todo = (s', Ok x') -> x = x').
  { intros todo saved n saved' n' raw steps s s' x x' A B. destruct (columns_ok _ _ _ _ _ _ _ A) as [LA KA]. destruct (columns_ok _ _ _ _ _ _ _ B) as [LB KB].
    apply nth_ext with (d := []) (d' := []); [lia|]. intros k Hk. destruct (KA k ltac:(lia)) as [va EA]. destruct (KB k ltac:(lia)) as [vb EB]. eapply MR; eauto. }
  intros saved n saved' n' M given est steps n_ops s s' r r' A B. unfold RegModel.diff_vars_regression, all_moments_regression in *.
  destruct (match given with Some r => Ok r | None => est end) as [raw|e]; [|discriminate].
  destruct (columns saved n raw steps (seq 1 (M - 1))) as [s1 [c1|e1]] eqn:C1; [|discriminate].
  destruct (columns saved' n' raw steps (seq 1 (M - 1))) as [s2 [c2|e2]] eqn:C2; [|discriminate].
  rewrite (CO _ _ _ _ _ _ _ _ _ _ _ C2 C1) in B. cbn [bind] in *. destruct (Nat.eqb M 0); [discriminate|]. destruct (forallb _ _); [|discriminate].
  cbn [bind] in *. congruence.
Qed.

Hypothesis LS : least_squares lstsq.

(** ** Sums of squares. *)
Lemma sq_zero X y p : length X = length y -> (forall i, (i < length X)%nat -> xdot (nth i X (0, 0, 0)) p = nth i y 0) -> sq_error X y p = 0.
Proof.
  unfold sq_error. revert y. induction X as [|[[a b] c] X IH]; intros [|v y] L H; cbn in L; try lia; [reflexivity|].
  cbn [combine map fold_right]. rewrite IH; [|lia|intros i Hi; apply (H (S i)); cbn; lia].
  specialize (H 0%nat ltac:(cbn; lia)). cbn [nth] in H. unfold xdot in H. cbn [fst snd] in H. rewrite H. ring.
Qed.
Lemma sq_nonneg X y p : 0 <= sq_error X y p.
Proof.
  unfold sq_error. induction (combine X y) as [|[[[a b] c] v] l IH]; cbn [map fold_right]; [lra|]. pose proof (pow2_ge_0 (a * fst (fst p) + b * snd (fst p) + c * snd p - v)). lra.
Qed.
Lemma zero_sq X y p : length X = length y -> sq_error X y p = 0 -> forall i, (i < length X)%nat -> xdot (nth i X (0, 0, 0)) p = nth i y 0.
Proof.
  revert y. induction X as [|[[a b] c] X IH]; intros [|v y] L H i Hi; cbn in L, Hi; try lia.
  unfold sq_error in H. cbn [combine map fold_right] in H. fold (sq_error X y p) in H.
  pose proof (pow2_ge_0 (a * fst (fst p) + b * snd (fst p) + c * snd p - v)) as P. pose proof (sq_nonneg X y p) as Q.
  destruct i as [|i]; cbn [nth].
  - unfold xdot. cbn [fst snd]. nra.
  - apply IH; [lia|lra|lia].
Qed.
(** The constant column makes the errors sum up to zero. *)
Lemma sq_shift X y p t : length X = length y -> Forall (fun r => fst (fst r) = 1) X ->
  sq_error X y (fst (fst p) + t, snd (fst p), snd p) = sq_error X y p + 2 * t * (rs (map (fun r => xdot r p) X) - rs y) + INR (length X) * t ^ 2.
Proof.
  unfold sq_error, rs. revert y. induction X as [|[[a b] c] X IH]; intros [|v y] L H; cbn in L; try lia; [cbn; ring|].
  inversion H as [|? ? H1 H2]; subst. cbn [fst] in H1. subst a. cbn [combine map fold_right]. rewrite IH by (try lia; assumption).
  change (length ((1, b, c) :: X)) with (S (length X)). rewrite S_INR. unfold xdot. cbn [fst snd]. ring.
Qed.
Lemma errors_sum X y : length X = length y -> Forall (fun r => fst (fst r) = 1) X -> rs (map (fun r => xdot r (lstsq X y)) X) = rs y.
Proof.
  intros L F. set (p := lstsq X y). set (d := rs (map (fun r => xdot r p) X) - rs y). enough (d = 0) by (unfold d in *; lra).
  destruct X as [|x X]; [destruct y; [unfold d; cbn; lra|discriminate]|]. set (k := INR (length (x :: X))).
  assert (K : 0 < k) by (apply lt_0_INR; cbn; lia).
  pose proof (LS (x :: X) y (fst (fst p) + - d / k, snd (fst p), snd p) L) as H. rewrite (sq_shift (x :: X) y p (- d / k) L F) in H. fold p in H. fold d k in H.
  assert (E : 2 * (- d / k) * d + k * (- d / k) ^ 2 = - (d * d / k)) by (field; lra).
  assert (0 <= d * d) by apply Rle_0_sqr. assert (Q : d * d / k <= 0) by lra.
  assert (d * d <= 0). { apply (Rmult_le_reg_r (/ k)); [now apply Rinv_0_lt_compat|]. unfold Rdiv in Q. lra. } nra.
Qed.

(** ** C121: variances that follow the model of the regression come back. *)
Lemma hs_tl raw steps hs : length steps = length raw -> (3 <= length raw)%nat -> used_steps raw steps hs -> hs = tl steps.
Proof.
  intros L L3 [Lh [E|[h [E _]]]]; [auto|]. destruct steps; cbn in *; [lia|]. subst. cbn in L. lia.
Qed.
Lemma tl_nth {A} (l : list A) i d : nth i (tl l) d = nth (S i) l d.
Proof. destruct l; [destruct i; reflexivity|reflexivity]. Qed.
Lemma tl_length {A} (l : list A) : length (tl l) = (length l - 1)%nat.
Proof. destruct l; cbn; lia. Qed.
Lemma reproduce raw steps : length steps = length raw -> (3 <= length raw)%nat -> (forall l, (0 < l < length raw)%nat -> 0 < nth l raw 0) ->
  (exists p, forall l, (0 < l < length raw)%nat -> xdot (xrow (nth l steps 0)) p = ln (nth l raw 0)) ->
  forall vv x, moment_regression vv raw steps = Ok x -> x = raw.
Proof.
  intros Ls L3 Pos [p Hp] vv x H. apply regression_ok in H. destruct (unchanged raw); [exact H|]. destruct H as (hs & U & ->).
  rewrite (hs_tl raw steps hs Ls L3 U). clear U hs. set (X := map xrow (tl steps)). set (y := map ln (tl raw)).
  assert (LX : length X = length y) by (unfold X, y; rewrite !map_length, !tl_length; lia).
  assert (Len : length X = (length raw - 1)%nat) by (unfold X; rewrite map_length, tl_length; lia).
  assert (NX : forall i, (i < length X)%nat -> nth i X (0, 0, 0) = xrow (nth (S i) steps 0)).
  { intros i Hi. unfold X in *. rewrite map_length in Hi. rewrite (nth_map _ _ i _ 0) by exact Hi. now rewrite tl_nth. }
  assert (Ny : forall i, (i < length X)%nat -> nth i y 0 = ln (nth (S i) raw 0)).
  { intros i Hi. unfold y. rewrite (nth_map _ _ i _ 0) by (rewrite tl_length; lia). now rewrite tl_nth. }
  assert (Z0 : sq_error X y (lstsq X y) = 0).
  { apply Rle_antisym; [|apply sq_nonneg]. rewrite <- (sq_zero X y p LX); [now apply LS|]. intros i Hi. rewrite NX, Ny by exact Hi. apply Hp. lia. }
  assert (G : map (fun h => exp (xdot (xrow h) (lstsq X y))) (tl steps) = tl raw).
  { apply nth_ext with (d := 0) (d' := 0); [rewrite map_length, !tl_length; lia|]. intros i Hi. rewrite map_length, tl_length in Hi.
    rewrite (nth_map _ _ i 0 0) by (rewrite tl_length; lia). rewrite !tl_nth.
    rewrite <- NX by lia. rewrite (zero_sq X y _ LX Z0) by lia. rewrite Ny by lia. apply exp_ln, Pos. lia. }
  rewrite G. destruct raw; [cbn in L3; lia|reflexivity].
Qed.
Theorem C121_curve : forall saved n L M raw steps n_ops est s v ops, is_array L M raw -> length steps = L ->
  (forall m, (0 < m < M)%nat -> exists A B C, forall l, (0 < l < L)%nat -> 0 < at_ raw l m /\ ln (at_ raw l m) = curve A B C (nth l steps 0)) ->
  diff_vars_regression saved n M (Some raw) est steps n_ops = (s, Ok (v, ops)) ->
  forall l m, (l < L)%nat -> (m < M)%nat -> at_ v l m = at_ raw l m.
Proof.
  intros saved n L M raw steps n_ops est s v ops A Ls Q H l m Hl Hm.
  destruct (C120_entries _ _ _ _ _ _ _ _ _ _ _ A H) as (_ & _ & _ & Keep & _).
  destruct (Nat.lt_ge_cases L 3) as [L3|L3]; [apply Keep; auto|]. destruct (Nat.eq_dec m 0) as [->|Nm]; [apply Keep; auto|].
  destruct (result_entries _ _ _ _ _ _ _ _ _ _ _ A H) as (_ & _ & _ & _ & _ & E6). destruct (E6 m ltac:(lia)) as (vv & c & E & Lc & V).
  rewrite V by exact Hl. destruct (Q m ltac:(lia)) as (a & b & d & K). pose proof A as [AL _].
  rewrite (reproduce (column m raw) steps) with (vv := vv) (x := c); rewrite ?column_length; try lia; try exact E.
  - apply column_nth. lia.
  - intros k Hk. rewrite column_nth by lia. apply K. lia.
  - exists (a, b, d). intros k Hk. rewrite column_nth by lia. destruct (K k ltac:(lia)) as [_ ->]. unfold xdot, xrow, curve. cbn [fst snd]. ring.
Qed.
(** With three or four levels and different steps there is always such a curve, and the regression changes nothing. *)
Lemma three_points x1 x2 x3 y1 y2 y3 : x1 <> x2 -> x1 <> x3 -> x2 <> x3 ->
  exists A B C, A + B * x1 + C * x1 ^ 2 = y1 /\ A + B * x2 + C * x2 ^ 2 = y2 /\ A + B * x3 + C * x3 ^ 2 = y3.
Proof.
  intros N12 N13 N23.
  set (w1 := y1 / ((x1 - x2) * (x1 - x3))). set (w2 := y2 / ((x2 - x1) * (x2 - x3))). set (w3 := y3 / ((x3 - x1) * (x3 - x2))).
  exists (w1 * (x2 * x3) + w2 * (x1 * x3) + w3 * (x1 * x2)), (- (w1 * (x2 + x3)) - w2 * (x1 + x3) - w3 * (x1 + x2)), (w1 + w2 + w3).
  unfold w1, w2, w3. repeat split; field; repeat split; lra.
Qed.
Theorem C121_few_levels : forall saved n L M raw steps n_ops est s v ops, is_array L M raw -> length steps = L -> (L <= 4)%nat -> distinct_steps steps ->
  (forall l m, (0 < l < L)%nat -> (0 < m < M)%nat -> 0 < at_ raw l m) ->
  diff_vars_regression saved n M (Some raw) est steps n_ops = (s, Ok (v, ops)) ->
  forall l m, (l < L)%nat -> (m < M)%nat -> at_ v l m = at_ raw l m.
Proof.
  intros saved n L M raw steps n_ops est s v ops A Ls L4 [SP SD] Pos H. apply (C121_curve _ _ _ _ _ _ _ _ _ _ _ A Ls) with (2 := H).
  intros m Hm.
  assert (D : forall i j, (i < L)%nat -> (j < L)%nat -> i <> j -> ln (nth i steps 0) <> ln (nth j steps 0)).
  { intros i j Hi Hj N E. rewrite Forall_forall in SP. apply ln_inv in E; [|apply SP, nth_In; lia|apply SP, nth_In; lia].
    apply (NoDup_nth steps 0) in E; auto; lia. }
  assert (C4 : (L <= 1 \/ L = 2 \/ L = 3 \/ L = 4)%nat) by lia. unfold curve. destruct C4 as [C4|[->|[->| ->]]].
  - exists 0, 0, 0. intros l Hl. lia.
  - exists (ln (at_ raw 1 m)), 0, 0. intros l Hl. assert (l = 1%nat) as -> by lia. split; [apply Pos; lia|ring].
  - set (h := nth 1 steps 0). set (k := nth 2 steps 0). pose proof (D 1%nat 2%nat ltac:(lia) ltac:(lia) ltac:(lia)) as N. fold h k in N.
    set (sl := (ln (at_ raw 2 m) - ln (at_ raw 1 m)) / (ln k - ln h)).
    exists (ln (at_ raw 1 m) - sl * ln h), sl, 0. intros l Hl. assert (l = 1%nat \/ l = 2%nat) as [-> | ->] by lia; (split; [apply Pos; lia|]).
    + fold h. ring.
    + fold k. unfold sl. field. lra.
  - destruct (three_points (ln (nth 1 steps 0)) (ln (nth 2 steps 0)) (ln (nth 3 steps 0)) (ln (at_ raw 1 m)) (ln (at_ raw 2 m)) (ln (at_ raw 3 m)))
      as (a & b & c & E1 & E2 & E3); try (apply D; lia).
    exists a, b, c. intros l Hl. assert (l = 1%nat \/ l = 2%nat \/ l = 3%nat) as [-> | [-> | ->]] by lia; (split; [apply Pos; lia|]); symmetry; assumption.
Qed.

(** ** C122: the product of the variances of the levels 1, ... is kept. *)
Theorem C122_product : forall saved n L M raw steps n_ops est s v ops m, is_array L M raw -> length steps = L ->
  (0 < m < M)%nat -> (forall l, (0 < l < L)%nat -> 0 < at_ raw l m) ->
  diff_vars_regression saved n M (Some raw) est steps n_ops = (s, Ok (v, ops)) ->
  fold_right Rmult 1 (map (fun l => at_ v l m) (seq 1 (L - 1))) = fold_right Rmult 1 (map (fun l => at_ raw l m) (seq 1 (L - 1))).
Proof.
  assert (PE : forall l, fold_right Rmult 1 (map exp l) = exp (rs l)).
  { induction l as [|x l IH]; cbn; [symmetry; apply exp_0|]. rewrite IH. unfold rs. cbn. now rewrite exp_plus. }
  intros saved n L M raw steps n_ops est s v ops m A Ls Hm Pos H. pose proof A as [AL _].
  destruct (result_entries _ _ _ _ _ _ _ _ _ _ _ A H) as (_ & _ & _ & _ & _ & E6). destruct (E6 m ltac:(lia)) as (vv & c & E & Lc & V).
  apply regression_ok in E. destruct (unchanged (column m raw)) eqn:U.
  - f_equal. apply map_ext_in. intros l Hl. apply in_seq in Hl. rewrite V by lia. subst c. apply column_nth. lia.
  - unfold unchanged in U. apply orb_false_iff in U as [U _]. apply Nat.ltb_ge in U. rewrite column_length in U.
    destruct E as (hs & Us & Ec). apply hs_tl in Us; [|rewrite column_length; lia|rewrite column_length; lia]. subst hs.
    set (X := map xrow (tl steps)) in *. set (y := map ln (tl (column m raw))) in *.
    assert (LX : length X = length y) by (unfold X, y; rewrite !map_length, !tl_length, column_length; lia).
    replace (map (fun l => at_ v l m) (seq 1 (L - 1))) with (map exp (map (fun r => xdot r (lstsq X y)) X)).
    2:{ apply nth_ext with (d := 0) (d' := 0); [unfold X; rewrite !map_length, seq_length, tl_length; lia|]. intros i Hi. rewrite !map_length in Hi.
        rewrite (nth_map (fun l => at_ v l m) _ i 0 0%nat) by (rewrite seq_length; unfold X in Hi; rewrite map_length, tl_length in Hi; lia).
        assert (i < L - 1)%nat by (unfold X in Hi; rewrite map_length, tl_length in Hi; lia).
        rewrite seq_nth by lia. rewrite V by lia. rewrite Ec. cbn [Nat.add nth]. unfold X. rewrite !map_map. f_equal. }
    replace (map (fun l => at_ raw l m) (seq 1 (L - 1))) with (map exp y).
    2:{ apply nth_ext with (d := 0) (d' := 0); [unfold y; rewrite !map_length, seq_length, tl_length, column_length; lia|]. intros i Hi. unfold y in *.
        rewrite !map_length, tl_length, column_length in Hi.
        rewrite (nth_map (fun l => at_ raw l m) _ i 0 0%nat) by (rewrite seq_length; lia). rewrite seq_nth by lia.
        rewrite (nth_map exp _ i 0 0) by (rewrite map_length, tl_length, column_length; lia).
        rewrite (nth_map ln _ i 0 0) by (rewrite tl_length, column_length; lia). rewrite tl_nth, column_nth by lia. apply exp_ln, Pos. lia. }
    rewrite !PE. f_equal. apply errors_sum; [exact LX|]. apply Forall_forall. intros r Hr. apply in_map_iff in Hr as [h [<- _]]. reflexivity.
Qed.
End Reg.
Print Assumptions C120_entries.
Print Assumptions C120_independent.
Print Assumptions C121_curve.
Print Assumptions C121_few_levels.
Print Assumptions C122_product.

(** ** C123: the cache of [_variance_of_variance].
    In full: whatever calls were made before, a call returns the variances for its own numbers of samples (or raises). *)
Section Cache.
Variable log_chi_var : Z -> R.
Notation call := (variance_of_variance log_chi_var).
(** The answers of a series of calls on one object. *)
Fixpoint calls (saved : option (list Z * list R)) (ns : list (list Z)) : list (res (list R)) :=
  match ns with [] => [] | n :: ns => let (s, r) := call saved n in r :: calls s ns end.
Definition right_answer (n : list Z) (r : res (list R)) : Prop := match r with Ok v => v = map log_chi_var n | Err _ => True end.
Definition cache_right : Prop := forall ns, Forall2 right_answer ns (calls None ns).
Lemma abs_sum_zero d : abs_sum d = 0%Z -> Forall (fun x => x = 0%Z) d.
Proof.
  assert (P : forall d, (0 <= abs_sum d)%Z) by (induction d0; unfold abs_sum in *; cbn; lia).
  induction d as [|x d IH]; intros H; constructor; unfold abs_sum in *; cbn in H; specialize (P d); unfold abs_sum in P; [lia|]. apply IH. lia.
Qed.
(** Proved: for calls with lists of one length (as many numbers as levels); they never raise but for a level with one sample. *)
Theorem C123_partial : forall k ns, Forall (fun n => length n = k) ns ->
  Forall2 (fun n r => (In 1%Z n /\ r = Err ZeroDivisionError) \/ (~ In 1%Z n /\ r = Ok (map log_chi_var n))) ns (calls None ns).
Proof.
  intros k. set (inv := fun saved : option (list Z * list R) => match saved with None => True
    | Some (n, v) => length n = k /\ v = map log_chi_var n /\ ~ In 1%Z n end).
  assert (One : forall n, existsb (fun n => Z.eqb n 1) n = true <-> In 1%Z n).
  { intros n. rewrite existsb_exists. split; [intros (x & Hx & E); apply Z.eqb_eq in E; now subst|]. intros H. exists 1%Z. split; [exact H|reflexivity]. }
  assert (St : forall saved n, inv saved -> length n = k -> inv (fst (call saved n))
     /\ ((In 1%Z n /\ snd (call saved n) = Err ZeroDivisionError) \/ (~ In 1%Z n /\ snd (call saved n) = Ok (map log_chi_var n)))).
  { intros saved n I L.
    assert (C : let c := (if existsb (fun n => Z.eqb n 1) n then (saved, Err ZeroDivisionError) else (Some (n, map log_chi_var n), Ok (map log_chi_var n))) in
       inv (fst c) /\ ((In 1%Z n /\ snd c = Err ZeroDivisionError) \/ (~ In 1%Z n /\ snd c = Ok (map log_chi_var n)))).
    { cbv zeta. specialize (One n). destruct (existsb _ n); cbn [fst snd]; [split; [exact I|left; intuition]|].
      split; [split; [exact L|split; [reflexivity|]]|right; split; [|reflexivity]]; intros H; apply One in H; discriminate. }
    cbv zeta in C. unfold variance_of_variance. destruct saved as [[n0 v0]|]; [|exact C]. pose proof I as (L0 & E0 & N0). unfold bdiff. rewrite L0, L, Nat.eqb_refl.
    destruct (Z.eqb_spec (abs_sum (map (fun p => (fst p - snd p)%Z) (combine n0 n))) 0) as [Z0|_]; [|exact C]. cbn [fst snd]. split; [exact I|]. right.
    apply abs_sum_zero in Z0. assert (n0 = n) as ->.
    { assert (Le : length n0 = length n) by congruence. clear -Le Z0. revert n Le Z0. induction n0 as [|x n0 IH]; intros [|y n] L Z0; cbn in L; try lia; [reflexivity|]. cbn [combine map] in Z0. inversion Z0 as [|? ? H1 H2]; subst. cbn in H1.
      f_equal; [lia|]. apply IH; [lia|assumption]. }
    split; [exact N0|]. now rewrite E0. }
  intros ns F. assert (G : inv None) by exact Logic.I. revert G. generalize (@None (list Z * list R)). induction F as [|n ns Hn F IH]; intros saved I; cbn [calls]; [constructor|].
  destruct (St saved n I Hn) as [I' R]. destruct (call saved n) as [s r]. cbn [fst snd] in *. constructor; [exact R|]. apply IH, I'.
Qed.
(** A list with one number of samples matches any list repeating it: the answer has the wrong length. *)
Theorem C123_refuted : exists ns, ~ Forall2 right_answer ns (calls None ns).
Proof.
  exists [[5%Z]; [5%Z; 5%Z; 5%Z]]. intros H. inversion H as [|? ? ? ? _ H2]; subst. inversion H2 as [|? ? ? ? H3 _]; subst. cbn in H3. discriminate.
Qed.
End Cache.
Print Assumptions C123_partial.
Print Assumptions C123_refuted.

(** ** A solver of least squares problems, by orthogonalisation, as a witness for the hypothesis [least_squares]. *)
Definition vec := nat -> R.
Definition ip (n : nat) (u v : vec) : R := rs (map (fun i => u i * v i) (seq 0 n)).
Fixpoint comb (us : list vec) (p : list R) (i : nat) : R :=
  match us, p with u :: us, c :: p => c * u i + comb us p i | _, _ => 0 end.
Fixpoint solve (n : nat) (us : list vec) (y : vec) : list R :=
  match us with
  | [] => []
  | u :: us' =>
      let q := solve n us' u in
      let p := solve n us' y in
      let w := fun i => u i - comb us' q i in
      let r := fun i => y i - comb us' p i in
      let t := if Req_EM_T (ip n w w) 0 then 0 else ip n r w / ip n w w in
      t :: map (fun c => fst c - t * snd c) (combine p q)
  end.
Lemma rs_plus {A} (f g : A -> R) l : rs (map (fun x => f x + g x) l) = rs (map f l) + rs (map g l).
Proof. unfold rs. induction l; cbn; lra. Qed.
Lemma rs_scal {A} c (f : A -> R) l : rs (map (fun x => c * f x) l) = c * rs (map f l).
Proof. unfold rs. induction l; cbn; lra. Qed.
Lemma ip_ext n u u' v v' : (forall i, u i = u' i) -> (forall i, v i = v' i) -> ip n u v = ip n u' v'.
Proof. intros A B. unfold ip. f_equal. apply map_ext. intros i. now rewrite A, B. Qed.
Lemma ip_lin n a b u v w : ip n (fun i => a * u i + b * v i) w = a * ip n u w + b * ip n v w.
Proof. unfold ip. rewrite <- !rs_scal, <- rs_plus. f_equal. apply map_ext. intros i. ring. Qed.
Lemma ip_sym n u v : ip n u v = ip n v u.
Proof. unfold ip. f_equal. apply map_ext. intros i. ring. Qed.
Lemma ip_pos n u : 0 <= ip n u u.
Proof. unfold ip, rs. generalize (seq 0 n). induction l as [|x l IH]; cbn; [lra|]. pose proof (Rle_0_sqr (u x)). unfold Rsqr in *. lra. Qed.
Lemma ip_zero n u v : ip n u u = 0 -> ip n v u = 0.
Proof.
  unfold ip. intros H. assert (Z0 : forall l, rs (map (fun i => u i * u i) l) = 0 -> rs (map (fun i => v i * u i) l) = 0).
  { clear. induction l as [|x l IH]; unfold rs in *; cbn; [lra|]. intros H. assert (P : 0 <= fold_right Rplus 0 (map (fun i => u i * u i) l)).
    { clear. induction l as [|x l IH]; cbn; [lra|]. pose proof (Rle_0_sqr (u x)). unfold Rsqr in *. lra. }
    pose proof (Rle_0_sqr (u x)) as Q. unfold Rsqr in Q. assert (u x = 0) by nra. rewrite IH by lra. rewrite H0. ring. }
  now apply Z0.
Qed.
Lemma solve_length n us : forall y, length (solve n us y) = length us.
Proof. induction us as [|u us IH]; intros y; [reflexivity|]. cbn [solve length]. rewrite map_length, combine_length, !IH. lia. Qed.
Lemma comb_diff us t p : forall q i, length p = length us -> length q = length us ->
  comb us (map (fun c => fst c - t * snd c) (combine p q)) i = comb us p i - t * comb us q i.
Proof.
  revert p. induction us as [|u us IH]; intros [|a p] [|b q] i Lp Lq; cbn in Lp, Lq; try lia; cbn [combine map comb fst snd]; [ring|]. rewrite IH by lia. ring.
Qed.
Lemma comb_orth n us r p : (forall u, In u us -> ip n r u = 0) -> ip n r (comb us p) = 0.
Proof.
  revert p. induction us as [|u us IH]; intros p H.
  - assert (E : ip n r (comb [] p) = 0 * ip n r r + 0 * ip n r r) by (rewrite ip_sym, <- ip_lin; apply ip_ext; intros; cbn; destruct p; ring). lra.
  - destruct p as [|c p].
    + assert (E : ip n r (comb (u :: us) []) = 0 * ip n r r + 0 * ip n r r) by (rewrite ip_sym, <- ip_lin; apply ip_ext; intros; cbn; ring). lra.
    + rewrite ip_sym. transitivity (ip n (fun i => c * u i + 1 * comb us p i) r); [apply ip_ext; intros; cbn; ring|]. rewrite ip_lin, (ip_sym n u), (ip_sym n (comb us p)).
      rewrite (H u) by now left. rewrite IH by (intros; apply H; now right). ring.
Qed.
Lemma solve_orth n us : forall y u, In u us -> ip n (fun i => y i - comb us (solve n us y) i) u = 0.
Proof.
  induction us as [|u us IH]; intros y u0 H; [contradiction|].
  set (q := solve n us u). set (p := solve n us y). set (w := fun i => u i - comb us q i). set (r := fun i => y i - comb us p i).
  set (t := if Req_EM_T (ip n w w) 0 then 0 else ip n r w / ip n w w).
  assert (E : forall i, y i - comb (u :: us) (solve n (u :: us) y) i = 1 * r i + (- t) * w i).
  { intros i. cbn [solve comb]. fold q p. fold w r. fold t. rewrite comb_diff by (unfold p, q; apply solve_length). unfold r, w. ring. }
  assert (O : forall u1, In u1 us -> ip n (fun i => 1 * r i + (- t) * w i) u1 = 0).
  { intros u1 H1. rewrite ip_lin. unfold r, w, p, q. rewrite !IH by exact H1. ring. }
  rewrite (ip_ext n _ (fun i => 1 * r i + (- t) * w i) u0 u0 E (fun i => eq_refl)). destruct H as [<-|H]; [|now apply O].
  transitivity (ip n (fun i => 1 * w i + 1 * comb us q i) (fun i => 1 * r i + (- t) * w i)).
  { rewrite ip_sym. apply ip_ext; intros i; unfold w; [ring|reflexivity]. }
  rewrite ip_lin, (ip_sym n (comb us q)), comb_orth by exact O. rewrite ip_sym, ip_lin. unfold t. destruct (Req_EM_T (ip n w w) 0) as [Z0|N].
  - rewrite (ip_zero n w r Z0). lra.
  - field. exact N.
Qed.
Definition fstcols (X : list (R * R * R)) : list vec :=
  [fun i => fst (fst (nth i X (0, 0, 0))); fun i => snd (fst (nth i X (0, 0, 0))); fun i => snd (nth i X (0, 0, 0))].
Definition solver (X : list (R * R * R)) (y : list R) : R * R * R :=
  let p := solve (length X) (fstcols X) (fun i => nth i y 0) in (nth 0 p 0, nth 1 p 0, nth 2 p 0).
Lemma sq_error_ip X y a b c : length X = length y -> sq_error X y (a, b, c) =
  let e := fun i => nth i y 0 - comb (fstcols X) [a; b; c] i in ip (length X) e e.
Proof.
  intros L. cbv zeta. unfold sq_error, ip, rs. f_equal. apply nth_ext with (d := 0) (d' := 0).
  - rewrite !map_length, seq_length, combine_length. lia.
  - intros i Hi. rewrite map_length, combine_length in Hi. rewrite (nth_map _ _ i 0 ((0, 0, 0), 0)) by (rewrite combine_length; lia).
    rewrite combine_nth by exact L. rewrite (nth_map _ _ i 0 0%nat) by (rewrite seq_length; lia). rewrite seq_nth by lia. cbn [Nat.add].
    cbn [fstcols comb]. destruct (nth i X (0, 0, 0)) as [[x1 x2] x3]. cbn [fst snd]. ring.
Qed.
Lemma solver_least_squares : least_squares solver.
Proof.
  intros X y [[a b] c] L. unfold solver. set (Y := fun i => nth i y 0). set (p := solve (length X) (fstcols X) Y).
  pose proof (solve_length (length X) (fstcols X) Y) as Lp. fold p in Lp. destruct p as [|p1 [|p2 [|p3 [|]]]] eqn:Ep; cbn in Lp; try lia. cbn [nth].
  rewrite !sq_error_ip by exact L. cbv zeta. set (n := length X). set (us := fstcols X) in *. fold Y.
  set (r := fun i => Y i - comb us [p1; p2; p3] i).
  assert (O : ip n r (comb us [p1 - a; p2 - b; p3 - c]) = 0).
  { apply comb_orth. intros u Hu. unfold r. rewrite <- Ep. apply (solve_orth n us Y u Hu). }
  set (d := comb us [p1 - a; p2 - b; p3 - c]) in *.
  change (fun i => nth i y 0 - comb us [p1; p2; p3] i) with r.
  rewrite (ip_ext n (fun i => nth i y 0 - comb us [a; b; c] i) (fun i => 1 * r i + 1 * d i) (fun i => nth i y 0 - comb us [a; b; c] i) (fun i => 1 * r i + 1 * d i)).
  - set (z := fun i => 1 * r i + 1 * d i). unfold z at 1. rewrite ip_lin, (ip_sym n r z), (ip_sym n d z). unfold z. rewrite !ip_lin, (ip_sym n d r), O.
    pose proof (ip_pos n d). lra.
  - intros i. unfold r, d, us, Y. cbn [fstcols comb]. ring.
  - intros i. unfold r, d, us, Y. cbn [fstcols comb]. ring.
Qed.

(** ** Examples. *)
(** Two moments on four levels; the numbers of samples are those of the levels. *)
Definition ex_raw : list (list R) := [[0; 7]; [0; 5]; [0; 2]; [0; 1]].
Definition ex_steps : list R := [8; 4; 2; 1].
Example C121_example : exists s v, diff_vars_regression solver IZR None [100; 50; 20; 10]%Z 2 (Some ex_raw) (Err NameError) ex_steps [1; 2; 3; 4] = (s, Ok (v, [1; 2; 3; 4]))
  /\ at_ v 1 1 = 5 /\ at_ v 2 1 = 2 /\ at_ v 3 1 = 1 /\ at_ v 0 1 = 7.
Proof.
  assert (A : is_array 4 2 ex_raw) by (split; [reflexivity|repeat constructor]).
  assert (E : exists s v, diff_vars_regression solver IZR None [100; 50; 20; 10]%Z 2 (Some ex_raw) (Err NameError) ex_steps [1; 2; 3; 4] = (s, Ok (v, [1; 2; 3; 4]))).
  { unfold diff_vars_regression, all_moments_regression. cbn [Nat.sub seq columns].
    assert (U : forallb close0 (column 1 ex_raw) = false).
    { destruct (forallb close0 (column 1 ex_raw)) eqn:F; [|reflexivity]. apply tiny_spec in F. specialize (F 0%nat ltac:(cbn; lia)). cbn in F. rewrite Rabs_right in F; lra. }
    assert (Z0 : forallb close0 (column 0 ex_raw) = true).
    { apply tiny_spec. intros l Hl. cbn in Hl. assert (at_ ex_raw l 0 = 0) as ->; [|rewrite Rabs_R0; lra].
      destruct l as [|[|[|[|l]]]]; try reflexivity. lia. }
    rewrite U, Z0. unfold moment_regression. rewrite U. cbn [column ex_raw length map Nat.ltb Nat.leb orb variance_of_variance existsb Z.eqb Pos.eqb bind ex_steps tl Nat.sub Nat.eqb].
    eauto. }
  destruct E as (s & v & E). exists s, v. split; [exact E|].
  assert (K : forall l m, (l < 4)%nat -> (m < 2)%nat -> at_ v l m = at_ ex_raw l m).
  { eapply (C121_few_levels solver IZR solver_least_squares _ _ 4 2 ex_raw ex_steps); [exact A|reflexivity|lia| |  |exact E].
    - split; [repeat constructor; lra|]. unfold ex_steps. repeat (apply NoDup_cons; [cbn; intros K; repeat (destruct K as [K|K]; [lra|]); exact K|]). apply NoDup_nil.
    - intros l m Hl Hm. assert (m = 1%nat) as -> by lia. destruct l as [|[|[|[|l]]]]; try lia; cbn; lra. }
  rewrite !K by lia. cbn. lra.
Qed.
Example C123_example : calls (fun z => IZR z) None [[5; 7]; [5; 7]; [5; 1]]%Z = [Ok [5; 7]; Ok [5; 7]; Err ZeroDivisionError].
Proof. reflexivity. Qed.
