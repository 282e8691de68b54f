(** Continuation in the number of moments of the density fit: C208 to C211. *)
From Coq Require Import Reals Lra Sorted.
From Verif Require Import Base BaseFacts NumModel DistModel DistProofs ContModel ContFacts.
Local Open Scope R_scope.

(** * C208: sizes and tolerances *)
Lemma loop_more f size sizes l : size_loop f size sizes = Some l -> forall g, (f <= g)%nat -> size_loop g size sizes = Some l.
Proof.
  revert size sizes. induction f as [|f IH]; intros size sizes H g Hg; [discriminate|]. destruct g as [|g]; [lia|]. cbn [size_loop] in *.
  destruct (negb (Qle_bool size 4)); [|exact H]. apply IH; [exact H|lia].
Qed.
Lemma grows_sorted l : Sorted grows l -> forall i j, (i < j)%nat -> (j < length l)%nat -> (nth i l 0 < nth j l 0)%Z.
Proof.
  intros S. assert (St : StronglySorted (fun x y => (x < y)%Z) l).
  { apply Sorted_StronglySorted; [intros x y z; lia|]. induction S; constructor; [assumption|]. destruct H; constructor. apply H. }
  induction St as [|x l St IH F]; intros i j Hij Hj; [cbn in Hj; lia|]. destruct j as [|j]; [lia|]. cbn [length] in Hj. destruct i as [|i]; cbn [nth].
  - rewrite Forall_forall in F. apply F, nth_In. lia.
  - apply IH; [inversion S; assumption|lia|lia].
Qed.
Lemma grows_next l : Sorted grows l -> forall i, (S i < length l)%nat -> grows (nth i l 0%Z) (nth (S i) l 0%Z).
Proof.
  induction 1 as [|x l S IH H]; intros i Hi; [cbn in Hi; lia|]. cbn [length] in Hi. destruct i as [|i].
  - destruct H; cbn in *; [lia|]. exact H.
  - apply (IH i). lia.
Qed.
Lemma hd_nth (l : list Z) : hd 0%Z l = nth 0 l 0%Z. Proof. destruct l; reflexivity. Qed.
Lemma last_nth {A} (l : list A) d : last l d = nth (length l - 1) l d.
Proof. induction l as [|x [|y l] IH]; [reflexivity..|]. change (last (x :: y :: l) d) with (last (y :: l) d). rewrite IH. cbn [length]. replace (S (S (length l)) - 1)%nat with (S (S (length l) - 1)) by lia. reflexivity. Qed.

(** The sizes grow strictly from 3 (or from all moments, if there are at most five) to the number of moments, each at most 1.2 times the
    one before plus 2.2; the tolerances do not grow, from the larger of tol and a tenth of the first error to tol. *)
Theorem C208_schedule : forall n tol err, 0 < tol -> exists l,
  (forall fuel, (2 * n < fuel)%nat -> fit_sizes fuel n = Some l)
  /\ hd 0%Z l = (if Nat.leb n 5 then Z.of_nat n else 3%Z) /\ last l 0%Z = Z.of_nat n
  /\ (forall i j, (i < j)%nat -> (j < length l)%nat -> (nth i l 0 < nth j l 0)%Z)
  /\ (forall i, (S i < length l)%nat -> (5 * nth (S i) l 0 <= 6 * nth i l 0 + 11)%Z)
  /\ let ts := tolerances l tol err in
     length ts = length l /\ last ts 0 = tol
     /\ ((5 < n)%nat -> hd 0 ts = match err with Some e => Rmax tol (e / 10) | None => tol end)
     /\ forall i j, (i <= j)%nat -> (j < length l)%nat -> nth j ts 0 <= nth i ts 0.
Proof.
  intros n tol err Ht. destruct (Nat.leb_spec n 5) as [L|L].
  - exists [Z.of_nat n]. split; [intros fuel _; unfold fit_sizes; destruct (Nat.leb_spec n 5); [reflexivity|lia]|].
    split; [reflexivity|]. split; [reflexivity|]. split; [intros i j A B; cbn in B; lia|]. split; [intros i A; cbn in A; lia|].
    cbv zeta. cbn [tolerances]. split; [reflexivity|]. split; [reflexivity|]. split; [lia|]. intros i j A B. cbn in B. assert (j = 0)%nat by lia. assert (i = 0)%nat by lia. subst. lra.
  - destruct (sizes_large (S (2 * n)) n ltac:(lia) ltac:(lia)) as (l & E & Ll & So & Hh & Hl & _). exists l.
    assert (G : forall fuel, (2 * n < fuel)%nat -> fit_sizes fuel n = Some l).
    { intros fuel Hf. revert E. unfold fit_sizes. destruct (Nat.leb_spec n 5); [lia|]. intros E.
      destruct (size_loop (S (2 * n)) _ _) eqn:E0; [|discriminate]. rewrite (loop_more _ _ _ _ E0 fuel) by lia. exact E. }
    split; [exact G|]. split; [exact Hh|]. split; [exact Hl|]. split; [now apply grows_sorted|]. split.
    { intros i Hi. apply grows_Z, grows_next; assumption. }
    cbv zeta. set (t0 := match err with Some e => Rmax tol (e / 10) | None => tol end).
    assert (T0 : tol <= t0) by (unfold t0; destruct err; [apply Rmax_l|lra]).
    set (F := fun s => exp (ln tol * ((IZR s - 3) / (IZR (Z.of_nat n) - 3)) + ln t0 * (1 - (IZR s - 3) / (IZR (Z.of_nat n) - 3)))).
    assert (ET : tolerances l tol err = map F l).
    { destruct l as [|x [|y r]]; [cbn in Ll; lia..|]. unfold tolerances. cbv zeta. rewrite Hl, Hh. reflexivity. }
    assert (N3 : 3 < IZR (Z.of_nat n)) by (apply IZR_lt; lia).
    assert (Ln : ln tol <= ln t0) by (destruct T0 as [T0|<-]; [left; apply ln_increasing; lra|lra]).
    rewrite ET. split; [apply map_length|]. split; [|split].
    + rewrite last_nth, map_length. rewrite (nth_indep _ 0 (F 0%Z)) by (rewrite map_length; lia). rewrite map_nth. rewrite <- (last_nth l 0%Z), Hl. unfold F.
      replace ((IZR (Z.of_nat n) - 3) / (IZR (Z.of_nat n) - 3)) with 1 by (field; lra). replace (ln tol * 1 + ln t0 * (1 - 1)) with (ln tol) by ring. apply exp_ln, Ht.
    + intros _. destruct l as [|x r]; [cbn in Ll; lia|]. cbn [map hd]. cbn [hd] in Hh. subst x. unfold F. replace ((3 - 3) / (IZR (Z.of_nat n) - 3)) with 0 by (field; lra).
      replace (ln tol * 0 + ln t0 * (1 - 0)) with (ln t0) by ring. apply exp_ln. lra.
    + intros i j Hij Hj. rewrite !(nth_indep (map F l) 0 (F 0%Z)) by (rewrite map_length; lia). rewrite !map_nth.
      assert (Le : IZR (nth i l 0%Z) <= IZR (nth j l 0%Z)) by (apply IZR_le; destruct (Nat.eq_dec i j) as [->|]; [lia|]; pose proof (grows_sorted l So i j ltac:(lia) Hj); lia).
      unfold F. set (p := IZR (nth i l 0%Z)) in *. set (q := IZR (nth j l 0%Z)) in *.
      assert (D : (p - 3) / (IZR (Z.of_nat n) - 3) <= (q - 3) / (IZR (Z.of_nat n) - 3)) by (apply Rmult_le_compat_r; [left; apply Rinv_0_lt_compat; lra|lra]).
      assert (M : ln tol * ((q - 3) / (IZR (Z.of_nat n) - 3)) + ln t0 * (1 - (q - 3) / (IZR (Z.of_nat n) - 3)) <= ln tol * ((p - 3) / (IZR (Z.of_nat n) - 3)) + ln t0 * (1 - (p - 3) / (IZR (Z.of_nat n) - 3))) by nra.
      destruct M as [M|M]; [left; apply exp_increasing, M|rewrite M; lra].
Qed.
Print Assumptions C208_schedule.
Example C208_ex : fit_sizes 51 25 = Some [3; 5; 7; 9; 11; 13; 15; 17; 21; 25]%Z /\ 0 < 1 / 100000.
Proof. split; [vm_compute; reflexivity|lra]. Qed.

(** * C209: "Using just odd numbers." *)
(** In full (all sizes odd) false; proved: all but the last one. *)
Theorem C209_odd_partial : forall n, (5 < n)%nat -> exists l, (forall fuel, (2 * n < fuel)%nat -> fit_sizes fuel n = Some l)
  /\ (2 <= length l)%nat /\ (forall i, (S i < length l)%nat -> Z.odd (nth i l 0%Z) = true) /\ last l 0%Z = Z.of_nat n.
Proof.
  intros n L. destruct (sizes_large (S (2 * n)) n ltac:(lia) ltac:(lia)) as (l & E & Ll & So & Hh & Hl & Od). exists l. split.
  { intros fuel Hf. revert E. unfold fit_sizes. destruct (Nat.leb_spec n 5); [lia|]. intros E. destruct (size_loop (S (2 * n)) _ _) eqn:E0; [|discriminate]. rewrite (loop_more _ _ _ _ E0 fuel) by lia. exact E. }
  split; [exact Ll|]. split; [|exact Hl]. intros i Hi.
  assert (N : nth i l 0%Z = nth i (removelast l) 0%Z).
  { rewrite (app_removelast_last 0%Z (l := l)) at 1 by (destruct l; [cbn in Ll; lia|discriminate]). rewrite app_nth1; [reflexivity|].
    pose proof (f_equal (@length Z) (app_removelast_last 0%Z (l := l) ltac:(destruct l; [cbn in Ll; lia|discriminate]))) as X. rewrite app_length in X. cbn [length] in X. lia. }
  rewrite N. rewrite Forall_forall in Od. apply Od, nth_In.
  pose proof (f_equal (@length Z) (app_removelast_last 0%Z (l := l) ltac:(destruct l; [cbn in Ll; lia|discriminate]))) as X. rewrite app_length in X. cbn [length] in X. lia.
Qed.
Print Assumptions C209_odd_partial.
Theorem C209_odd_refuted : exists n fuel l s, (5 < n)%nat /\ (2 * n < fuel)%nat /\ fit_sizes fuel n = Some l /\ In s l /\ Z.odd s = false.
Proof. exists 6%nat, 13%nat, [3; 5; 6]%Z, 6%Z. split; [lia|]. split; [lia|]. split; [vm_compute; reflexivity|]. split; [cbn; auto|reflexivity]. Qed.
Print Assumptions C209_odd_refuted.
Example C209_ex : (5 < 12)%nat /\ fit_sizes 25 12 = Some [3; 5; 7; 9; 12]%Z.
Proof. split; [lia|vm_compute; reflexivity]. Qed.

(** * C210: every fit starts from the density of the fit before *)
(** Specification: the density for a list of multipliers, and what the minimiser of scipy keeps. *)
Definition dens (size : nat) (errs mult : list R) (moms : nat -> R) : R := d_density size (fun i => nth i errs 0) (fun i => nth i mult 0) moms.
Definition keeps_size (minimise : nat -> R -> num -> list R -> list R -> list R) : Prop :=
  forall s t st la l, length l = s -> length (minimise s t st la l) = s.

Lemma sum_tail n k f : (n <= k)%nat -> (forall i, (n <= i)%nat -> f i = 0) -> sum k f = sum n f.
Proof.
  intros H Z. replace k with (n + (k - n))%nat by lia. generalize (k - n)%nat as d. intros d. unfold sum. rewrite seq_app, map_app, fold_right_app. cbn [Nat.add].
  replace (fold_right Rplus 0 (map f (seq n d))) with 0; [reflexivity|]. clear H.
  assert (G : forall m, (n <= m)%nat -> 0 = fold_right Rplus 0 (map f (seq m d))); [|apply G; lia]. induction d as [|d IH]; intros m Hm; [reflexivity|]. cbn [seq map fold_right]. rewrite <- IH, Z by lia. lra.
Qed.
Lemma dens_extend s s' errs mult moms : (s <= s')%nat -> length mult = s -> dens s' errs (mult ++ repeat 0 (s' - s)) moms = dens s errs mult moms.
Proof.
  intros H L. unfold dens, d_density. do 2 f_equal. rewrite (sum_tail s s') by (try assumption; intros i Hi; rewrite app_nth2, nth_repeat by lia; unfold Rdiv; ring).
  apply sum_ext. intros i Hi. rewrite app_nth1 by lia. reflexivity.
Qed.

Section Stages.
Variable minimise : nat -> R -> num -> list R -> list R -> list R.
Variable reg : R.
Hypothesis Hm : keeps_size minimise.
Fixpoint rising (k : nat) (todo : list (Z * R)) : Prop :=
  match todo with [] => True | (s, _) :: r => (k <= Z.to_nat s)%nat /\ (0 <= s)%Z /\ rising (Z.to_nat s) r end.
Fixpoint linked (prev : list R) (sts : list stage) : Prop :=
  match sts with
  | [] => True
  | s :: r => st_last s = prev /\ (length prev <= st_size s)%nat /\ st_start s = prev ++ repeat 0 (st_size s - length prev)
      /\ st_stab s = (if Req_EM_T (norm prev) 0 then inf_mul reg true else Fin (reg / norm prev)) /\ st_quad_tol s = st_tol s / 16
      /\ st_result s = minimise (st_size s) (st_tol s) (st_stab s) (st_last s) (st_start s) /\ length (st_result s) = st_size s /\ linked (st_result s) r
  end.
Definition final (mult : list R) (sts : list stage) : list R := last (map st_result sts) mult.
Lemma last_default {A} (l : list A) d d' x : last (x :: l) d = last (x :: l) d'.
Proof. revert x. induction l as [|y l IH]; intros x; [reflexivity|]. change (last (y :: l) d = last (y :: l) d'). apply IH. Qed.
Lemma stages_linked todo mult : rising (length mult) todo ->
  exists sts, stages minimise reg todo mult = Ok (sts, final mult sts) /\ map (fun s => (Z.of_nat (st_size s), st_tol s)) sts = todo /\ linked mult sts.
Proof.
  revert mult. induction todo as [|[s t] todo IH]; intros mult H; [exists []; cbn; auto|]. destruct H as (H1 & H2 & H3). cbn [stages].
  unfold extend_size. destruct (Nat.leb_spec (length mult) (Z.to_nat s)); [|lia]. cbv zeta. cbn [bind fst snd].
  set (stab := if Req_EM_T (norm mult) 0 then inf_mul reg true else Fin (reg / norm mult)). set (start := mult ++ repeat 0 (Z.to_nat s - length mult)).
  set (x := minimise (Z.to_nat s) t stab mult start).
  assert (Lx : length x = Z.to_nat s) by (apply Hm; unfold start; rewrite app_length, repeat_length; lia).
  destruct (IH x) as (sts & E & M & K); [rewrite Lx; exact H3|]. rewrite E. cbn [bind fst snd].
  exists (mkStage (Z.to_nat s) t (t / 16) stab mult start x :: sts). split; [|split].
  - do 2 f_equal. unfold final. cbn [map st_result]. destruct (map st_result sts) as [|y r]; [reflexivity|]. exact (last_default r x mult y).
  - cbn [map st_size st_tol]. rewrite M, Z2Nat.id by lia. reflexivity.
  - cbn [linked st_last st_size st_start st_stab st_quad_tol st_tol st_result]. repeat split; auto.
Qed.
End Stages.

(** Inputs: a domain, at least two moments with positive errors, positive tolerance and penalty, a minimiser that keeps the size. *)
Definition fit_inputs (minimise : nat -> R -> num -> list R -> list R -> list R) (a b reg : R) (errs : list R) (tol : R) : Prop :=
  a < b /\ (2 <= length errs)%nat /\ (forall e, In e errs -> 0 < e) /\ 0 < tol /\ 0 < reg /\ keeps_size minimise.

Lemma fmin_in e l : In (fmin e l) (e :: l).
Proof. induction l as [|x l IH]; [left; reflexivity|]. unfold fmin in *. cbn [fold_right]. assert (C : Rmin x (fold_right Rmin e l) = x \/ Rmin x (fold_right Rmin e l) = fold_right Rmin e l) by (unfold Rmin at 1 3; destruct (Rle_dec x (fold_right Rmin e l)); auto). destruct C as [->| ->]; [right; left; reflexivity|]. destruct IH as [<-|IH]; [left; reflexivity|right; right; exact IH]. Qed.
Lemma fmin_le e l y : In y (e :: l) -> fmin e l <= y.
Proof.
  induction l as [|x l IH]; intros H; [destruct H as [<-|[]]; cbn; lra|]. unfold fmin in *. cbn [fold_right]. destruct H as [<-|[<-|H]].
  - eapply Rle_trans; [apply Rmin_r|apply IH; left; reflexivity].
  - apply Rmin_l.
  - eapply Rle_trans; [apply Rmin_r|apply IH; right; exact H].
Qed.
Lemma rising_sizes l ts k : (forall i j, (i < j)%nat -> (j < length l)%nat -> (nth i l 0 < nth j l 0)%Z) -> (0 <= hd 0 l)%Z -> (k <= Z.to_nat (hd 0%Z l))%nat -> rising k (combine l ts).
Proof.
  revert ts k. induction l as [|x l IH]; intros ts k S P K; [exact I|]. destruct ts as [|t ts]; [exact I|]. cbn [combine rising]. cbn [hd] in *. split; [exact K|]. split; [exact P|].
  destruct l as [|y l]; [exact I|]. pose proof (S 0 1 ltac:(lia) ltac:(cbn; lia))%nat as XY. cbn in XY. apply IH.
  - intros i j A B. apply (S (Datatypes.S i) (Datatypes.S j)); [lia|]. cbn [length] in *. lia.
  - cbn [hd]. lia.
  - cbn [hd]. lia.
Qed.
Lemma fit_ok minimise init_error a b reg errs tol fuel : fit_inputs minimise a b reg errs tol -> (2 * length errs < fuel)%nat ->
  exists l e k sts, fit_sizes fuel (length errs) = Some l /\ Z.to_nat (hd 0%Z l) = S k /\ let start := - ln (1 / (b - a)) * e :: repeat 0 k in
    fit minimise init_error a b reg fuel errs tol = Ok (e :: tl errs, sts, final start sts)
    /\ In (8 * e) (tl errs) /\ (forall y, In y (tl errs) -> 8 * e <= y)
    /\ map (fun s => (Z.of_nat (st_size s), st_tol s)) sts = combine l (tolerances l tol (init_error start)) /\ linked minimise reg start sts /\ sts <> [].
Proof.
  intros (Hab & He & Hp & Ht & Hr & Hk) Hf. destruct (C208_schedule (length errs) tol None Ht) as (l & G & Hh & Hl & Hs & _). exists l.
  destruct errs as [|e0 [|e1 es]]; [cbn in He; lia..|]. set (n := length (e0 :: e1 :: es)) in *. exists (fmin e1 es / 8).
  assert (H1 : (1 <= hd 0 l)%Z) by (rewrite Hh; destruct (Nat.leb n 5); lia).
  exists (Z.to_nat (hd 0%Z l) - 1)%nat. set (k := (Z.to_nat (hd 0%Z l) - 1)%nat). assert (K : Z.to_nat (hd 0%Z l) = S k) by (unfold k; lia).
  set (e := fmin e1 es / 8). cbv zeta. set (start := - ln (1 / (b - a)) * e :: repeat 0 k).
  assert (Ls : length start = S k) by (unfold start; cbn [length]; now rewrite repeat_length).
  assert (E8 : 8 * e = fmin e1 es) by (unfold e; field).
  destruct (stages_linked minimise reg Hk (combine l (tolerances l tol (init_error start))) start) as (sts & Es & Ms & Li).
  { apply rising_sizes; [exact Hs|lia|rewrite Ls, K; lia]. }
  exists sts. split; [apply G, Hf|]. split; [exact K|]. split; [|split; [|split; [|split; [|split]]]].
  - unfold fit. fold n. rewrite (G fuel Hf). cbv zeta. rewrite K. unfold init_params. cbn [bind snd fst]. fold e. fold start. unfold extend_size. rewrite Ls, Nat.leb_refl. cbv zeta. cbn [bind snd fst].
    rewrite Nat.sub_diag. cbn [repeat]. rewrite app_nil_r, Es. reflexivity.
  - rewrite E8. apply fmin_in.
  - intros y Hy. rewrite E8. now apply fmin_le.
  - exact Ms.
  - exact Li.
  - intros ->. destruct l as [|x l]; [cbn in H1; lia|]. destruct (tolerances (x :: l) tol (init_error start)) eqn:E; [|discriminate].
    unfold tolerances in E. destruct l; discriminate.
Qed.

Lemma linked_nth minimise reg prev sts i d : linked minimise reg prev sts -> (S i < length sts)%nat ->
  st_last (nth (S i) sts d) = st_result (nth i sts d) /\ (st_size (nth i sts d) <= st_size (nth (S i) sts d))%nat
  /\ st_start (nth (S i) sts d) = st_result (nth i sts d) ++ repeat 0 (st_size (nth (S i) sts d) - st_size (nth i sts d)) /\ length (st_result (nth i sts d)) = st_size (nth i sts d).
Proof.
  revert prev i. induction sts as [|s sts IH]; intros prev i H Hi; [cbn in Hi; lia|]. destruct H as (A & B & C & D & F & G & L & H). destruct i as [|i].
  - destruct sts as [|s' sts]; [cbn in Hi; lia|]. cbn [nth]. destruct H as (A' & B' & C' & _). rewrite L in *. auto.
  - change (nth (S (S i)) (s :: sts) d) with (nth (S i) sts d). change (nth (S i) (s :: sts) d) with (nth i sts d). apply (IH (st_result s)); [exact H|cbn [length] in Hi; lia].
Qed.

Theorem C210_warm_start : forall minimise init_error a b reg errs tol fuel (moms : nat -> R) d, fit_inputs minimise a b reg errs tol -> (2 * length errs < fuel)%nat -> moms 0%nat = 1 ->
  exists errs' sts, fit minimise init_error a b reg fuel errs tol = Ok (errs', sts, st_result (last sts d))
    /\ sts <> [] /\ tl errs' = tl errs /\ 0 < hd 0 errs'
    /\ st_size (last sts d) = length errs /\ st_tol (last sts d) = tol
    /\ dens (st_size (nth 0 sts d)) errs' (st_start (nth 0 sts d)) moms = 1 / (b - a)
    /\ forall i, (S i < length sts)%nat ->
         (st_size (nth i sts d) < st_size (nth (S i) sts d))%nat /\ st_tol (nth (S i) sts d) <= st_tol (nth i sts d)
         /\ st_last (nth (S i) sts d) = st_result (nth i sts d)
         /\ firstn (length (st_last (nth (S i) sts d))) (st_start (nth (S i) sts d)) = st_last (nth (S i) sts d)
         /\ dens (st_size (nth (S i) sts d)) errs' (st_start (nth (S i) sts d)) moms = dens (st_size (nth i sts d)) errs' (st_result (nth i sts d)) moms.
Proof.
  intros minimise init_error a b reg errs tol fuel moms d Hin Hf M0. pose proof Hin as (Hab & He & Hp & Ht & Hr & Hk).
  destruct (fit_ok minimise init_error a b reg errs tol fuel Hin Hf) as (l & e & k & sts & El & K & H). cbv zeta in H. destruct H as (E & I8 & _ & Ms & Li & Ne).
  set (start := - ln (1 / (b - a)) * e :: repeat 0 k) in *.
  assert (Le : 0 < e) by (assert (0 < 8 * e) by (apply Hp; destruct errs; [destruct I8|right; exact I8]); lra).
  destruct (C208_schedule (length errs) tol (init_error start) Ht) as (l' & G & Hh & Hl & Hs & _ & Lt & Tl & _ & Td). rewrite (G fuel Hf) in El. injection El as ->.
  assert (Lst : length sts = length l) by (rewrite <- (map_length (fun s => (Z.of_nat (st_size s), st_tol s)) sts), Ms, combine_length, Lt; apply Nat.min_id).
  assert (Nth : forall i, (i < length sts)%nat -> Z.of_nat (st_size (nth i sts d)) = nth i l 0%Z /\ st_tol (nth i sts d) = nth i (tolerances l tol (init_error start)) 0).
  { intros i Hi. pose proof (f_equal (fun x => nth i x (0%Z, 0)) Ms) as X. cbv beta in X. rewrite combine_nth in X by (symmetry; exact Lt).
    rewrite (nth_indep _ (0%Z, 0) ((fun s => (Z.of_nat (st_size s), st_tol s)) d)) in X by (rewrite map_length; exact Hi). rewrite (map_nth (fun s => (Z.of_nat (st_size s), st_tol s)) sts d i) in X. now injection X. }
  assert (L0 : (0 < length sts)%nat) by (destruct sts; [contradiction|cbn; lia]).
  exists (e :: tl errs), sts. split; [|split; [exact Ne|split; [reflexivity|split; [exact Le|split; [|split; [|split]]]]]].
  - rewrite E. do 2 f_equal. unfold final. rewrite !last_nth, map_length. rewrite (nth_indep _ start (st_result d)) by (rewrite map_length; lia). apply map_nth.
  - rewrite last_nth. destruct (Nth (length sts - 1)%nat ltac:(lia)) as [A _]. rewrite Lst in A at 2. rewrite <- (last_nth l 0%Z), Hl in A. lia.
  - rewrite last_nth. destruct (Nth (length sts - 1)%nat ltac:(lia)) as [_ A]. rewrite A. rewrite Lst, <- Lt, <- (last_nth (tolerances l tol (init_error start)) 0). exact Tl.
  - destruct sts as [|s sts]; [contradiction|]. cbn [nth]. destruct Li as (_ & B & C & _). rewrite C. destruct (Nth 0%nat ltac:(cbn; lia)) as [A _]. cbn [nth] in A.
    assert (A' : st_size s = S k) by (rewrite hd_nth in K; lia). assert (Ls : length start = S k) by (unfold start; cbn [length]; now rewrite repeat_length).
    rewrite A', Ls, Nat.sub_diag. cbn [repeat]. rewrite app_nil_r. unfold dens, d_density. rewrite (sum_tail 1 (S k)); [|lia|].
    + unfold sum. cbn [seq map fold_right]. rewrite M0. unfold start. cbn [nth]. replace (- (1 * (- ln (1 / (b - a)) * e) / e + 0)) with (ln (1 / (b - a))) by (field; lra).
      apply exp_ln. apply Rdiv_lt_0_compat; lra.
    + intros i Hi. destruct i as [|i]; [lia|]. unfold start. cbn [nth]. rewrite nth_repeat. unfold Rdiv. ring.
  - intros i Hi. destruct (linked_nth minimise reg start sts i d Li Hi) as (A & B & C & D). destruct (Nth i ltac:(lia)) as [S1 T1]. destruct (Nth (S i) Hi) as [S2 T2].
    split; [pose proof (Hs i (S i) ltac:(lia) ltac:(lia)); lia|]. split; [rewrite T1, T2; apply Td; lia|]. split; [exact A|]. split.
    + rewrite A, C. rewrite firstn_app, firstn_all, Nat.sub_diag. cbn [firstn]. apply app_nil_r.
    + rewrite C. apply dens_extend; assumption.
Qed.
Print Assumptions C210_warm_start.
(** A minimiser that returns its first multipliers: 25 moments, 10 calls. *)
Example C210_ex : fit_inputs (fun _ _ _ _ l => l) 0 2 (1 / 100) (repeat 1 25) (1 / 100000) /\ (2 * length (repeat 1 25) < 51)%nat.
Proof.
  split; [|rewrite repeat_length; lia]. split; [lra|]. split; [rewrite repeat_length; lia|]. split; [intros e H; apply repeat_spec in H; lra|]. split; [lra|]. split; [lra|]. intros s t st la l H. exact H.
Qed.

(** * C211: the fits start with finite values *)
(** In full (the functional has a finite value at the first multipliers, for both ways to fit) false: for a domain of length one the first
    multipliers are zero, the penalty 0.01 / norm is infinite and the value NaN; estimate_density stops at an assertion for all inputs.
    Proved: for domains of other lengths the value is finite and is that without the penalty. *)
Lemma sum_sq (l : list R) : fold_right Rplus 0 (map (fun p => (fst p - snd p) * (fst p - snd p)) (combine l l)) = 0.
Proof. induction l as [|x l IH]; [reflexivity|]. cbn [combine map fold_right fst snd]. rewrite IH. ring. Qed.
Lemma norm_start c k : norm (c :: repeat 0 k) = Rabs c.
Proof.
  unfold norm. cbn [map fold_right]. replace (fold_right Rplus 0 (map (fun x => x * x) (repeat 0 k))) with 0.
  - rewrite Rplus_0_r. apply sqrt_Rsqr_abs.
  - induction k as [|k IH]; [reflexivity|]. cbn [repeat map fold_right]. rewrite <- IH. ring.
Qed.
Lemma first_stage minimise init_error a b reg errs tol fuel : fit_inputs minimise a b reg errs tol -> (2 * length errs < fuel)%nat ->
  exists errs' s sts mult, fit minimise init_error a b reg fuel errs tol = Ok (errs', s :: sts, mult) /\ 0 < hd 0 errs' /\ st_last s = st_start s
    /\ st_stab s = (if Req_EM_T (Rabs (- ln (1 / (b - a)) * hd 0 errs')) 0 then inf_mul reg true else Fin (reg / Rabs (- ln (1 / (b - a)) * hd 0 errs'))).
Proof.
  intros Hin Hf. pose proof Hin as (Hab & He & Hp & Ht & Hr & Hk).
  destruct (fit_ok minimise init_error a b reg errs tol fuel Hin Hf) as (l & e & k & sts & El & K & H). cbv zeta in H. destruct H as (E & I8 & _ & Ms & Li & Ne).
  set (start := - ln (1 / (b - a)) * e :: repeat 0 k) in *. destruct sts as [|s sts]; [contradiction|]. exists (e :: tl errs), s, sts, (final start (s :: sts)).
  split; [exact E|]. split; [cbn; assert (0 < 8 * e) by (apply Hp; destruct errs; [destruct I8|right; exact I8]); lra|]. destruct Li as (A & B & C & D & _). cbn [hd]. rewrite <- (norm_start _ k). fold start. split; [|exact D].
  rewrite A, C. destruct l as [|z l]; [cbn in K; discriminate|]. assert (Sz : st_size s = S k).
  { cbn [map] in Ms. destruct (tolerances (z :: l) tol (init_error start)); [discriminate|]. cbn [combine] in Ms. injection Ms as M1 _ _. cbn [hd] in K. lia. }
  assert (Ls : length start = S k) by (unfold start; cbn [length]; now rewrite repeat_length). rewrite Sz, Ls, Nat.sub_diag. symmetry. apply app_nil_r.
Qed.
Theorem C211_start_partial : forall minimise init_error a b reg errs tol fuel n K w mom E mean err coef, fit_inputs minimise a b reg errs tol -> (2 * length errs < fuel)%nat -> b - a <> 1 ->
  exists errs' s sts mult r, fit minimise init_error a b reg fuel errs tol = Ok (errs', s :: sts, mult) /\ st_stab s = Fin r /\ 0 < r /\ r * (Rabs (ln (b - a)) * hd 0 errs') = reg
    /\ fun_value n K w mom E mean err coef (st_stab s) (st_last s) (st_start s) = Fin (functional n K w mom E mean err coef (fun i => nth i (st_start s) 0)).
Proof.
  intros minimise init_error a b reg errs tol fuel n K w mom E mean err coef Hin Hf H1. pose proof Hin as (Hab & _ & _ & _ & Hr & _).
  destruct (first_stage minimise init_error a b reg errs tol fuel Hin Hf) as (errs' & s & sts & mult & Ef & He & Hl & St).
  assert (N : - ln (1 / (b - a)) * hd 0 errs' <> 0).
  { intros Z. apply Rmult_integral in Z as [Z|Z]; [|lra]. assert (L : ln (1 / (b - a)) = 0) by lra. apply H1.
    assert (P : 0 < 1 / (b - a)) by (apply Rdiv_lt_0_compat; lra). rewrite <- ln_1 in L. apply ln_inv in L; [|exact P|lra].
    apply (f_equal (fun x => x * (b - a))) in L. unfold Rdiv in L. rewrite Rmult_1_l, Rinv_l in L by lra. lra. }
  set (c := - ln (1 / (b - a)) * hd 0 errs') in *. pose proof (Rabs_pos_lt c N) as Pc. destruct (Req_EM_T (Rabs c) 0) as [Z|Z]; [lra|].
  exists errs', s, sts, mult, (reg / Rabs c). split; [exact Ef|]. split; [exact St|]. split; [apply Rdiv_lt_0_compat; lra|]. split.
  { replace (Rabs (ln (b - a)) * hd 0 errs') with (Rabs c); [field; exact Z|]. unfold c. replace (1 / (b - a)) with (/ (b - a)) by (unfold Rdiv; ring). rewrite ln_Rinv, Ropp_involutive, Rabs_mult, (Rabs_pos_eq (hd 0 errs')) by lra. reflexivity. }
  rewrite Hl, St. unfold fun_value. rewrite sum_sq. cbn [nmul nadd]. f_equal. ring.
Qed.
Print Assumptions C211_start_partial.
Theorem C211_start_refuted : exists minimise init_error a b reg errs tol fuel errs' s sts mult, fit_inputs minimise a b reg errs tol /\ (2 * length errs < fuel)%nat
  /\ fit minimise init_error a b reg fuel errs tol = Ok (errs', s :: sts, mult)
  /\ forall n K w mom E mean err coef, fun_value n K w mom E mean err coef (st_stab s) (st_last s) (st_start s) = NaN.
Proof.
  set (min := fun (_ : nat) (_ : R) (_ : num) (_ l : list R) => l). set (ie := fun _ : list R => Some 1).
  assert (Hin : fit_inputs min 0 1 (1 / 100) [1; 1; 1] (1 / 100000)).
  { split; [lra|]. split; [cbn; lia|]. split; [intros e [<-|[<-|[<-|[]]]]; lra|]. split; [lra|]. split; [lra|]. intros s t st la l H. exact H. }
  assert (Hf : (2 * length [1; 1; 1] < 7)%nat) by (cbn; lia).
  destruct (first_stage min ie 0 1 (1 / 100) [1; 1; 1] (1 / 100000) 7 Hin Hf) as (errs' & s & sts & mult & Ef & He & Hl & St).
  exists min, ie, 0, 1, (1 / 100), [1; 1; 1], (1 / 100000), 7%nat, errs', s, sts, mult. split; [exact Hin|]. split; [exact Hf|]. split; [exact Ef|].
  replace (1 / (1 - 0)) with 1 in St by field. rewrite ln_1, Ropp_0, Rmult_0_l, Rabs_R0 in St. destruct (Req_EM_T 0 0); [|lra].
  unfold inf_mul in St. destruct (Rlt_dec 0 (1 / 100)); [|lra]. intros. rewrite Hl, St. unfold fun_value. rewrite sum_sq. cbn [nmul].
  unfold inf_mul. destruct (Rlt_dec 0 (1 / 2)); [|lra]. cbn [nmul]. unfold inf_mul. destruct (Rlt_dec 0 0); [lra|]. destruct (Rlt_dec 0 0); [lra|]. reflexivity.
Qed.
Print Assumptions C211_start_refuted.
Theorem C211_root_refuted : forall a b root errs tol, estimate_density a b root errs tol = Err AssertionError.
Proof. reflexivity. Qed.
Print Assumptions C211_root_refuted.
Example C211_ex : fit_inputs (fun _ _ _ _ l => l) 0 2 (1 / 100) [1; 1; 1] (1 / 100000) /\ 2 - 0 <> 1.
Proof. split; [|lra]. split; [lra|]. split; [cbn; lia|]. split; [intros e [<-|[<-|[<-|[]]]]; lra|]. split; [lra|]. split; [lra|]. intros s t st la l H. exact H. Qed.
