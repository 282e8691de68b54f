(** C226: the plot of the regression of the variances. *)
From Coq Require Import Reals Lra Lia.
From Verif Require Import Base BsPlotModel BsRegModel.
Open Scope R_scope.

(** Point [i] of series [j], which belongs to moment [m]. *)
Definition pt (cs : list curve) (j m i : nat) (p : R * R) : Prop := exists l, nth_error cs j = Some (m, l) /\ nth_error l i = Some p.
Definition shape (A : array2) (rows cols : nat) : Prop := length A = rows /\ forall row, In row A -> length row = cols.
Definition cell (A : array2) (l m : nat) : R := nth m (nth l A []) 0.

Lemma no_short A rows cols m : shape A rows cols -> (m < cols)%nat -> existsb (fun row => (length row <=? m)%nat) A = false.
Proof. intros (_ & H) Hm. apply not_true_is_false. intros E. apply existsb_exists in E. destruct E as (row & I & E). rewrite (H row I) in E. apply Nat.leb_le in E. lia. Qed.
Lemma nth_combine_seq : forall (sel : list nat) a j m, nth_error sel j = Some m -> nth_error (combine (seq a (length sel)) sel) j = Some ((a + j)%nat, m).
Proof. induction sel as [|s sel IH]; intros a [|j] m E; cbn in E; try discriminate; cbn; [injection E as ->; now rewrite Nat.add_0_r|]. rewrite (IH (S a) j m E). now rewrite Nat.add_succ_r. Qed.
Lemma nth_points (f : nat -> R) (g : list R -> R) : forall A n a l, n = length A -> (l < n)%nat ->
  nth_error (combine (map f (seq a n)) (map g A)) l = Some (f (a + l)%nat, g (nth l A [])).
Proof.
  induction A as [|row A IH]; intros n a l E Hl; cbn in E; subst n; [lia|]. destruct l as [|l]; cbn [seq map combine nth_error nth]; [now rewrite Nat.add_0_r|].
  rewrite (IH _ (S a) l eq_refl) by lia. now rewrite Nat.add_succ_r.
Qed.
Lemma nth_points2 (f : nat -> R) (g : list R * list R -> R) : forall A B n a l, n = length A -> n = length B -> (l < n)%nat ->
  nth_error (combine (map f (seq a n)) (map g (combine A B))) l = Some (f (a + l)%nat, g (nth l A [], nth l B [])).
Proof.
  induction A as [|row A IH]; intros [|r B] n a l E E' Hl; cbn in E, E'; subst n; try lia. destruct l as [|l]; cbn [seq map combine nth_error nth]; [now rewrite Nat.add_0_r|].
  injection E' as E'. rewrite (IH B _ (S a) l eq_refl E') by lia. now rewrite Nat.add_succ_r.
Qed.
Lemma scatter_sel_ok sel A rows cols : shape A rows cols -> sel <> [] -> (forall m, In m sel -> (m < cols)%nat) ->
  exists p, scatter_sel sel A = Ok p /\ forall j m l, nth_error sel j = Some m -> (l < rows)%nat -> pt p j m l (INR l + 5 / 10 / INR (length sel) * INR j, cell A l m).
Proof.
  intros HA HN HS. unfold scatter_sel. replace (existsb _ sel) with false.
  2:{ symmetry. apply not_true_is_false. intros E. apply existsb_exists in E. destruct E as (m & I & E). rewrite (no_short A rows cols m HA (HS m I)) in E. discriminate. }
  destruct (Nat.eqb_spec (length sel) 0) as [E|_]; [destruct sel; [now destruct HN|discriminate]|]. eexists. split; [reflexivity|].
  intros j m l E Hl. eexists. split; [rewrite nth_error_map, (nth_combine_seq sel 0 j m E); reflexivity|]. cbn [fst snd Nat.add]. destruct HA as (<- & _).
  now rewrite (nth_points (fun l => INR l + 5 / 10 / INR (length sel) * INR j) (fun row => nth m row 0) A _ 0 l eq_refl Hl).
Qed.
Lemma reg_curve_ok K n ref reg m : shape ref n K -> shape reg n K -> (m < K)%nat -> exists c e, reg_curve K n ref reg m = Ok ((m, c), (m, e)) /\
  (forall l, (S l < n)%nat -> nth_error c l = Some (INR (S l) + 5 / 10 / INR K * INR m, cell reg (S l) m)) /\
  (forall l, (l < n)%nat -> nth_error e l = Some (INR l + 5 / 10 / INR K * INR m, cell reg l m / cell ref l m)).
Proof.
  intros HR HG Hm. unfold reg_curve. rewrite existsb_app, (no_short _ _ _ _ HG Hm), (no_short _ _ _ _ HR Hm). cbn [orb].
  destruct HR as (LR & _). destruct HG as (LG & _). rewrite LR, LG, Nat.eqb_refl. cbn [negb orb]. do 2 eexists. split; [reflexivity|]. split.
  - intros l Hl. assert (T : forall (A B : list R), combine (tl A) (tl B) = tl (combine A B)). { intros [|x [|x' A]] [|y B]; try reflexivity. }
    assert (T2 : forall (A : list (R * R)), nth_error (tl A) l = nth_error A (S l)). { intros [|x A]; [now destruct l|reflexivity]. }
    rewrite T, T2. now rewrite (nth_points (fun l => INR l + 5 / 10 / INR K * INR m) (fun row => nth m row 0) reg n 0 (S l)) by lia.
  - intros l Hl. now rewrite (nth_points2 (fun l => INR l + 5 / 10 / INR K * INR m) (fun p => nth m (fst p) 0 / nth m (snd p) 0) reg ref n 0 l) by lia.
Qed.
Lemma reg_curves_ok K n ref reg : shape ref n K -> shape reg n K -> forall sel, (forall m, In m sel -> (m < K)%nat) -> exists cs, reg_curves K n ref reg sel = Ok cs /\
  forall j m, nth_error sel j = Some m ->
    (forall l, (S l < n)%nat -> pt (map fst cs) j m l (INR (S l) + 5 / 10 / INR K * INR m, cell reg (S l) m)) /\
    (forall l, (l < n)%nat -> pt (map snd cs) j m l (INR l + 5 / 10 / INR K * INR m, cell reg l m / cell ref l m)).
Proof.
  intros HR HG. induction sel as [|s sel IH]; intros HS.
  - exists []. split; [reflexivity|]. intros [|j] m; discriminate.
  - destruct (reg_curve_ok K n ref reg s HR HG (HS s (or_introl eq_refl))) as (c & e & E & C & D). destruct IH as (cs & E' & IH); [intros m I; apply HS; now right|].
    exists (((s, c), (s, e)) :: cs). split; [cbn; now rewrite E, E'|]. intros [|j] m Ej; cbn in Ej.
    + injection Ej as <-. split; intros l Hl; [exists c|exists e]; (split; [reflexivity|]); auto.
    + exact (IH j m Ej).
Qed.

(** C226. For every selection: the points of the moments, the curves and the errors have the right values, each next to its tick. A curve runs
    through the positions of the points of its moment exactly when the moment has the same share of the selection as of all moments; in
    particular always when all moments are drawn. *)
Theorem C226_regression_partial : forall b K n a est reg, n_moments b = K -> selected K a <> [] -> (forall m, In m (selected K a) -> (m < K)%nat) ->
  shape (ref_level_var b) n K -> shape est n K -> shape reg n K ->
  exists d, plot_var_regression b K n a est reg = Ok d /\
    (forall j m l, nth_error (selected K a) j = Some m -> (l < n)%nat -> exists x x',
       pt (ref_points d) j m l (x, cell (ref_level_var b) l m) /\ pt (est_points d) j m l (x, cell est l m) /\
       pt (err_curves d) j m l (x', cell reg l m / cell (ref_level_var b) l m) /\ ((1 <= l)%nat -> pt (curves d) j m (l - 1) (x', cell reg l m)) /\
       INR l <= x < INR l + 5 / 10 /\ INR l <= x' < INR l + 5 / 10 /\
       (x = x' <-> (j * K = m * length (selected K a))%nat) /\ (a = INone \/ a = IInt K -> x = x')).
Proof.
  intros b K n a est reg EK HN HS HR HE HG. unfold plot_var_regression. set (sel := selected K a) in *.
  destruct (scatter_sel_ok sel _ n K HR HN HS) as (rp & E1 & F1). destruct (scatter_sel_ok sel _ n K HE HN HS) as (ep & E2 & F2).
  destruct (reg_curves_ok K n _ _ HR HG sel HS) as (cs & E3 & F3). rewrite E1, E2, EK. cbn [bind].
  assert (KP : (0 < K)%nat). { destruct sel as [|s sel']; [now destruct HN|]. specialize (HS s (or_introl eq_refl)). lia. }
  destruct (Nat.eqb_spec K 0) as [E|_]; [lia|]. rewrite E3. cbn [bind]. eexists. split; [reflexivity|]. cbn [ref_points est_points curves err_curves].
  intros j m l Ej Hl. assert (Hj : (j < length sel)%nat) by (apply nth_error_Some; congruence). assert (Hm : (m < K)%nat) by (apply HS; now apply nth_error_In in Ej).
  destruct (F3 j m Ej) as (C & D). exists (INR l + 5 / 10 / INR (length sel) * INR j), (INR l + 5 / 10 / INR K * INR m).
  assert (B : forall p q, (p < q)%nat -> 0 <= 5 / 10 / INR q * INR p < 5 / 10).
  { intros p q Hp. assert (0 <= INR p) by apply pos_INR. assert (INR p < INR q) by now apply lt_INR. 
    replace (5 / 10 / INR q * INR p) with (5 / 10 * (INR p / INR q)) by (field; lra).
    assert (0 <= INR p / INR q) by (apply Rmult_le_pos; [lra|left; apply Rinv_0_lt_compat; lra]).
    assert (INR p / INR q < 1) by (apply (Rmult_lt_reg_r (INR q)); [lra|]; unfold Rdiv; rewrite Rmult_assoc, Rinv_l by lra; lra). lra. }
  assert (Al : INR l + 5 / 10 / INR (length sel) * INR j = INR l + 5 / 10 / INR K * INR m <-> (j * K = m * length sel)%nat).
  { assert (P1 : 0 < INR (length sel)) by (apply lt_0_INR; lia). assert (P2 : 0 < INR K) by now apply lt_0_INR. split; intros Q.
    - apply INR_eq. rewrite !mult_INR. assert (Q' : 5 / 10 / INR (length sel) * INR j = 5 / 10 / INR K * INR m) by lra.
      apply (f_equal (fun z => z * (2 * INR (length sel) * INR K))) in Q'. field_simplify in Q'; lra.
    - apply (f_equal INR) in Q. rewrite !mult_INR in Q. f_equal. apply (Rmult_eq_reg_r (2 * INR (length sel) * INR K)); [field_simplify; lra|].
      apply Rgt_not_eq. apply Rmult_lt_0_compat; lra. }
  destruct (B j _ Hj). destruct (B m _ Hm).
  split; [now apply F1|]. split; [now apply F2|]. split; [now apply D|]. split; [|split; [lra|split; [lra|split; [exact Al|]]]].
  - intros L1. replace l with (S (l - 1)) by lia. replace (S (l - 1) - 1)%nat with (l - 1)%nat by lia. apply C. lia.
  - intros HA. apply Al. assert (ES : sel = seq 0 K) by (destruct HA as [-> | ->]; reflexivity). rewrite ES, seq_length in *.
    assert (m = j) by (apply (nth_error_nth _ _ 0%nat) in Ej; rewrite seq_nth in Ej by lia; lia). lia.
Qed.
(** Two levels, two moments, only moment 1: the curve is a quarter of a tick right of its points. *)
Definition demo : bs := init [8; 4]%nat [8; 4]%nat 2 [[0; 1]; [0; 2]].
Example C226_demo : selected 2 (IList [1%nat]) <> [] /\ (forall m, In m (selected 2 (IList [1%nat])) -> (m < 2)%nat) /\ shape (ref_level_var demo) 2 2 /\ n_moments demo = 2%nat.
Proof. split; [discriminate|]. split; [intros m [<-|[]]; lia|]. split; [|reflexivity]. split; [reflexivity|]. intros row [<-|[<-|[]]]; reflexivity. Qed.
Theorem C226_regression_refuted : exists b K n a est reg d, n_moments b = K /\ plot_var_regression b K n a est reg = Ok d /\
  est = reg /\ ref_level_var b = reg /\
  pt (est_points d) 0 1 1 (1 + 5 / 10 / 1 * 0, 2) /\ pt (curves d) 0 1 0 (1 + 5 / 10 / 2 * 1, 2) /\ 1 + 5 / 10 / 1 * 0 <> 1 + 5 / 10 / 2 * 1.
Proof.
  exists demo, 2%nat, 2%nat, (IList [1%nat]), [[0; 1]; [0; 2]], [[0; 1]; [0; 2]]. eexists. split; [reflexivity|]. split; [cbn; reflexivity|]. split; [reflexivity|]. split; [reflexivity|].
  split; [eexists; split; reflexivity|]. split; [eexists; split; reflexivity|]. lra.
Qed.

Lemma close0_zero : close0 0 = true.
Proof. unfold close0. destruct (Rle_dec (Rabs 0) (1 / 10 ^ 8)) as [_|N]; [reflexivity|]. rewrite Rabs_R0 in N. lra. Qed.
(** C227. With one or two levels, or when all variances vanish, the plot is drawn, and its curves show the estimated variances themselves. *)
Theorem C227_drawn_partial : forall b K n a raw, n_moments b = K -> selected K a <> [] -> (forall m, In m (selected K a) -> (m < K)%nat) ->
  shape (ref_level_var b) n K -> shape raw n K -> (forall l, (l < n)%nat -> cell raw l 0 = 0) ->
  (n < 3)%nat \/ (forall l m, (l < n)%nat -> (m < K)%nat -> cell raw l m = 0) ->
  exists d, plot_regression_of b K n a raw = Ok d /\
    forall j m l, nth_error (selected K a) j = Some m -> (1 <= l < n)%nat -> exists x, pt (curves d) j m (l - 1) (x, cell raw l m).
Proof.
  intros b K n a raw EK HN HS HR HG Z0 HC. unfold plot_regression_of.
  assert (KP : (0 < K)%nat). { destruct (selected K a) as [|s sel']; [now destruct HN|]. specialize (HS s (or_introl eq_refl)). lia. }
  assert (ZC : forall m, (forall l, (l < n)%nat -> cell raw l m = 0) -> forallb close0 (column m raw) = true).
  { intros m Z. apply forallb_forall. intros x I. apply in_map_iff in I. destruct I as (row & <- & I). destruct (In_nth _ _ [] I) as (l & Hl & <-).
    destruct HG as (LG & _). assert (Zl : cell raw l m = 0) by (apply Z; lia). unfold cell in Zl. rewrite Zl. apply close0_zero. }
  assert (ER : regression_call K raw = Ok raw).
  { unfold regression_call. replace (_ && _)%bool with false.
    - destruct (Nat.eqb_spec K 0) as [E|_]; [lia|]. now rewrite (ZC 0%nat Z0).
    - symmetry. destruct HG as (LG & _). destruct HC as [Hn|Z].
      + apply andb_false_intro1. apply Nat.leb_gt. lia.
      + apply andb_false_intro2. apply not_true_is_false. intros E. apply existsb_exists in E. destruct E as (m & I & E). apply in_seq in I.
        rewrite ZC in E; [discriminate|]. intros l Hl. apply Z; lia. }
  rewrite ER. cbn [bind]. destruct (C226_regression_partial b K n a raw raw EK HN HS HR HG HG) as (d & E & F). exists d. split; [exact E|].
  intros j m l Ej Hl. destruct (F j m l Ej ltac:(lia)) as (x & x' & _ & _ & _ & C & _). exists x'. apply C. lia.
Qed.
(** From three levels on and with any variance that does not vanish nothing is drawn: whatever the data, TypeError. *)
Lemma never_drawn : forall b K n a raw l m, shape raw n K -> (3 <= n)%nat -> (l < n)%nat -> (1 <= m < K)%nat -> 1 / 10 ^ 8 < Rabs (cell raw l m) ->
  plot_regression_of b K n a raw = Err TypeError.
Proof.
  intros b K n a raw l m (LG & _) Hn Hl Hm HV. unfold plot_regression_of, regression_call. replace (_ && _)%bool with true; [reflexivity|].
  symmetry. apply andb_true_intro. split; [apply Nat.leb_le; lia|]. apply existsb_exists. exists m. split; [apply in_seq; lia|]. apply Bool.negb_true_iff, not_true_is_false.
  intros E. rewrite forallb_forall in E. specialize (E (cell raw l m)). 
  assert (I : In (cell raw l m) (column m raw)) by (unfold column, cell; apply in_map_iff; exists (nth l raw []); split; [reflexivity|apply nth_In; lia]).
  specialize (E I). unfold close0 in E. destruct (Rle_dec _ _) as [L|_]; [lra|discriminate].
Qed.
Definition demo3 : array2 := [[0; 4]; [0; 2]; [0; 1]].
Theorem C227_drawn_refuted :
  (forall b K n a raw l m, shape raw n K -> (3 <= n)%nat -> (l < n)%nat -> (1 <= m < K)%nat -> 1 / 10 ^ 8 < Rabs (cell raw l m) ->
     plot_regression_of b K n a raw = Err TypeError) /\
  exists b a raw, n_moments b = 2%nat /\ shape (ref_level_var b) 3 2 /\ shape raw 3 2 /\ plot_regression_of b 2 3 a raw = Err TypeError /\
    exists d, plot_var_regression b 2 3 a raw raw = Ok d.
Proof.
  split; [exact never_drawn|]. assert (Sh : shape demo3 3 2) by (split; [reflexivity|]; intros row [<-|[<-|[<-|[]]]]; reflexivity).
  exists (init [8; 4; 2]%nat [8; 4; 2]%nat 2 demo3), INone, demo3. split; [reflexivity|]. split; [exact Sh|]. split; [exact Sh|]. split.
  - apply (never_drawn _ _ _ _ _ 0 1 Sh); try lia. cbn. rewrite Rabs_right; lra.
  - eexists. cbn. reflexivity.
Qed.
(** Two levels satisfy the hypotheses. *)
Example C227_demo : exists d, plot_regression_of demo 2 2 INone [[0; 1]; [0; 2]] = Ok d.
Proof.
  destruct (C227_drawn_partial demo 2 2 INone [[0; 1]; [0; 2]]) as (d & E & _); try (exists d; exact E); try reflexivity; try discriminate; try (left; lia).
  - intros m [<-|[<-|[]]]; lia.
  - split; [reflexivity|]. intros row [<-|[<-|[]]]; reflexivity.
  - split; [reflexivity|]. intros row [<-|[<-|[]]]; reflexivity.
  - intros [|[|l]] Hl; try reflexivity; lia.
Qed.
