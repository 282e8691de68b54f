(** Legendre polynomials by their three term recurrence: derivatives, differential equation, bounds, integrals. *)
From Coq Require Import Reals Lra Lia List Arith.
From Coquelicot Require Import Coquelicot.
Import ListNotations.
Local Open Scope R_scope.

Fixpoint legs (n : nat) (x : R) : R * R :=
  match n with
  | O => (1, x)
  | S m => let (p, q) := legs m x in (q, ((2 * INR m + 3) * x * q - (INR m + 1) * p) / (INR m + 2))
  end.
Definition P (n : nat) (x : R) : R := fst (legs n x).
Lemma legs_P n x : legs n x = (P n x, P (S n) x).
Proof. unfold P. cbn [legs]. destruct (legs n x). reflexivity. Qed.
Lemma P0 x : P 0 x = 1. Proof. reflexivity. Qed.
Lemma P1 x : P 1 x = x. Proof. reflexivity. Qed.
Lemma P_rec n x : P (S (S n)) x = ((2 * INR n + 3) * x * P (S n) x - (INR n + 1) * P n x) / (INR n + 2).
Proof. unfold P at 1. cbn [legs]. rewrite legs_P. reflexivity. Qed.
Lemma pos2 n : 0 < INR n + 2. Proof. pose proof (pos_INR n). lra. Qed.

Fixpoint ders (n : nat) (x : R) : R * R :=
  match n with
  | O => (0, 1)
  | S m => let (p, q) := ders m x in (q, ((2 * INR m + 3) * (P (S m) x + x * q) - (INR m + 1) * p) / (INR m + 2))
  end.
Definition D (n : nat) (x : R) : R := fst (ders n x).
Lemma ders_D n x : ders n x = (D n x, D (S n) x).
Proof. unfold D. cbn [ders]. destruct (ders n x). reflexivity. Qed.
Lemma D_rec n x : D (S (S n)) x = ((2 * INR n + 3) * (P (S n) x + x * D (S n) x) - (INR n + 1) * D n x) / (INR n + 2).
Proof. unfold D at 1. cbn [ders]. rewrite ders_D. reflexivity. Qed.
Fixpoint ders2 (n : nat) (x : R) : R * R :=
  match n with
  | O => (0, 0)
  | S m => let (p, q) := ders2 m x in (q, ((2 * INR m + 3) * (2 * D (S m) x + x * q) - (INR m + 1) * p) / (INR m + 2))
  end.
Definition DD (n : nat) (x : R) : R := fst (ders2 n x).
Lemma ders2_DD n x : ders2 n x = (DD n x, DD (S n) x).
Proof. unfold DD. cbn [ders2]. destruct (ders2 n x). reflexivity. Qed.
Lemma DD_rec n x : DD (S (S n)) x = ((2 * INR n + 3) * (2 * D (S n) x + x * DD (S n) x) - (INR n + 1) * DD n x) / (INR n + 2).
Proof. unfold DD at 1. cbn [ders2]. rewrite ders2_DD. reflexivity. Qed.

(** Induction over two steps. *)
Lemma two_steps (Q : nat -> Prop) : Q 0%nat -> Q 1%nat -> (forall n, Q n -> Q (S n) -> Q (S (S n))) -> forall n, Q n.
Proof. intros H0 H1 H n. assert (Q n /\ Q (S n)) as [? _]; auto. induction n as [|n [A B]]; auto. Qed.

Ltac unique H := apply is_derive_unique in H; match type of H with Derive ?f ?x = ?r => change (Derive (fun y => f y) x = r) in H end.
Lemma P_der n x : is_derive (P n) x (D n x).
Proof.
  revert n. apply two_steps.
  - apply (is_derive_ext (fun _ => 1)); [reflexivity|]. apply (is_derive_const (V := R_NormedModule) 1 x).
  - apply (is_derive_ext (fun y => y)); [reflexivity|]. apply (is_derive_id (K := R_AbsRing) x).
  - intros n H0 H1. rewrite D_rec.
    apply (is_derive_ext (fun y => ((2 * INR n + 3) * y * P (S n) y - (INR n + 1) * P n y) / (INR n + 2))); [intros; symmetry; apply P_rec|].
    assert (E0 : ex_derive (P n) x) by (eexists; eauto). assert (E1 : ex_derive (P (S n)) x) by (eexists; eauto).
    unique H0. unique H1.
    auto_derive; [auto|]. rewrite H0, H1. pose proof (pos2 n). field. lra.
Qed.
Lemma D_der n x : is_derive (D n) x (DD n x).
Proof.
  revert n. apply two_steps.
  - apply (is_derive_ext (fun _ => 0)); [reflexivity|]. apply (is_derive_const (V := R_NormedModule) 0 x).
  - apply (is_derive_ext (fun _ => 1)); [reflexivity|]. apply (is_derive_const (V := R_NormedModule) 1 x).
  - intros n H0 H1. rewrite DD_rec.
    apply (is_derive_ext (fun y => ((2 * INR n + 3) * (P (S n) y + y * D (S n) y) - (INR n + 1) * D n y) / (INR n + 2))); [intros; symmetry; apply D_rec|].
    assert (E0 : ex_derive (D n) x) by (eexists; eauto). assert (E1 : ex_derive (D (S n)) x) by (eexists; eauto).
    pose proof (P_der (S n) x) as H2. assert (E2 : ex_derive (P (S n)) x) by (eexists; eauto).
    unique H0. unique H1. unique H2.
    auto_derive; [auto|]. rewrite H0, H1, H2. pose proof (pos2 n). field. lra.
Qed.

(** x P'(n+1) - P'(n) = (n+1) P(n+1) and (1-x^2) P'(n+1) = (n+1) (P(n) - x P(n+1)). *)
Lemma P_ids n x : x * D (S n) x - D n x = (INR n + 1) * P (S n) x /\ (1 - x * x) * D (S n) x = (INR n + 1) * (P n x - x * P (S n) x).
Proof.
  induction n as [|n [A B]].
  - rewrite P0, P1. change (D 1 x) with 1. change (D 0 x) with 0. cbn [INR]. split; ring.
  - pose proof (pos2 n) as H2. rewrite S_INR. set (N := INR n) in *.
    assert (RP : (N + 2) * P (S (S n)) x = (2 * N + 3) * x * P (S n) x - (N + 1) * P n x) by (rewrite P_rec; fold N; field; lra).
    assert (C : D (S (S n)) x = x * D (S n) x + (N + 2) * P (S n) x).
    { assert (Hd : D n x = x * D (S n) x - (N + 1) * P (S n) x) by lra.
      rewrite D_rec. fold N. rewrite Hd. field. lra. }
    rewrite C. split.
    + transitivity (- ((1 - x * x) * D (S n) x) + (N + 2) * x * P (S n) x); [ring|]. rewrite B.
      transitivity ((N + 2) * P (S (S n)) x); [rewrite RP; ring|ring].
    + transitivity (x * ((1 - x * x) * D (S n) x) + (1 - x * x) * ((N + 2) * P (S n) x)); [ring|]. rewrite B.
      transitivity ((N + 2) * P (S n) x - x * ((N + 2) * P (S (S n)) x)); [rewrite RP; ring|ring].
Qed.
Lemma D_step n x : D (S (S n)) x = D n x + (2 * INR n + 3) * P (S n) x.
Proof.
  destruct (P_ids n x) as [A B]. rewrite D_rec. pose proof (pos2 n). set (N := INR n) in *.
  replace (x * D (S n) x) with (D n x + (N + 1) * P (S n) x) by lra. field. lra.
Qed.
Lemma DD_step n x : DD (S (S n)) x = DD n x + (2 * INR n + 3) * D (S n) x.
Proof.
  pose proof (D_der (S (S n)) x) as H0. apply is_derive_unique in H0. rewrite <- H0. apply is_derive_unique.
  apply (is_derive_ext (fun y => D n y + (2 * INR n + 3) * P (S n) y)); [intros; symmetry; apply D_step|].
  pose proof (D_der n x) as H1. pose proof (P_der (S n) x) as H2.
  assert (E1 : ex_derive (D n) x) by (eexists; eauto). assert (E2 : ex_derive (P (S n)) x) by (eexists; eauto).
  unique H1. unique H2. auto_derive; [auto|]. rewrite H1, H2. ring.
Qed.
(** The differential equation. *)
Lemma ode n x : (1 - x * x) * DD n x - 2 * x * D n x + INR n * (INR n + 1) * P n x = 0.
Proof.
  destruct n as [|n]; [change (DD 0 x) with 0; change (D 0 x) with 0; cbn [INR]; ring|].
  assert (H : (1 - x * x) * DD (S n) x - 2 * x * D (S n) x = (INR n + 1) * (D n x - P (S n) x - x * D (S n) x)).
  { assert (E1 : Derive (fun y => (1 - y * y) * D (S n) y) x = (1 - x * x) * DD (S n) x - 2 * x * D (S n) x).
    { apply is_derive_unique. pose proof (D_der (S n) x) as H1. assert (ex_derive (D (S n)) x) by (eexists; eauto).
      unique H1. auto_derive; [auto|]. rewrite H1. ring. }
    rewrite <- E1. rewrite (Derive_ext _ (fun y => (INR n + 1) * (P n y - y * P (S n) y))) by (intros; apply P_ids).
    apply is_derive_unique. pose proof (P_der (S n) x) as H1. pose proof (P_der n x) as H2.
    assert (ex_derive (P (S n)) x) by (eexists; eauto). assert (ex_derive (P n) x) by (eexists; eauto).
    unique H1. unique H2. auto_derive; [auto|]. rewrite H1, H2. ring. }
  rewrite H. destruct (P_ids n x) as [A _]. replace (x * D (S n) x) with (D n x + (INR n + 1) * P (S n) x) by lra.
  rewrite S_INR. ring.
Qed.

(** * Values at the end points *)
Lemma P_one n : P n 1 = 1.
Proof.
  revert n. apply two_steps; auto. intros n H0 H1. rewrite P_rec, H0, H1. pose proof (pos2 n). field. lra.
Qed.
Lemma P_opp n x : P n (- x) = (-1) ^ n * P n x.
Proof.
  revert n. apply two_steps; [rewrite !P0; ring|rewrite !P1; ring|]. intros n H0 H1. rewrite !P_rec, H0, H1. cbn [pow]. pose proof (pos2 n). field. lra.
Qed.
Lemma P_minus_one n : P n (-1) = (-1) ^ n.
Proof. pose proof (P_opp n 1) as H. rewrite P_one, Rmult_1_r in H. rewrite <- H. f_equal. Qed.

(** * Bound on the reference interval *)
Lemma P_bound_pos n x : 0 <= x <= 1 -> P n x * P n x <= 1.
Proof.
  intros Hx. destruct n as [|n]; [rewrite P0; lra|].
  set (c := INR (S n) * (INR (S n) + 1)). assert (Hc : 0 < c) by (unfold c; rewrite S_INR; pose proof (pos_INR n); nra).
  set (f := fun y => P (S n) y * P (S n) y + (1 - y * y) * (D (S n) y * D (S n) y) / c).
  set (df := fun y => 2 * y * (D (S n) y * D (S n) y) / c).
  assert (Hd : forall y, is_derive f y (df y)).
  { intros y. unfold f. pose proof (P_der (S n) y) as H1. pose proof (D_der (S n) y) as H2.
    assert (ex_derive (P (S n)) y) by (eexists; eauto). assert (ex_derive (D (S n)) y) by (eexists; eauto).
    unique H1. unique H2. auto_derive; [auto|]. rewrite H1, H2. unfold df.
    pose proof (ode (S n) y) as O. fold c in O. assert (O' : c * P (S n) y = 2 * y * D (S n) y - (1 - y * y) * DD (S n) y) by lra.
    replace (P (S n) y) with ((2 * y * D (S n) y - (1 - y * y) * DD (S n) y) / c) by (rewrite <- O'; field; lra). field. lra. }
  assert (Hle : f x <= f 1).
  { destruct (Req_dec x 1) as [->|Hn]; [lra|].
    destruct (MVT_gen f x 1 df) as (z & Hz & E).
    - intros y _. apply Hd.
    - intros y _. apply continuity_pt_filterlim, (ex_derive_continuous f). eexists. apply Hd.
    - rewrite Rmin_left, Rmax_right in Hz by lra.
      assert (0 <= df z). { unfold df. apply Rmult_le_pos; [|apply Rlt_le, Rinv_0_lt_compat; lra]. apply Rmult_le_pos; [lra|]. apply Rle_0_sqr. }
      assert (0 <= df z * (1 - x)) by (apply Rmult_le_pos; lra). lra. }
  assert (F1 : f 1 = 1) by (unfold f; rewrite P_one; field; lra). rewrite F1 in Hle. unfold f in Hle.
  assert (0 <= (1 - x * x) * (D (S n) x * D (S n) x) / c).
  { apply Rmult_le_pos; [|apply Rlt_le, Rinv_0_lt_compat; lra]. apply Rmult_le_pos; [nra|apply Rle_0_sqr]. }
  lra.
Qed.
Lemma P_bound n x : -1 <= x <= 1 -> Rabs (P n x) <= 1.
Proof.
  intros Hx. assert (H : P n x * P n x <= 1).
  { destruct (Rle_dec 0 x); [apply P_bound_pos; lra|]. replace x with (- - x) by ring. rewrite P_opp.
    pose proof (P_bound_pos n (- x) ltac:(lra)). 
    replace ((-1) ^ n * P n (- x) * ((-1) ^ n * P n (- x))) with (((-1) ^ n * (-1) ^ n) * (P n (- x) * P n (- x))) by ring.
    replace ((-1) ^ n * (-1) ^ n) with 1; [lra|]. rewrite <- Rpow_mult_distr. replace (-1 * -1) with 1 by ring. now rewrite pow1. }
  apply Rabs_le. split; nra.
Qed.

(** * Integrals *)
Lemma P_cont n x : continuous (P n) x.
Proof. apply (ex_derive_continuous (P n)). eexists. apply P_der. Qed.
Lemma D_cont n x : continuous (D n) x.
Proof. apply (ex_derive_continuous (D n)). eexists. apply D_der. Qed.
Lemma PP_cont n k x : continuous (fun y => P n y * P k y) x.
Proof. apply (continuous_mult (P n) (P k)); apply P_cont. Qed.
Lemma orthogonal n k : n <> k -> is_RInt (fun x => P n x * P k x) (-1) 1 0.
Proof.
  intros Hnk. set (c := INR n * (INR n + 1) - INR k * (INR k + 1)).
  assert (Hc : c <> 0).
  { unfold c. assert (INR n <> INR k) by (now apply not_INR). pose proof (pos_INR n). pose proof (pos_INR k).
    replace (INR n * (INR n + 1) - INR k * (INR k + 1)) with ((INR n - INR k) * (INR n + INR k + 1)) by ring.
    apply Rmult_integral_contrapositive_currified; lra. }
  set (F := fun x => (1 - x * x) * (P n x * D k x - P k x * D n x) / c).
  replace 0 with (minus (F 1) (F (-1))) by (unfold F, minus, plus, opp; cbn; field; auto).
  apply (is_RInt_derive F).
  - intros x _. unfold F.
    pose proof (P_der n x) as H1. pose proof (P_der k x) as H2. pose proof (D_der n x) as H3. pose proof (D_der k x) as H4.
    assert (ex_derive (P n) x) by (eexists; eauto). assert (ex_derive (P k) x) by (eexists; eauto).
    assert (ex_derive (D n) x) by (eexists; eauto). assert (ex_derive (D k) x) by (eexists; eauto).
    unique H1. unique H2. unique H3. unique H4.
    auto_derive; [auto 10|]. rewrite H1, H2, H3, H4.
    pose proof (ode n x) as O1. pose proof (ode k x) as O2.
    assert (E1 : (1 - x * x) * DD n x = 2 * x * D n x - INR n * (INR n + 1) * P n x) by lra.
    assert (E2 : (1 - x * x) * DD k x = 2 * x * D k x - INR k * (INR k + 1) * P k x) by lra.
    transitivity ((-2 * x * (P n x * D k x - P k x * D n x) + P n x * ((1 - x * x) * DD k x) - P k x * ((1 - x * x) * DD n x)) / c); [field; auto|].
    rewrite E1, E2. unfold c. field. auto.
  - intros x _. apply PP_cont.
Qed.
(** The integral of P(n+1)^2 from that of P(n)^2, by the recurrences of n and n+1. *)
Lemma square n : is_RInt (fun x => P n x * P n x) (-1) 1 (2 / (2 * INR n + 1)).
Proof.
  induction n as [|n IH].
  - apply (is_RInt_ext (fun _ => 1)); [intros x _; change (1 = P 0 x * P 0 x); rewrite P0; ring|]. cbn [INR].
    replace (2 / (2 * 0 + 1)) with (scal (1 - -1) 1) by (unfold scal; cbn; unfold mult; cbn; field). apply (is_RInt_const (V := R_NormedModule)).
  - (* (2n+3) P(n+1)^2 - (2n+1) P(n)^2 = combination of products of different indices *)
    pose proof (pos_INR n) as Hn. set (N := INR n) in *.
    assert (O1 := orthogonal (S (S n)) n ltac:(lia)).
    assert (O3 : exists f : R -> R, is_RInt f (-1) 1 0 /\ forall x : R, @eq R (f x) (N * (P (S n) x * P (pred n) x))).
    { destruct n as [|n']; [exists (fun _ => 0); split; [|intros; unfold N; cbn [INR]; ring]|].
      - evar_last; [apply (is_RInt_const (V := R_NormedModule))|]. unfold scal; cbn; unfold mult; cbn; ring.
      - exists (fun x => scal N (P (S (S n')) x * P n' x)). split; [|intros; reflexivity].
        evar_last; [apply (is_RInt_scal (V := R_NormedModule)); apply orthogonal; lia|]. unfold scal; cbn; unfold mult; cbn; ring. }
    destruct O3 as (f & Hf & Ef).
    (* (n+1) P(n+1) = (2n+1) x P(n) - n P(n-1) and (n+2) P(n+2) = (2n+3) x P(n+1) - (n+1) P(n) *)
    assert (R1 : forall x, (N + 1) * P (S n) x = (2 * N + 1) * x * P n x - N * P (pred n) x).
    { intros x. destruct n as [|n']; [unfold N; rewrite P0, P1; cbn [INR]; ring|]. rewrite P_rec. unfold N. rewrite S_INR. cbn [pred]. pose proof (pos2 n'). field. lra. }
    assert (R2 : forall x, (N + 2) * P (S (S n)) x = (2 * N + 3) * x * P (S n) x - (N + 1) * P n x) by (intros x; rewrite P_rec; fold N; field; lra).
    rewrite S_INR. fold N.
    apply (is_RInt_ext (fun x => scal (/ ((2 * N + 3) * (N + 1)))
        (plus (scal ((2 * N + 1) * (N + 1)) (P n x * P n x)) (minus (scal ((2 * N + 1) * (N + 2)) (P (S (S n)) x * P n x)) (scal (2 * N + 3) (f x)))))).
    { intros x _. rewrite Ef. unfold scal, minus, plus, opp; cbn -[P]; unfold mult; cbn -[P].
      match goal with |- ?a = ?b => change (@eq R a b) end. specialize (R1 x). specialize (R2 x).
      assert (E : (2 * N + 3) * ((N + 1) * P (S n) x) * P (S n) x
                  = (2 * N + 1) * (P n x * ((N + 2) * P (S (S n)) x + (N + 1) * P n x)) - (2 * N + 3) * N * P (pred n) x * P (S n) x) by (rewrite R1, R2; ring).
      transitivity (((2 * N + 3) * ((N + 1) * P (S n) x) * P (S n) x) / ((2 * N + 3) * (N + 1))); [rewrite E; field; lra|field; lra]. }
    replace (2 / (2 * (N + 1) + 1)) with (scal (/ ((2 * N + 3) * (N + 1)))
        (plus (scal ((2 * N + 1) * (N + 1)) (2 / (2 * N + 1))) (minus (scal ((2 * N + 1) * (N + 2)) 0) (scal (2 * N + 3) 0)))).
    2:{ unfold scal, minus, plus, opp; cbn; unfold mult; cbn. field. lra. }
    apply (is_RInt_scal (V := R_NormedModule)). apply (is_RInt_plus (V := R_NormedModule)); [now apply (is_RInt_scal (V := R_NormedModule))|].
    apply (is_RInt_minus (V := R_NormedModule)); apply (is_RInt_scal (V := R_NormedModule)); auto.
Qed.
