(** Powers of conditionally negative kernels with exponents below one, by the integral of (1 - exp (- s x)) s^(-1-b). *)
From Coq Require Import Reals Lra.
From Coquelicot Require Import Coquelicot.
From Verif Require Import Base CovarModel CovarFacts.
Open Scope R_scope.

Section Exponent.
Variable b : R.
Hypothesis b01 : 0 < b < 1.

Definition h (x s : R) : R := (1 - exp (- (s * x))) * Rpower s (- 1 - b).

Lemma h_cont x s : 0 < s -> continuous (h x) s.
Proof.
  intros Hs. apply (@ex_derive_continuous R_AbsRing R_NormedModule). unfold h, Rpower. auto_derive. exact Hs.
Qed.
Lemma h_int x p q : 0 < p -> p <= q -> ex_RInt (h x) p q.
Proof.
  intros Hp Hq. apply (@ex_RInt_continuous R_CompleteNormedModule). intros z Hz. rewrite Rmin_left in Hz by exact Hq. apply h_cont. lra.
Qed.
Lemma h_ge0 x s : 0 <= x -> 0 < s -> 0 <= h x s.
Proof.
  intros Hx Hs. unfold h. apply Rmult_le_pos; [|left; apply exp_pos].
  assert (0 <= s * x) by (apply Rmult_le_pos; lra).
  assert (exp (- (s * x)) <= 1); [|lra]. rewrite <- exp_0. destruct H as [H|H]; [left; apply exp_increasing; lra|right; f_equal; lra].
Qed.

(** Change of variable. *)
Lemma h_scale x p q : 0 < x -> 0 < p -> p <= q -> RInt (h x) p q = Rpower x b * RInt (h 1) (x * p) (x * q).
Proof.
  intros Hx Hp Hq.
  assert (E : RInt (fun s => scal x (h 1 (x * s + 0))) p q = RInt (h 1) (x * p + 0) (x * q + 0)).
  { apply (RInt_comp_lin (h 1) x 0 p q). apply h_int; rewrite ?Rplus_0_r; [apply Rmult_lt_0_compat; lra|apply Rmult_le_compat_l; lra]. }
  rewrite !Rplus_0_r in E. rewrite <- E.
  assert (I : ex_RInt (fun s => scal x (h 1 (x * s + 0))) p q).
  { apply (ex_RInt_comp_lin (h 1) x 0 p q). apply h_int; rewrite ?Rplus_0_r; [apply Rmult_lt_0_compat; lra|apply Rmult_le_compat_l; lra]. }
  transitivity (RInt (fun s => scal (Rpower x b) (scal x (h 1 (x * s + 0)))) p q).
  - apply RInt_ext. intros s Hs. rewrite Rmin_left, Rmax_right in Hs by lra.
    unfold scal; cbn; unfold mult; cbn. unfold h. rewrite Rplus_0_r, Rmult_1_r.
    replace (s * x) with (x * s) by ring. rewrite <- (Rpower_mult_distr x s) by lra.
    assert (P : Rpower x b * x * Rpower x (-1 - b) = 1).
    { rewrite <- (Rpower_1 x) at 2 by lra. rewrite <- !Rpower_plus. replace (b + 1 + (-1 - b)) with 0 by ring. apply Rpower_O. exact Hx. }
    transitivity ((1 - exp (- (x * s))) * Rpower s (-1 - b) * (Rpower x b * x * Rpower x (-1 - b))); [rewrite P; ring|ring].
  - exact (RInt_scal (V:=R_CompleteNormedModule) (fun s => scal x (h 1 (x * s + 0))) p q (Rpower x b) I).
Qed.

(** The integrals for x = 1 are bounded. *)
Lemma pow_derive e s : 0 < s -> e <> 0 -> is_derive (fun s => Rpower s e / e) s (Rpower s (e - 1)).
Proof.
  intros Hs He. unfold Rpower. auto_derive; [exact Hs|].
  replace (e - 1) with (e + - 1) by ring. rewrite Rmult_plus_distr_r, exp_plus.
  replace (-1 * ln s) with (- ln s) by ring. rewrite exp_Ropp, exp_ln by exact Hs. field. split; lra.
Qed.
Lemma pow_int e p q : 0 < p -> p <= q -> e <> 0 -> is_RInt (fun s => Rpower s (e - 1)) p q (Rpower q e / e - Rpower p e / e).
Proof.
  intros Hp Hq He. apply (is_RInt_derive (fun s => Rpower s e / e) (fun s => Rpower s (e - 1))).
  - intros s Hs. rewrite Rmin_left in Hs by exact Hq. apply pow_derive; [lra|exact He].
  - intros s Hs. rewrite Rmin_left in Hs by exact Hq. apply (@ex_derive_continuous R_AbsRing R_NormedModule). unfold Rpower. auto_derive. lra.
Qed.

Lemma bound_small p : 0 < p <= 1 -> RInt (h 1) p 1 <= 1 / (1 - b).
Proof.
  intros Hp. pose proof (pow_int (1 - b) p 1 ltac:(lra) ltac:(lra) ltac:(lra)) as I.
  apply Rle_trans with (RInt (fun s => Rpower s (1 - b - 1)) p 1).
  - apply RInt_le; [lra|apply h_int; lra|eexists; exact I|]. intros s Hs. unfold h.
    replace (1 - b - 1) with (1 + (-1 - b)) by ring. rewrite Rpower_plus, Rpower_1 by lra. apply Rmult_le_compat_r; [left; apply exp_pos|].
    rewrite Rmult_1_r. destruct (Req_dec (- s) 0) as [E|E]; [lra|]. pose proof (exp_ineq1 (- s) E). lra.
  - rewrite (is_RInt_unique _ _ _ _ I). assert (0 < Rpower p (1 - b)) by apply exp_pos.
    assert (0 < / (1 - b)) by (apply Rinv_0_lt_compat; lra).
    replace (Rpower 1 (1 - b)) with 1 by (unfold Rpower; rewrite ln_1, Rmult_0_r, exp_0; reflexivity). unfold Rdiv. nra.
Qed.
Lemma bound_large q : 1 <= q -> RInt (h 1) 1 q <= 1 / b.
Proof.
  intros Hq. pose proof (pow_int (- b) 1 q ltac:(lra) Hq ltac:(lra)) as I.
  apply Rle_trans with (RInt (fun s => Rpower s (- b - 1)) 1 q).
  - apply RInt_le; [lra|apply h_int; lra|eexists; exact I|]. intros s Hs. unfold h. replace (- b - 1) with (-1 - b) by ring.
    rewrite <- (Rmult_1_l (Rpower s (-1 - b))) at 2. apply Rmult_le_compat_r; [left; apply exp_pos|]. pose proof (exp_pos (- (s * 1))). lra.
  - rewrite (is_RInt_unique _ _ _ _ I). assert (0 < Rpower q (- b)) by apply exp_pos.
    assert (0 < / b) by (apply Rinv_0_lt_compat; lra).
    replace (Rpower 1 (- b)) with 1 by (unfold Rpower; rewrite ln_1, Rmult_0_r, exp_0; reflexivity).
    replace (Rpower q (- b) / - b - 1 / - b) with (1 / b - Rpower q (- b) * / b) by (field; lra). nra.
Qed.

Lemma int_mono p q p' q' : 0 < p' -> p' <= p -> p <= q -> q <= q' -> RInt (h 1) p q <= RInt (h 1) p' q'.
Proof.
  intros H0 H1 H2 H3.
  assert (E : RInt (h 1) p' q' = RInt (h 1) p' p + RInt (h 1) p q + RInt (h 1) q q').
  { rewrite <- (RInt_Chasles (h 1) p' q q') by (apply h_int; lra).
    rewrite <- (RInt_Chasles (h 1) p' p q) by (apply h_int; lra). reflexivity. }
  assert (0 <= RInt (h 1) p' p) by (apply RInt_ge_0; [lra|apply h_int; lra|intros; apply h_ge0; lra]).
  assert (0 <= RInt (h 1) q q') by (apply RInt_ge_0; [lra|apply h_int; lra|intros; apply h_ge0; lra]).
  lra.
Qed.

Lemma int_bound p q : 0 < p -> p <= q -> RInt (h 1) p q <= 1 / (1 - b) + 1 / b.
Proof.
  intros Hp Hq. pose proof (Rmin_l p 1). pose proof (Rmin_r p 1). pose proof (Rmax_l q 1). pose proof (Rmax_r q 1).
  assert (M : 0 < Rmin p 1) by (apply Rmin_glb_lt; lra).
  eapply Rle_trans; [apply (int_mono p q (Rmin p 1) (Rmax q 1)); lra|].
  rewrite <- (RInt_Chasles (h 1) (Rmin p 1) 1 (Rmax q 1)) by (apply h_int; lra).
  apply Rplus_le_compat; [apply bound_small; lra|apply bound_large; lra].
Qed.

(** Limit of the integrals over growing intervals. *)
Lemma int_limit : exists M, 0 < M /\ forall x, 0 < x -> is_lim_seq (fun k => RInt (h 1) (x * / INR (S k)) (x * INR (S k))) M.
Proof.
  set (E := fun y => exists p q, 0 < p /\ p <= q /\ y = RInt (h 1) p q).
  destruct (completeness E) as [M [UB LUB]].
  - exists (1 / (1 - b) + 1 / b). intros y (p & q & Hp & Hq & ->). apply int_bound; assumption.
  - exists (RInt (h 1) 1 1). exists 1, 1. repeat split; lra.
  - exists M. split.
    + apply Rlt_le_trans with (RInt (h 1) 1 2); [|apply UB; exists 1, 2; repeat split; lra].
      apply RInt_gt_0; [lra| |intros; apply h_cont; lra].
      intros s Hs. unfold h. apply Rmult_lt_0_compat; [|apply exp_pos]. assert (exp (- (s * 1)) < 1); [|lra]. rewrite Rmult_1_r, <- exp_0. apply exp_increasing. lra.
    + intros x Hx. apply is_lim_seq_Reals. intros eps He.
      assert (X : exists p q, 0 < p /\ p <= q /\ M - eps < RInt (h 1) p q).
      { destruct (Classical_Prop.classic (exists p q, 0 < p /\ p <= q /\ M - eps < RInt (h 1) p q)) as [C|C]; [exact C|exfalso].
        assert (M <= M - eps); [|lra]. apply LUB. intros y (p & q & Hp & Hq & ->).
        destruct (Rle_or_lt (RInt (h 1) p q) (M - eps)) as [L|L]; [exact L|exfalso]. apply C. exists p, q. auto. }
      destruct X as (p & q & Hp & Hq & HM).
      destruct (nfloor_ex (x / p + q / x)) as [N [_ HN]].
      { assert (0 < x / p) by (apply Rdiv_lt_0_compat; lra). assert (0 < q / x) by (apply Rdiv_lt_0_compat; lra). lra. }
      exists N. intros k Hk.
      assert (A0 : 0 < x / p) by (apply Rdiv_lt_0_compat; lra). assert (B0 : 0 < q / x) by (apply Rdiv_lt_0_compat; lra).
      assert (KN : INR N + 1 <= INR (S k)) by (rewrite S_INR; apply Rplus_le_compat_r, le_INR; lia).
      set (m := INR (S k)) in *. assert (Mp : 0 < m) by (unfold m; apply lt_0_INR; lia).
      assert (C1 : x * / m <= p).
      { apply (Rmult_le_reg_r m); [exact Mp|]. rewrite Rmult_assoc, Rinv_l, Rmult_1_r by lra.
        assert (x / p <= m) by lra. apply (Rmult_le_compat_l p) in H; [|lra]. replace (p * (x / p)) with x in H by (field; lra). exact H. }
      assert (C2 : q <= x * m).
      { assert (q / x <= m) by lra. apply (Rmult_le_compat_l x) in H; [|lra]. replace (x * (q / x)) with q in H by (field; lra). exact H. }
      assert (C0 : 0 < x * / m) by (apply Rmult_lt_0_compat; [exact Hx|apply Rinv_0_lt_compat; exact Mp]).
      pose proof (int_mono p q (x * / m) (x * m) C0 C1 Hq C2) as L1.
      assert (L2 : RInt (h 1) (x * / m) (x * m) <= M) by (apply UB; exists (x * / m), (x * m); repeat split; lra).
      unfold R_dist. rewrite Rabs_left1 by lra. lra.
Qed.

(** Integral of the form. *)
Lemma form_int n K c p q : 0 < p -> p <= q -> RInt (fun s => form n (fun i j => h (K i j) s) c) p q = form n (fun i j => RInt (h (K i j)) p q) c
  /\ ex_RInt (fun s => form n (fun i j => h (K i j) s) c) p q.
Proof.
  intros Hp Hq.
  assert (G : forall m (f : nat -> R -> R) (g : nat -> R), (forall i, (i < m)%nat -> is_RInt (f i) p q (g i)) -> is_RInt (fun s => rsum m (fun i => f i s)) p q (rsum m g)).
  { induction m as [|m IH]; intros f g H; cbn [rsum].
    - pose proof (is_RInt_const p q 0) as Z. unfold scal in Z; cbn in Z; unfold mult in Z; cbn in Z. rewrite Rmult_0_r in Z. exact Z.
    - apply (is_RInt_plus (fun s => rsum m (fun i => f i s)) (f m)); [apply IH; intros i Hi; apply H; lia|apply H; lia]. }
  assert (I : is_RInt (fun s => form n (fun i j => h (K i j) s) c) p q (form n (fun i j => RInt (h (K i j)) p q) c)).
  { unfold form. apply G. intros i Hi. apply G. intros j Hj. apply (is_RInt_scal (h (K i j)) p q (c i * c j)). apply (RInt_correct (V:=R_CompleteNormedModule) (h (K i j))), h_int; assumption. }
  split; [apply is_RInt_unique; exact I|eexists; exact I].
Qed.

Theorem cnd_power n K : symm n K -> (forall i, (i < n)%nat -> K i i = 0) -> (forall i j, (i < n)%nat -> (j < n)%nat -> 0 <= K i j) -> cnd n K ->
  cnd n (fun i j => power (K i j) b).
Proof.
  intros Sy D P N c C0. destruct int_limit as (M & Mp & LM).
  (* forms of the integrals are not positive *)
  assert (F : forall p q, 0 < p -> p <= q -> form n (fun i j => RInt (h (K i j)) p q) c <= 0).
  { intros p q Hp Hq. destruct (form_int n K c p q Hp Hq) as [E X]. rewrite <- E.
    assert (0 <= RInt (fun s => (-1) * form n (fun i j => h (K i j) s) c) p q).
    { apply RInt_ge_0; [exact Hq|apply (ex_RInt_scal (fun s => form n (fun i j => h (K i j) s) c)); exact X|].
      intros s Hs. rewrite (form_ext n _ (fun i j => Rpower s (-1 - b) * (1 * 1 + (-1) * exp (- (s * K i j))))) by (intros; unfold h; ring).
      rewrite form_scal, form_plus, (form_scal n (-1)), (form_one n (fun _ => 1)).
      rewrite (rsum_ext n (fun i => c i * 1) c) by (intros; ring). rewrite C0.
      pose proof (cnd_exp n K s Sy D N ltac:(lra) c) as PE. assert (0 < Rpower s (-1 - b)) by apply exp_pos. nra. }
    assert (RS : RInt (fun s => -1 * form n (fun i j => h (K i j) s) c) p q = -1 * RInt (fun s => form n (fun i j => h (K i j) s) c) p q)
      by exact (RInt_scal (V:=R_CompleteNormedModule) (fun s => form n (fun i j => h (K i j) s) c) p q (-1) X).
    rewrite RS in H. lra. }
  assert (L : is_lim_seq (fun k => form n (fun i j => RInt (h (K i j)) (/ INR (S k)) (INR (S k))) c) (form n (fun i j => M * power (K i j) b) c)).
  { assert (SL : forall m (f : nat -> nat -> R) (g : nat -> R), (m <= n)%nat -> (forall i, (i < m)%nat -> is_lim_seq (fun q => f q i) (g i)) -> is_lim_seq (fun q => rsum m (f q)) (rsum m g)).
    { induction m as [|m IH]; intros f g Hm H; cbn [rsum]; [apply is_lim_seq_const|].
      apply is_lim_seq_plus'; [apply IH; [lia|intros i Hi; apply H; lia]|apply H; lia]. }
    unfold form. apply SL; [lia|]. intros i Hi. apply SL; [lia|]. intros j Hj.
    apply (is_lim_seq_scal_l (fun k => RInt (h (K i j)) (/ INR (S k)) (INR (S k))) (c i * c j) (M * power (K i j) b)).
    assert (KP : forall k, 0 < / INR (S k) /\ / INR (S k) <= INR (S k)).
    { intros k. assert (1 <= INR (S k)) by (rewrite S_INR; pose proof (pos_INR k); lra). split; [apply Rinv_0_lt_compat; lra|].
      apply Rle_trans with 1; [|exact H]. rewrite <- Rinv_1. apply Rinv_le_contravar; lra. }
    unfold power. destruct (Req_EM_T (K i j) 0) as [E|E].
    - rewrite Rmult_0_r. apply (is_lim_seq_ext (fun _ => 0)); [|apply is_lim_seq_const].
      intros k. rewrite E. rewrite (RInt_ext (h 0) (fun _ => 0)).
      + rewrite RInt_const. symmetry. exact (Rmult_0_r (INR (S k) - / INR (S k))).
      + intros s _. unfold h. rewrite Rmult_0_r, Ropp_0, exp_0, Rminus_eq_0. apply Rmult_0_l.
    - assert (K0 : 0 < K i j) by (pose proof (P i j Hi Hj); lra).
      apply (is_lim_seq_ext (fun k => Rpower (K i j) b * RInt (h 1) (K i j * / INR (S k)) (K i j * INR (S k)))).
      + intros k. symmetry. destruct (KP k). apply h_scale; assumption.
      + rewrite Rmult_comm. apply (is_lim_seq_scal_l (fun k => RInt (h 1) (K i j * / INR (S k)) (K i j * INR (S k))) (Rpower (K i j) b) M). apply LM. exact K0. }
  assert (Q : form n (fun i j => M * power (K i j) b) c <= 0).
  { apply (is_lim_seq_le (fun k => form n (fun i j => RInt (h (K i j)) (/ INR (S k)) (INR (S k))) c) (fun _ => 0) (form n (fun i j => M * power (K i j) b) c) 0); [|exact L|apply is_lim_seq_const].
    intros k. assert (1 <= INR (S k)) by (rewrite S_INR; pose proof (pos_INR k); lra).
    apply F; [apply Rinv_0_lt_compat; lra|]. apply Rle_trans with 1; [|exact H]. rewrite <- Rinv_1. apply Rinv_le_contravar; lra. }
  rewrite form_scal in Q. nra.
Qed.
End Exponent.
