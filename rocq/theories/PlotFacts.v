(** Proofs about the choice of moments, sorting and tables of PlotModel. *)
From Coq Require Import Reals Lra.
From Verif Require Import Base PlotModel.
Open Scope R_scope.

(** ** Powers between 0 and 1 *)
Lemma exp_chord t x : 0 <= t <= 1 -> exp (t * x) <= 1 - t + t * exp x.
Proof.
  intros H. set (u := t * x).
  assert (E : forall y, 1 + y <= exp y).
  { intros y. destruct (Req_dec y 0) as [->|N]; [rewrite exp_0; lra|left; apply exp_ineq1; exact N]. }
  pose proof (E (x - u)) as A. pose proof (E (- u)) as B.
  assert (C : 1 <= t * exp (x - u) + (1 - t) * exp (- u)).
  { assert (t * (1 + (x - u)) <= t * exp (x - u)) by (apply Rmult_le_compat_l; lra).
    assert ((1 - t) * (1 + - u) <= (1 - t) * exp (- u)) by (apply Rmult_le_compat_l; lra).
    assert (t * (1 + (x - u)) + (1 - t) * (1 + - u) = 1) by (unfold u; ring). lra. }
  assert (P : 0 < exp u) by apply exp_pos.
  apply (Rmult_le_compat_l (exp u)) in C; [|lra].
  replace (exp u * (t * exp (x - u) + (1 - t) * exp (- u))) with (t * exp x + (1 - t)) in C; [lra|].
  transitivity (t * (exp u * exp (x - u)) + (1 - t) * (exp u * exp (- u))); [|ring].
  rewrite <- !exp_plus. replace (u + (x - u)) with x by ring. replace (u + - u) with 0 by ring. rewrite exp_0. ring.
Qed.

Lemma power_chord M t : 0 < M -> 0 <= t <= 1 -> Rpower M t <= 1 - t + t * M.
Proof. intros HM Ht. unfold Rpower. pose proof (exp_chord t (ln M) Ht). rewrite (exp_ln M HM) in H. exact H. Qed.

Lemma power_ge1 M t : 1 <= M -> 0 <= t -> 1 <= Rpower M t.
Proof.
  intros HM Ht. unfold Rpower. rewrite <- exp_0 at 1.
  assert (0 <= ln M). { destruct HM as [HM| <-]; [|rewrite ln_1; lra]. left. rewrite <- ln_1. apply ln_increasing; lra. }
  assert (0 <= t * ln M) by (apply Rmult_le_pos; assumption).
  destruct H0 as [H0|<-]; [left; apply exp_increasing; exact H0|right; reflexivity].
Qed.

(** ** Rounding *)
Definition nearest (rnd : R -> Z) : Prop := forall x, Rabs (IZR (rnd x) - x) <= 1 / 2.

Lemma nearest_le rnd x m : nearest rnd -> x <= IZR m -> (rnd x <= m)%Z.
Proof.
  intros N H. pose proof (N x) as A. apply Rabs_def2 in A || idtac.
  assert (IZR (rnd x) - x <= 1 / 2) by (eapply Rle_trans; [apply Rle_abs|exact A]).
  assert (IZR (rnd x) < IZR (m + 1)) by (rewrite plus_IZR; lra).
  apply lt_IZR in H1. lia.
Qed.
Lemma nearest_ge rnd x m : nearest rnd -> IZR m <= x -> (m <= rnd x)%Z.
Proof.
  intros N H. pose proof (N x) as A. 
  assert (x - IZR (rnd x) <= 1 / 2) by (rewrite Rabs_minus_sym in A; eapply Rle_trans; [apply Rle_abs|exact A]).
  assert (IZR (m - 1) < IZR (rnd x)) by (rewrite minus_IZR; lra).
  apply lt_IZR in H1. lia.
Qed.
Lemma nearest_int rnd m : nearest rnd -> rnd (IZR m) = m.
Proof. intros N. apply Z.le_antisymm; [apply nearest_le|apply nearest_ge]; auto; apply Rle_refl. Qed.

(** ** The loop making the indices different *)
Lemma bump_length p l : length (bump p l) = length l.
Proof. revert p. induction l as [|x l IH]; intros p; cbn [bump length]; [reflexivity|]. now rewrite IH. Qed.

Lemma bump_ge p l i : (nth i (p :: l) 0 <= nth i (p :: bump p l) 0)%Z.
Proof.
  revert p i. induction l as [|x l IH]; intros p [|i]; cbn [bump nth]; try lia.
  destruct i as [|i]; [lia|]. specialize (IH (Z.max x (p + 1)) (S i)). cbn [nth] in IH. exact IH.
Qed.

Lemma bump_step p l i : (i < length l)%nat -> (nth i (p :: bump p l) 0 < nth (S i) (p :: bump p l) 0)%Z.
Proof.
  revert p i. induction l as [|x l IH]; intros p i H; cbn [length] in H; [lia|].
  destruct i as [|i]; cbn [bump nth]; [lia|].
  specialize (IH (Z.max x (p + 1)) i ltac:(lia)). cbn [nth] in IH. exact IH.
Qed.

Lemma bump_upper p l M K : (forall j, (j <= length l)%nat -> nth j (p :: l) 0 + (K - Z.of_nat j) <= M)%Z ->
  forall i, (i <= length l)%nat -> (nth i (p :: bump p l) 0 + (K - Z.of_nat i) <= M)%Z.
Proof.
  revert p K. induction l as [|x l IH]; intros p K H i Hi; cbn [length] in *.
  - assert (i = 0)%nat as -> by lia. apply (H 0%nat). lia.
  - destruct i as [|i]; [apply (H 0%nat); lia|].
    specialize (IH (Z.max x (p + 1)) (K - 1)%Z). cbn [bump nth] in *.
    pose proof (H 0%nat ltac:(lia)) as H0. pose proof (H 1%nat ltac:(lia)) as H1. cbn [nth] in H0, H1.
    assert (G : (nth i (Z.max x (p + 1) :: bump (Z.max x (p + 1)) l) 0 + (K - 1 - Z.of_nat i) <= M)%Z).
    { apply IH; [|lia]. intros j Hj. destruct j as [|j]; cbn [nth]; [lia|].
      pose proof (H (S (S j)) ltac:(lia)) as HH. cbn [nth] in HH. lia. }
    change (nth i (Z.max x (p + 1) :: bump (Z.max x (p + 1)) l) 0 + (K - Z.of_nat (S i)) <= M)%Z. lia.
Qed.

Lemma bump_least p l (l' : list Z) : length l' = S (length l) ->
  (forall i, (S i < length l')%nat -> (nth i l' 0 < nth (S i) l' 0)%Z) ->
  (forall i, (i < length l')%nat -> (nth i (p :: l) 0 <= nth i l' 0)%Z) ->
  forall i, (i < length l')%nat -> (nth i (p :: bump p l) 0 <= nth i l' 0)%Z.
Proof.
  revert p l'. induction l as [|x l IH]; intros p l' L I G i Hi; cbn [length] in *.
  - assert (i = 0)%nat as -> by lia. apply (G 0%nat). lia.
  - destruct i as [|i]; [apply (G 0%nat); lia|].
    destruct l' as [|a l']; [cbn in L; lia|]. cbn [length] in *.
    change (nth i (Z.max x (p + 1) :: bump (Z.max x (p + 1)) l) 0 <= nth i l' 0)%Z.
    apply IH; try lia.
    + intros j Hj. apply (I (S j)). lia.
    + intros j Hj. destruct j as [|j].
      * pose proof (G 0%nat ltac:(lia)) as G0. pose proof (G 1%nat ltac:(lia)) as G1. pose proof (I 0%nat ltac:(lia)) as I0.
        cbn [nth] in *. lia.
      * apply (G (S (S j))). lia.
Qed.

Lemma steps_increasing (l : list Z) : (forall i, (S i < length l)%nat -> (nth i l 0 < nth (S i) l 0)%Z) ->
  forall i j, (i < j < length l)%nat -> (nth i l 0 < nth j l 0)%Z.
Proof.
  intros H i j [L U]. induction j as [|j IH]; [lia|].
  assert (i < j \/ i = j)%nat as [A| ->] by lia; [|apply H; lia].
  specialize (IH A ltac:(lia)). pose proof (H j U). lia.
Qed.

Lemma steps_lower (l : list Z) : (forall i, (S i < length l)%nat -> (nth i l 0 < nth (S i) l 0)%Z) ->
  forall i, (i < length l)%nat -> (nth 0 l 0 + Z.of_nat i <= nth i l 0)%Z.
Proof.
  intros H i. induction i as [|i IH]; intros U; [lia|].
  specialize (IH ltac:(lia)). pose proof (H i U). lia.
Qed.

Lemma geomspace_length M k : length (geomspace M k) = k.
Proof. destruct k as [|[|k]]; [reflexivity..|]. unfold geomspace. now rewrite map_length, seq_length. Qed.

Lemma geomspace_nth M k i : 0 < M -> (i < k)%nat -> nth i (geomspace M k) 0 = Rpower M (INR i / INR (k - 1)).
Proof.
  intros HM Hi. destruct k as [|[|k]]; [lia| |].
  - assert (i = 0)%nat as -> by lia. cbn [geomspace nth Nat.sub]. change (INR 0) with 0.
    unfold Rdiv. rewrite Rmult_0_l. symmetry. apply Rpower_O. exact HM.
  - unfold geomspace. rewrite (nth_indep _ 0 (Rpower M (INR 0 / INR (S (S k) - 1)))) by (rewrite map_length, seq_length; exact Hi).
    rewrite (map_nth (fun i => Rpower M (INR i / INR (S (S k) - 1))) (seq 0 (S (S k))) 0%nat i).
    now rewrite seq_nth by exact Hi.
Qed.

(** ** Tables *)
Lemma mapr_ok {A B} (f : A -> res B) l ys : mapr f l = Ok ys -> Forall2 (fun x y => f x = Ok y) l ys.
Proof.
  revert ys. induction l as [|x l IH]; cbn [mapr]; intros ys E.
  - injection E as <-. constructor.
  - destruct (f x) as [y|e] eqn:Ex; cbn [bind] in E; [|discriminate].
    destruct (mapr f l) as [zs|e] eqn:El; cbn [bind] in E; [|discriminate].
    injection E as <-. constructor; auto.
Qed.
Lemma mapr_all {A B} (f : A -> res B) l ys : Forall2 (fun x y => f x = Ok y) l ys -> mapr f l = Ok ys.
Proof. induction 1 as [|x y l ys E F IH]; cbn [mapr]; [reflexivity|]. rewrite E, IH. reflexivity. Qed.
