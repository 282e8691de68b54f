(** Sums, positive semidefiniteness and derivatives. *)
From Coq Require Import Reals Lra.
From Verif Require Import Base DistModel DistSpec.
Open Scope R_scope.

Lemma sumS n f : sum (S n) f = sum n f + f n.
Proof.
  unfold sum. rewrite seq_S, map_app. cbn [map]. induction (map f (seq 0 n)) as [|x l IH]; cbn in *; [ring|]. rewrite IH. ring.
Qed.
Lemma sum0 f : sum 0 f = 0.
Proof. reflexivity. Qed.
Lemma sum_ext n f g : (forall i, (i < n)%nat -> f i = g i) -> sum n f = sum n g.
Proof. induction n as [|n IH]; intros H; [reflexivity|]. rewrite !sumS, IH, H by (intros; auto; lia). reflexivity. Qed.
Lemma sum_plus n f g : sum n (fun i => f i + g i) = sum n f + sum n g.
Proof. induction n as [|n IH]; [rewrite !sum0; ring|]. rewrite !sumS, IH. ring. Qed.
Lemma sum_scal n c f : sum n (fun i => c * f i) = c * sum n f.
Proof. induction n as [|n IH]; [rewrite !sum0; ring|]. rewrite !sumS, IH. ring. Qed.
Lemma sum_zero n : sum n (fun _ => 0) = 0.
Proof. induction n as [|n IH]; [reflexivity|]. rewrite sumS, IH. ring. Qed.
Lemma sum_nonneg n f : (forall i, (i < n)%nat -> 0 <= f i) -> 0 <= sum n f.
Proof. induction n as [|n IH]; intros H; [rewrite sum0; lra|]. rewrite sumS. assert (0 <= sum n f) by (apply IH; intros; apply H; lia). specialize (H n ltac:(lia)). lra. Qed.
Lemma sum_swap n m f : sum n (fun i => sum m (fun j => f i j)) = sum m (fun j => sum n (fun i => f i j)).
Proof.
  induction n as [|n IH]; [rewrite sum0, (sum_ext m _ (fun _ => 0)) by reflexivity; now rewrite sum_zero|].
  rewrite sumS, IH, <- sum_plus. apply sum_ext. intros. now rewrite sumS.
Qed.
Lemma sum_prod n f g : sum n (fun i => sum n (fun j => f i * g j)) = sum n f * sum n g.
Proof. rewrite (sum_ext n _ (fun i => sum n g * f i)) by (intros; rewrite sum_scal; ring). rewrite sum_scal. ring. Qed.

(** ** Positive semidefinite matrices *)
Lemma psd_plus n A B : psd n A -> psd n B -> psd n (fun i j => A i j + B i j).
Proof.
  intros [SA PA] [SB PB]. split; [intros; now rewrite SA, SB|]. intros x.
  rewrite (sum_ext n _ (fun i => sum n (fun j => x i * A i j * x j) + sum n (fun j => x i * B i j * x j))).
  - rewrite sum_plus. specialize (PA x). specialize (PB x). lra.
  - intros i _. rewrite <- sum_plus. apply sum_ext. intros. ring.
Qed.
Lemma psd_zero n : psd n (fun _ _ => 0).
Proof. split; [reflexivity|]. intros x. apply sum_nonneg. intros. apply sum_nonneg. intros. lra. Qed.
Lemma psd_outer n c (a : vec) : 0 <= c -> psd n (fun i j => c * (a i * a j)).
Proof.
  intros Hc. split; [intros; ring|]. intros x.
  rewrite (sum_ext n _ (fun i => sum n (fun j => (c * (x i * a i)) * (x j * a j)))) by (intros; apply sum_ext; intros; ring).
  rewrite sum_prod, sum_scal. set (s := sum n (fun i => x i * a i)). replace (c * s * s) with (c * (s * s)) by ring.
  apply Rmult_le_pos; [exact Hc|]. apply Rle_0_sqr.
Qed.
Lemma psd_sum n K (A : nat -> nat -> nat -> R) : (forall k, (k < K)%nat -> psd n (A k)) -> psd n (fun i j => sum K (fun k => A k i j)).
Proof.
  induction K as [|K IH]; intros H.
  - split; [reflexivity|]. exact (proj2 (psd_zero n)).
  - destruct (psd_plus n _ _ (IH (fun k Hk => H k ltac:(lia))) (H K ltac:(lia))) as [S1 P1]. split.
    + intros i j. rewrite !sumS. apply S1.
    + intros x. erewrite sum_ext; [apply (P1 x)|]. intros i _. apply sum_ext. intros j _. now rewrite sumS.
Qed.
Lemma psd_ext n A B : (forall i j, A i j = B i j) -> psd n A -> psd n B.
Proof.
  intros H [SA PA]. split; [intros; rewrite <- !H; apply SA|]. intros x. specialize (PA x).
  erewrite sum_ext; [exact PA|]. intros. apply sum_ext. intros. now rewrite H.
Qed.
Lemma psd_diag n c : 0 <= c -> psd n (fun i j => if Nat.eqb i j then c else 0).
Proof.
  intros Hc. split; [intros; now rewrite Nat.eqb_sym|]. intros x. apply sum_nonneg. intros i Hi.
  replace (sum n (fun j => x i * (if Nat.eqb i j then c else 0) * x j)) with (c * (x i * x i)); [apply Rmult_le_pos; [exact Hc|apply Rle_0_sqr]|].
  clear -Hi. assert (forall m, sum m (fun j => x i * (if Nat.eqb i j then c else 0) * x j) = if Nat.ltb i m then c * (x i * x i) else 0) as K.
  { induction m as [|m IH]; [reflexivity|]. rewrite sumS, IH. destruct (Nat.eqb_spec i m) as [->|N].
    - rewrite Nat.ltb_irrefl. replace (Nat.ltb m (S m)) with true by (symmetry; apply Nat.ltb_lt; lia). ring.
    - destruct (Nat.ltb_spec i m); destruct (Nat.ltb_spec i (S m)); try lia; ring. }
  rewrite K. now rewrite (proj2 (Nat.ltb_lt i n) Hi).
Qed.

(** ** Derivatives *)
Lemma dlim_ext f g x l : (forall t, f t = g t) -> derivable_pt_lim f x l -> derivable_pt_lim g x l.
Proof. intros H D eps He. destruct (D eps He) as (d & Hd). exists d. intros h H1 H2. rewrite <- !H. now apply Hd. Qed.
Lemma dlim_sum n (f : nat -> R -> R) (f' : nat -> R) x : (forall i, (i < n)%nat -> derivable_pt_lim (f i) x (f' i)) ->
  derivable_pt_lim (fun t => sum n (fun i => f i t)) x (sum n f').
Proof.
  induction n as [|n IH]; intros H.
  - apply derivable_pt_lim_const.
  - rewrite sumS. apply (dlim_ext (fun t => sum n (fun i => f i t) + f n t)); [intros; now rewrite sumS|].
    apply (derivable_pt_lim_plus (fun t => sum n (fun i => f i t)) (f n)); [apply IH; intros; apply H; lia|apply H; lia].
Qed.
Lemma dlim_affine a b x : derivable_pt_lim (fun t => a + t * b) x b.
Proof.
  pose proof (derivable_pt_lim_plus (fct_cte a) (fun t => b * id t) x 0 (b * 1)
    (derivable_pt_lim_const a x) (derivable_pt_lim_scal id b x 1 (derivable_pt_lim_id x))) as H.
  replace (0 + b * 1) with b in H by ring. revert H. apply dlim_ext. intros t. unfold plus_fct, fct_cte, id. ring.
Qed.
Lemma dlim_scal c f x l : derivable_pt_lim f x l -> derivable_pt_lim (fun t => c * f t) x (c * l).
Proof. exact (derivable_pt_lim_scal f c x l). Qed.
Lemma clip_id x : -200 <= x <= 200 -> clip x = x.
Proof. intros. unfold clip. rewrite Rmax_left, Rmin_left by lra. reflexivity. Qed.
Lemma dlim_clip x : -200 < x < 200 -> derivable_pt_lim clip x 1.
Proof.
  intros Hx eps He. assert (0 < Rmin (200 - x) (x + 200)) as Hd by (apply Rmin_pos; lra). exists (mkposreal _ Hd). cbn. intros h H0 Hh.
  assert (Rabs h < 200 - x /\ Rabs h < x + 200) as [A B].
  { split; eapply Rlt_le_trans; try exact Hh; [apply Rmin_l|apply Rmin_r]. }
  apply Rabs_def2 in A, B. rewrite !clip_id by lra. replace ((x + h - x) / h - 1) with 0 by (field; exact H0). now rewrite Rabs_R0.
Qed.
