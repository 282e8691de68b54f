(** Gradient and Hessian of class Distribution: C94. *)
From Coq Require Import Reals Lra.
From Verif Require Import Base DistModel DistSpec DistProofs FitProps.
Open Scope R_scope.

Lemma dlim_local f g l : (exists d, 0 < d /\ forall t, Rabs t < d -> f t = g t) -> derivable_pt_lim f 0 l -> derivable_pt_lim g 0 l.
Proof.
  intros (d & Hd & H) D eps He. destruct (D eps He) as (d1 & H1). assert (0 < Rmin d d1) as Hm by (apply Rmin_pos; [exact Hd|apply cond_pos]).
  exists (mkposreal _ Hm). cbn. intros h N Hh. rewrite <- !H.
  - apply H1; [exact N|]. eapply Rlt_le_trans; [exact Hh|apply Rmin_r].
  - rewrite Rabs_R0. exact Hd.
  - rewrite Rplus_0_l. eapply Rlt_le_trans; [exact Hh|apply Rmin_l].
Qed.
Lemma affine_neg a b : a < 0 -> exists d, 0 < d /\ forall t, Rabs t < d -> a + t * b < 0.
Proof.
  intros Ha. exists (- a / (Rabs b + 1)). pose proof (Rabs_pos b). split; [apply Rdiv_lt_0_compat; lra|]. intros t Ht.
  assert (Rabs t * (Rabs b + 1) < - a) as H1.
  { apply (Rmult_lt_compat_r (Rabs b + 1)) in Ht; [|lra]. replace (- a / (Rabs b + 1) * (Rabs b + 1)) with (- a) in Ht by (field; lra). exact Ht. }
  pose proof (Rabs_pos t). pose proof (Rle_abs (t * b)) as H2. rewrite Rabs_mult in H2. nra.
Qed.

Section Free.
Variables (n K : nat) (w : vec) (mom : nat -> nat -> R) (E : nat -> nat -> R) (mean err : vec) (coef stab : R) (last : vec) (m : nat).
Notation d_functional := (d_functional n K w mom E mean err coef stab last m).
Notation d_gradient := (d_gradient n K w mom E mean err coef stab last m).
Notation d_jacobian := (d_jacobian n K w mom E mean err coef stab).
(** No decay is enforced at this end, or the density decays there. *)
Definition free (l : vec) (s : nat) : Prop := end_diff n E l s < 0 \/ forall i, (i < n)%nat -> E s i = 0.
Lemma end_along l v t s : end_diff n E (along l v t) s = end_diff n E l s + t * end_diff n E v s.
Proof using.
  unfold end_diff, along. rewrite <- sum_scal, <- sum_plus. apply sum_ext. intros. ring.
Qed.
Lemma end_zero l s : (forall i, (i < n)%nat -> E s i = 0) -> end_diff n E l s = 0.
Proof using. intros H. unfold end_diff. rewrite (sum_ext n _ (fun _ => 0)); [apply sum_zero|]. intros i Hi. rewrite H by exact Hi. ring. Qed.
Lemma free_local l v s : free l s -> exists d, 0 < d /\ forall t, Rabs t < d -> Rmax (end_diff n E (along l v t) s) 0 = 0.
Proof using.
  intros [H|H].
  - destruct (affine_neg _ (end_diff n E v s) H) as (d & Hd & Ht). exists d. split; [exact Hd|]. intros t Hlt. rewrite end_along. apply Rmax_right. specialize (Ht t Hlt). lra.
  - exists 1. split; [lra|]. intros. rewrite end_zero by exact H. apply Rmax_left. lra.
Qed.
Lemma both_free l v : free l 0 -> free l 1 -> exists d, 0 < d /\ forall t, Rabs t < d -> forall s, (s < 2)%nat -> Rmax (end_diff n E (along l v t) s) 0 = 0.
Proof using.
  intros F0 F1. destruct (free_local l v 0%nat F0) as (d0 & P0 & H0). destruct (free_local l v 1%nat F1) as (d1 & P1 & H1).
  exists (Rmin d0 d1). split; [now apply Rmin_pos|]. intros t Ht s Hs.
  assert (Rabs t < d0 /\ Rabs t < d1) as [A B] by (split; eapply Rlt_le_trans; try exact Ht; [apply Rmin_l|apply Rmin_r]).
  destruct s as [|[|]]; [now apply H0|now apply H1|lia].
Qed.
Lemma along0 l v : forall i, along l v 0 i = l i.
Proof using. intros. unfold along. ring. Qed.
Lemma power_local l v : (forall k, (k < K)%nat -> -200 < power n mom err l k < 200) ->
  exists d, 0 < d /\ forall t, Rabs t < d -> forall k, (k < K)%nat -> -200 < power n mom err (along l v t) k < 200.
Proof using.
  induction K as [|K' IH]; intros H; [exists 1; split; [lra|intros; lia]|].
  destruct (IH (fun k Hk => H k ltac:(lia))) as (d & Hd & IHd). specialize (H K' ltac:(lia)).
  destruct (affine_neg (power n mom err l K' - 200) (power n mom err v K')) as (d1 & Hd1 & H1); [lra|].
  destruct (affine_neg (-200 - power n mom err l K') (- power n mom err v K')) as (d2 & Hd2 & H2); [lra|].
  exists (Rmin d (Rmin d1 d2)). split; [repeat apply Rmin_pos; assumption|]. intros t Ht k Hk.
  assert (Rabs t < d /\ Rabs t < d1 /\ Rabs t < d2) as (A & B & C).
  { pose proof (Rmin_l d (Rmin d1 d2)). pose proof (Rmin_r d (Rmin d1 d2)). pose proof (Rmin_l d1 d2). pose proof (Rmin_r d1 d2). lra. }
  destruct (Nat.eq_dec k K') as [->|N]; [|apply IHd; [exact A|lia]]. rewrite power_along. specialize (H1 t B). specialize (H2 t C). lra.
Qed.
Lemma sum_if N (f : nat -> R) : sum n (fun i => if Nat.ltb i N then f i else 0) = sum (Nat.min N n) f.
Proof using.
  clear. induction n as [|p IH]; [now rewrite Nat.min_0_r|]. rewrite sumS, IH. destruct (Nat.ltb_spec p N).
  - replace (Nat.min N (S p)) with (S p) by lia. replace (Nat.min N p) with p by lia. now rewrite sumS.
  - replace (Nat.min N (S p)) with N by lia. replace (Nat.min N p) with N by lia. ring.
Qed.

(** C94, the part that holds: where no power is clipped and the decay penalty is not active, the gradient is the derivative
    of the functional, and rows of the Hessian are derivatives of the gradient for the multipliers that are stabilised.
    Missing: active penalties and the other rows, see [C94_refuted]. *)
Theorem C94_partial l : (m <= n)%nat -> (forall k, (k < K)%nat -> -200 < power n mom err l k < 200) -> free l 0 -> free l 1 ->
  is_gradient n d_functional l (d_gradient l) /\ forall i, (i < m)%nat -> is_gradient n (fun l' => d_gradient l' i) l (d_jacobian l i).
Proof using.
  intros Hm Hp F0 F1. destruct (C92_derivatives n K w mom E mean err l Hp) as [G H].
  assert (forall v, exists d, 0 < d /\ forall t, Rabs t < d -> penalty n E (along l v t) = 0 /\ forall i, penalty_grad n E (along l v t) i = 0) as Pn.
  { intros v. destruct (both_free l v F0 F1) as (d & Hd & Hs). exists d. split; [exact Hd|]. intros t Ht. specialize (Hs t Ht). split.
    - unfold penalty. rewrite (sum_ext 2 _ (fun _ => 0)); [apply sum_zero|]. intros s H2. rewrite Hs by exact H2. ring.
    - intros i. unfold penalty_grad. rewrite (sum_ext 2 _ (fun _ => 0)); [rewrite sum_zero; ring|]. intros s H2. rewrite Hs by exact H2. ring. }
  assert (forall v, exists d, 0 < d /\ forall t, Rabs t < d -> forall i,
            d_gradient (along l v t) i = gradient n K w mom E mean err 0 (along l v t) i + (if Nat.ltb i m then stab * (along l v t i - last i) else 0)) as Gr.
  { intros v. destruct (Pn v) as (d & Hd & Hs). destruct (power_local l v Hp) as (d' & Hd' & Hs').
    exists (Rmin d d'). split; [now apply Rmin_pos|]. intros t Ht i.
    assert (Rabs t < d /\ Rabs t < d') as [A B] by (split; eapply Rlt_le_trans; try exact Ht; [apply Rmin_l|apply Rmin_r]).
    destruct (Hs t A) as [_ Z]. unfold DistModel.d_gradient. f_equal. unfold gradient, gradient_with. rewrite Z.
    assert (forall j, integral K w mom err (fun k => exp (power n mom err (along l v t) k)) j = integral K w mom err (q_density n mom err (along l v t)) j) as I.
    { intros j. unfold integral. f_equal. apply sum_ext. intros k Hk. unfold q_density. rewrite clip_id; [reflexivity|]. specialize (Hs' t B k Hk). lra. }
    rewrite !I. ring. }
  split.
  - intros v. destruct (Pn v) as (d & Hd & Hs).
    apply (dlim_local (fun t => functional n K w mom E mean err 0 (along l v t) + 1 / 2 * stab * sum m (fun i => (last i - along l v t i) ^ 2))).
    { exists d. split; [exact Hd|]. intros t Ht. destruct (Hs t Ht) as [Z _]. unfold DistModel.d_functional, functional. rewrite Z. ring. }
    destruct (Gr v) as (d' & Hd' & Hg). specialize (Hg 0 ltac:(rewrite Rabs_R0; exact Hd')).
    replace (sum n (fun i => d_gradient l i * v i)) with (sum n (fun i => gradient n K w mom E mean err 0 l i * v i) + 1 / 2 * stab * sum m (fun i => 2 * (l i - last i) * v i)).
    + apply (derivable_pt_lim_plus (fun t => functional n K w mom E mean err 0 (along l v t)) (fun t => 1 / 2 * stab * sum m (fun i => (last i - along l v t i) ^ 2))); [apply G|].
      apply (derivable_pt_lim_scal (fun t => sum m (fun i => (last i - along l v t i) ^ 2))).
      apply (dlim_sum m (fun i t => (last i - along l v t i) ^ 2)). intros i _.
      apply (dlim_ext (fun t => (l i - last i + t * v i) * (l i - last i + t * v i))); [intros t; unfold along; ring|].
      pose proof (derivable_pt_lim_mult _ _ _ _ _ (dlim_affine (l i - last i) (v i) 0) (dlim_affine (l i - last i) (v i) 0)) as D.
      cbn beta in D. replace (v i * (l i - last i + 0 * v i) + (l i - last i + 0 * v i) * v i) with (2 * (l i - last i) * v i) in D by ring.
      revert D. apply dlim_ext. intros t. reflexivity.
    + assert (forall i, d_gradient l i = gradient n K w mom E mean err 0 l i + (if Nat.ltb i m then stab * (l i - last i) else 0)) as Hl.
      { intros i. specialize (Hg i). unfold along in Hg.
        assert (forall j, l j + 0 * v j = l j) as Ez by (intros; ring).
        assert (forall f : vec -> R, (forall a b, (forall j, a j = b j) -> f a = f b) -> f (fun j => l j + 0 * v j) = f l) as Ef by (intros f Hf; now apply Hf).
        assert (forall a b : vec, (forall j, a j = b j) -> forall k, power n mom err a k = power n mom err b k) as Ep by (intros a b Hab k; unfold power; f_equal; apply sum_ext; intros; now rewrite Hab).
        assert (forall a b : vec, (forall j, a j = b j) -> means_sum n mean err a = means_sum n mean err b) as Em by (intros a b Hab; unfold means_sum; apply sum_ext; intros; now rewrite Hab).
        assert (forall a b : vec, (forall j, a j = b j) -> penalty_grad n E a i = penalty_grad n E b i) as Eg.
        { intros a b Hab. unfold penalty_grad. f_equal. apply sum_ext. intros s _. f_equal. f_equal. unfold end_diff. apply sum_ext. intros. now rewrite Hab. }
        assert (forall a b : vec, (forall j, a j = b j) -> forall j, integral K w mom err a j = integral K w mom err b j) as Ei by (intros a b Hab j; unfold integral; f_equal; apply sum_ext; intros; now rewrite Hab).
        rewrite (Ef (fun x => d_gradient x i)), (Ef (fun x => gradient n K w mom E mean err 0 x i)), Ez in Hg; [exact Hg| |].
        - intros a b Hab. unfold gradient, gradient_with. rewrite (Em a b Hab), (Eg a b Hab).
          rewrite (Ei (q_density n mom err a) (q_density n mom err b)) by (intros; unfold q_density; now rewrite (Ep a b Hab)).
          rewrite (Ei (q_density n mom err a) (q_density n mom err b)) by (intros; unfold q_density; now rewrite (Ep a b Hab)). reflexivity.
        - intros a b Hab. unfold DistModel.d_gradient, gradient_with. rewrite (Em a b Hab), (Eg a b Hab), Hab.
          rewrite (Ei (fun k => exp (power n mom err a k)) (fun k => exp (power n mom err b k))) by (intros; now rewrite (Ep a b Hab)).
          rewrite (Ei (fun k => exp (power n mom err a k)) (fun k => exp (power n mom err b k))) by (intros; now rewrite (Ep a b Hab)). reflexivity. }
      rewrite (sum_ext n (fun i => d_gradient l i * v i) (fun i => gradient n K w mom E mean err 0 l i * v i + (if Nat.ltb i m then stab * (l i - last i) * v i else 0)))
        by (intros i _; rewrite Hl; destruct (Nat.ltb i m); ring).
      rewrite sum_plus, sum_if, Nat.min_l by exact Hm. f_equal. rewrite <- sum_scal. apply sum_ext. intros. field.
  - intros i Hi v. destruct (Gr v) as (d & Hd & Hs).
    apply (dlim_local (fun t => gradient n K w mom E mean err 0 (along l v t) i + stab * (l i - last i + t * v i))).
    { exists d. split; [exact Hd|]. intros t Ht. rewrite Hs by exact Ht. replace (Nat.ltb i m) with true by (symmetry; now apply Nat.ltb_lt). unfold along. ring. }
    replace (sum n (fun j => d_jacobian l i j * v j)) with (sum n (fun j => jacobian n K w mom E mean err 0 l i j * v j) + stab * v i).
    + apply (derivable_pt_lim_plus (fun t => gradient n K w mom E mean err 0 (along l v t) i) (fun t => stab * (l i - last i + t * v i))); [apply H|].
      apply (derivable_pt_lim_scal (fun t => l i - last i + t * v i)). apply dlim_affine.
    + rewrite (sum_ext n (fun j => d_jacobian l i j * v j) (fun j => jacobian n K w mom E mean err 0 l i j * v j + (if Nat.eqb i j then stab * v i else 0))).
      * rewrite sum_plus. f_equal. assert (forall N, sum N (fun j => if Nat.eqb i j then stab * v i else 0) = if Nat.ltb i N then stab * v i else 0) as S1.
        { induction N as [|N IH]; [reflexivity|]. rewrite sumS, IH. destruct (Nat.eqb_spec i N) as [->|Ne].
          - rewrite Nat.ltb_irrefl. replace (Nat.ltb N (S N)) with true by (symmetry; apply Nat.ltb_lt; lia). ring.
          - destruct (Nat.ltb_spec i N); destruct (Nat.ltb_spec i (S N)); try lia; ring. }
        rewrite S1. replace (Nat.ltb i n) with true by (symmetry; apply Nat.ltb_lt; lia). reflexivity.
      * intros j _. unfold DistModel.d_jacobian. rewrite d_jac0_eq, jacobian_eq. unfold d_jac_penalty.
        rewrite (sum_ext 2 _ (fun _ => 0)).
        -- rewrite sum_zero. destruct (Nat.eqb_spec i j) as [<-|]; ring.
        -- intros s H2. destruct Rlt_dec as [L|]; [|reflexivity]. exfalso.
           destruct s as [|[|]]; [destruct F0 as [F|F]|destruct F1 as [F|F]|lia]; try lra; rewrite end_zero in L by exact F; lra.
Qed.
End Free.
Print Assumptions C94_partial.

(** C94 in full is false: with an active penalty the factor |fun| is treated as a constant, and the Hessian stabilises
    multipliers that the gradient does not. One moment function 1, one quadrature point of weight 1. *)
Theorem C94_refuted :
  (exists n K w mom E mean err coef stab last m l, (m <= n)%nat /\ (forall k, (k < K)%nat -> -200 < power n mom err l k < 200)
     /\ ~ is_gradient n (d_functional n K w mom E mean err coef stab last m) l (d_gradient n K w mom E mean err coef stab last m l))
  /\ (exists n K w mom E mean err coef stab last m l i, (m < n)%nat /\ (i < n)%nat /\ (forall k, (k < K)%nat -> -200 < power n mom err l k < 200)
     /\ free n E l 0 /\ free n E l 1
     /\ ~ is_gradient n (fun l' => d_gradient n K w mom E mean err coef stab last m l' i) l (d_jacobian n K w mom E mean err coef stab l i)).
Proof.
  split.
  - set (E := fun s (_ : nat) => match s with 0%nat => 1 | _ => 0 end).
    exists 1%nat, 1%nat, (fun _ => 1), (fun _ _ => 1), E, (fun _ => 1), (fun _ => 1), 10, 0, (fun _ => 1), 1%nat, (fun _ => 1).
    assert (forall l k, power 1 (fun _ _ => 1) (fun _ => 1) l k = - l 0%nat) as P by (intros; unfold power; rewrite sumS, sum0; field).
    split; [lia|]. split; [intros; rewrite P; lra|]. intros G. specialize (G (fun _ => 1)).
    set (l := fun _ : nat => 1) in *.
    assert (derivable_pt_lim (fun t => (1 + t * 1 + exp (-1 + t * -1)) * (1 + 10 * ((1 + t * 1) * (1 + t * 1)))) 0
      ((1 + exp (-1 + 0 * -1) * -1) * (1 + 10 * ((1 + 0 * 1) * (1 + 0 * 1))) + (1 + 0 * 1 + exp (-1 + 0 * -1)) * (10 * (1 * (1 + 0 * 1) + (1 + 0 * 1) * 1)))) as D.
    { apply (derivable_pt_lim_mult (fun t => 1 + t * 1 + exp (-1 + t * -1)) (fun t => 1 + 10 * ((1 + t * 1) * (1 + t * 1)))).
      - apply (derivable_pt_lim_plus (fun t => 1 + t * 1) (fun t => exp (-1 + t * -1))); [apply dlim_affine|].
        apply (derivable_pt_lim_comp (fun t => -1 + t * -1) exp); [apply dlim_affine|apply derivable_pt_lim_exp].
      - pose proof (derivable_pt_lim_plus (fun _ => 1) (fun t => 10 * ((1 + t * 1) * (1 + t * 1))) 0 0 (10 * (1 * (1 + 0 * 1) + (1 + 0 * 1) * 1)) (derivable_pt_lim_const 1 0)) as D1.
        rewrite Rplus_0_l in D1. apply D1. apply (derivable_pt_lim_scal (fun t => (1 + t * 1) * (1 + t * 1))).
        apply (derivable_pt_lim_mult (fun t => 1 + t * 1) (fun t => 1 + t * 1)); apply dlim_affine. }
    assert (derivable_pt_lim (fun t => d_functional 1 1 (fun _ => 1) (fun _ _ => 1) E (fun _ => 1) (fun _ => 1) 10 0 (fun _ => 1) 1 (along l (fun _ => 1) t)) 0
      ((1 + exp (-1 + 0 * -1) * -1) * (1 + 10 * ((1 + 0 * 1) * (1 + 0 * 1))) + (1 + 0 * 1 + exp (-1 + 0 * -1)) * (10 * (1 * (1 + 0 * 1) + (1 + 0 * 1) * 1)))) as D'.
    { revert D. apply dlim_local. exists 1. split; [lra|]. intros t Ht. apply Rabs_def2 in Ht. unfold d_functional, functional, penalty, means_sum, q_density, end_diff.
      rewrite !sumS, !sum0, !P. unfold along, E, l. rewrite clip_id by lra. rewrite (Rmax_left (0 + 1 * (1 + t * 1))) by lra. rewrite Rmax_left by lra.
      replace (- (1 + t * 1)) with (-1 + t * -1) by ring. pose proof (exp_pos (-1 + t * -1)).
      rewrite Rabs_pos_eq; [field|]. lra. }
    pose proof (uniqueness_limite _ _ _ _ D' G) as U. unfold d_gradient, gradient_with, integral, means_sum, penalty_grad, end_diff in U.
    rewrite !sumS, !sum0, !P in U. cbn [Nat.ltb Nat.leb] in U. unfold E, l in U. rewrite (Rmax_left (0 + 1 * 1)) in U by lra. rewrite Rmax_left in U by lra.
    replace (-1 + 0 * -1) with (-1) in U by ring. pose proof (exp_pos (-1)).
    replace (- (1)) with (-1) in U by lra. rewrite Rabs_pos_eq in U; [|lra]. assert (exp (-1) < 1) by (rewrite <- exp_0; apply exp_increasing; lra). lra.
  - set (E := fun (s i : nat) => 0). set (mom := fun (k i : nat) => match i with 0%nat => 1 | _ => 0 end).
    exists 2%nat, 1%nat, (fun _ => 1), mom, E, (fun _ => 1), (fun _ => 1), 10, 1, (fun _ => 1), 1%nat, (fun _ => 1), 1%nat.
    assert (forall l k, power 2 mom (fun _ => 1) l k = - l 0%nat) as P by (intros; unfold power, mom; rewrite !sumS, sum0; field).
    split; [lia|]. split; [lia|]. split; [intros; rewrite P; lra|]. split; [right; reflexivity|]. split; [right; reflexivity|].
    intros G. specialize (G (fun i => match i with 0%nat => 0 | _ => 1 end)). set (l := fun _ : nat => 1) in *.
    assert (derivable_pt_lim (fun t => d_gradient 2 1 (fun _ => 1) mom E (fun _ => 1) (fun _ => 1) 10 1 (fun _ => 1) 1 (along l (fun i => match i with 0%nat => 0 | _ => 1 end) t) 1) 0 0) as D.
    { apply (dlim_ext (fun _ => 1)); [|apply derivable_pt_lim_const]. intros t. unfold d_gradient, gradient_with, penalty_grad, end_diff, integral. rewrite !sumS, !sum0.
      unfold E, mom. cbn [Nat.ltb Nat.leb]. field. }
    pose proof (uniqueness_limite _ _ _ _ D G) as U. unfold d_jacobian, d_jac_penalty, d_jac0, end_diff in U. rewrite !sumS, !sum0 in U. unfold E, mom in U.
    cbn [Nat.eqb Nat.leb] in U. repeat (match type of U with context [Rlt_dec ?a ?b] => destruct (Rlt_dec a b); try lra end); lra.
Qed.
Print Assumptions C94_refuted.
(** A density that decays at the left end; no decay enforced at the right end. *)
Example C94_partial_ex : let l := fun _ : nat => 1 in let E := fun s (_ : nat) => match s with 0%nat => -1 | _ => 0 end in
  (forall k, (k < 1)%nat -> -200 < power 1 (fun _ _ => 1) (fun _ => 1) l k < 200) /\ free 1 E l 0 /\ free 1 E l 1
  /\ d_gradient 1 1 (fun _ => 1) (fun _ _ => 1) E (fun _ => 1) (fun _ => 1) 10 1 (fun _ => 0) 1 l 0%nat = 2 - exp (-1).
Proof.
  cbv zeta. split; [intros; unfold power; rewrite sumS, sum0; lra|]. split; [left; unfold end_diff; rewrite sumS, sum0; lra|]. split; [right; reflexivity|].
  unfold d_gradient, gradient_with, penalty_grad, integral, power, end_diff. rewrite !sumS, !sum0. cbn [Nat.ltb Nat.leb].
  rewrite !(Rmax_right (0 + _ * 1)) by lra. replace (- (0 + 1 * (1 / 1))) with (-1) by field. field.
Qed.
