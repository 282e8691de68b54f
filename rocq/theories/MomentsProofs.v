(** Proofs about the moment functions. *)
From Coq Require Import Lra.
From Coquelicot Require Import Coquelicot.
From Verif Require Import Base BaseFacts QTypeModel QuantityModel QuantitySpec NumModel NumFacts EstimateModel EstimateSpec
  EstimateLinear EstimateFacts MomentsModel MomentsSpec LegendreFacts.
Local Open Scope R_scope.

(** * The domain map *)
Lemma tiny_pos : 0 < tiny.
Proof. unfold tiny. apply Rinv_0_lt_compat, pow_lt. lra. Qed.
Lemma init_ok k s d r log safe b : init k s d r log safe = Ok b ->
  (s <> 0)%nat /\ b_kind b = k /\ b_size b = s /\ b_domain b = d /\ b_log b = log /\ b_safe b = safe
  /\ fst (mapped b) < snd (mapped b) /\ b_shift b = fst (mapped b)
  /\ b_scale b = (snd (b_ref b) - fst (b_ref b)) / Rmax (snd (mapped b) - fst (mapped b)) tiny
  /\ (log = true -> 0 < fst d /\ 0 < snd d) /\ (r = RNone -> b_ref b = default_ref k) /\ (forall x y, r = RPair x y -> b_ref b = (x, y)).
Proof.
  unfold init. destruct (Nat.eqb_spec s 0) as [|Hs]; [discriminate|].
  destruct (log && (if Rlt_dec 0 (fst d) then false else true))%bool eqn:E1; [discriminate|].
  match goal with |- context [if ?c then Err AssertionError else _] => destruct c eqn:E2; [discriminate|] end.
  apply Bool.orb_false_iff in E2 as [E2 E3]. match type of E2 with context [Rlt_dec 0 ?z] => destruct (Rlt_dec 0 z) as [Hd|]; [|discriminate] end.
  assert (HL : log = true -> 0 < fst d /\ 0 < snd d).
  { intros ->. cbn in E1, E3. destruct (Rlt_dec 0 (fst d)); [|discriminate]. destruct (Rlt_dec 0 (snd d)); [|discriminate]. auto. }
  intros H. destruct r as [|x y|x]; [| |discriminate]; injection H as <-; unfold mapped;
    cbn [b_kind b_size b_domain b_ref b_log b_safe b_scale b_shift fst snd]; destruct log; cbn [fst snd] in *;
    ands; auto; try lra; try discriminate; intros x' y' E; now injection E as <- <-.
Qed.
Section Map.
Variables (k : kind) (s : nat) (d : R * R) (r : refarg) (log safe : bool) (b : basis).
Hypothesis HI : init k s d r log safe = Ok b.
Let dom : ltac:(let T := type of (init_ok k s d r log safe b HI) in exact T).
Proof. exact (init_ok k s d r log safe b HI). Qed.
Lemma width_pos : 0 < Rmax (snd (mapped b) - fst (mapped b)) tiny.
Proof. eapply Rlt_le_trans; [apply tiny_pos|apply Rmax_r]. Qed.
Lemma linear_fin x : linear b (Fin x) = Fin ((x - b_shift b) * b_scale b + fst (b_ref b)).
Proof. unfold linear, nsub, nadd, nneg, nmul. f_equal. Qed.
Lemma scale_nz : fst (b_ref b) <> snd (b_ref b) -> b_scale b <> 0.
Proof.
  intros H. destruct dom as (_ & _ & _ & _ & _ & _ & _ & _ & -> & _). pose proof width_pos.
  apply Rmult_integral_contrapositive_currified; [lra|]. apply Rinv_neq_0_compat. lra.
Qed.
Lemma linear_inv x : fst (b_ref b) <> snd (b_ref b) -> linear b (Fin (inv_linear b x)) = Fin x.
Proof. intros H. rewrite linear_fin. f_equal. unfold inv_linear. field. now apply scale_nz. Qed.
Lemma inv_linear_linear x : fst (b_ref b) <> snd (b_ref b) -> inv_linear b ((x - b_shift b) * b_scale b + fst (b_ref b)) = x.
Proof. intros H. unfold inv_linear. field. now apply scale_nz. Qed.
Lemma linear_start : linear b (Fin (fst (mapped b))) = Fin (fst (b_ref b)).
Proof. rewrite linear_fin. destruct dom as (_ & _ & _ & _ & _ & _ & _ & -> & _). f_equal. ring. Qed.
Lemma linear_end : wide b -> linear b (Fin (snd (mapped b))) = Fin (snd (b_ref b)).
Proof.
  intros H. rewrite linear_fin. pose proof width_pos as Hw. destruct dom as (_ & _ & _ & _ & _ & _ & Hm & -> & -> & _).
  unfold wide in H. fold tiny in H. rewrite Rmax_left in * by lra. f_equal. field. lra.
Qed.
(** linear keeps the order for an increasing reference domain. *)
Lemma scale_pos : increasing b -> 0 < b_scale b.
Proof.
  intros H. pose proof width_pos. destruct dom as (_ & _ & _ & _ & _ & _ & _ & _ & -> & _). unfold increasing in H.
  apply Rmult_lt_0_compat; [lra|]. now apply Rinv_0_lt_compat.
Qed.
Definition logv (v : num) : num := if b_log b then nlog v else v.
Lemma transform_eq v : transform b v = if b_safe b then clip b (linear b (logv v)) else linear b (logv v).
Proof. reflexivity. Qed.
Lemma clip_fin x : increasing b -> clip b (Fin x) = if Rle_dec (fst (b_ref b)) x then if Rle_dec x (snd (b_ref b)) then Fin x else NaN else NaN.
Proof.
  intros H. unfold increasing in H. unfold clip. rewrite Rmin_left, Rmax_right by lra. cbn [nlt_r ngt_r].
  destruct (Rlt_dec x (fst (b_ref b))), (Rle_dec (fst (b_ref b)) x), (Rlt_dec (snd (b_ref b)) x), (Rle_dec x (snd (b_ref b))); cbn; try reflexivity; lra.
Qed.
(** Inside the domain. *)
Lemma logv_inside v : inside b v -> exists y, logv v = Fin y /\ fst (mapped b) <= y <= snd (mapped b).
Proof.
  intros (x & -> & Hx). unfold logv, mapped. pose proof dom as (_ & _ & _ & Hd & Hl & _ & _ & _ & _ & Hp & _).
  destruct (b_log b) eqn:El.
  - rewrite <- Hl in Hp. specialize (Hp eq_refl). rewrite <- Hd in Hp. cbn [nlog fst snd].
    destruct (Rlt_dec 0 x) as [H0|]; [|lra]. eexists. split; [reflexivity|].
    split; apply Rcomplements.ln_le; lra.
  - eexists. split; [reflexivity|exact Hx].
Qed.
Lemma inside_range y : increasing b -> fst (mapped b) <= y <= snd (mapped b) ->
  fst (b_ref b) <= (y - b_shift b) * b_scale b + fst (b_ref b) <= snd (b_ref b).
Proof.
  intros Hi Hy. pose proof (scale_pos Hi) as Hs. pose proof width_pos as Hw. pose proof dom as (_ & _ & _ & _ & _ & _ & Hm & E1 & E2 & _).
  rewrite E1 in *. split.
  - assert (0 <= (y - fst (mapped b)) * b_scale b) by (apply Rmult_le_pos; lra). lra.
  - assert (H : (y - fst (mapped b)) * b_scale b <= Rmax (snd (mapped b) - fst (mapped b)) tiny * b_scale b).
    { apply Rmult_le_compat_r; [lra|]. eapply Rle_trans; [|apply Rmax_l]. lra. }
    replace (Rmax (snd (mapped b) - fst (mapped b)) tiny * b_scale b) with (snd (b_ref b) - fst (b_ref b)) in H by (rewrite E2; field; lra). lra.
Qed.
Lemma transform_inside v : increasing b -> inside b v ->
  exists t, transform b v = Fin t /\ linear b (logv v) = Fin t /\ fst (b_ref b) <= t <= snd (b_ref b).
Proof.
  intros Hi Hv. destruct (logv_inside v Hv) as (y & Ey & Hy). pose proof (inside_range y Hi Hy) as Ht.
  rewrite transform_eq, Ey, linear_fin. eexists. ands; [|reflexivity|apply Ht|apply Ht]. destruct (b_safe b); [|reflexivity].
  rewrite clip_fin by auto. destruct (Rle_dec _ _); [|lra]. destruct (Rle_dec _ _); [reflexivity|lra].
Qed.
(** Outside the domain. *)
Lemma linear_pinf : increasing b -> linear b PInf = PInf.
Proof. intros H. pose proof (scale_pos H). unfold linear, nsub. cbn. unfold inf_mul. destruct (Rlt_dec 0 (b_scale b)); [reflexivity|lra]. Qed.
Lemma linear_ninf : increasing b -> linear b NInf = NInf.
Proof. intros H. pose proof (scale_pos H). unfold linear, nsub. cbn. unfold inf_mul. destruct (Rlt_dec 0 (b_scale b)); [reflexivity|lra]. Qed.
Lemma transform_outside v : increasing b -> wide b -> b_safe b = true -> ~ inside b v -> transform b v = NaN.
Proof.
  intros Hi Hw Hs Hv. rewrite transform_eq, Hs.
  assert (H : logv v = NaN \/ logv v = PInf \/ logv v = NInf \/ exists y, logv v = Fin y /\ (y < fst (mapped b) \/ snd (mapped b) < y)).
  { unfold logv, mapped. pose proof dom as (_ & _ & _ & Hd & Hl & _ & _ & _ & _ & Hp & _). destruct (b_log b) eqn:El.
    - rewrite <- Hl in Hp. specialize (Hp eq_refl). rewrite <- Hd in Hp. destruct v as [x| | |]; cbn [nlog fst snd]; auto.
      destruct (Rlt_dec 0 x) as [H0|]; [|destruct (Rlt_dec x 0); auto]. right; right; right. eexists. split; [reflexivity|].
      destruct (Rlt_dec x (fst (b_domain b))); [left; now apply ln_increasing|].
      destruct (Rlt_dec (snd (b_domain b)) x); [right; apply ln_increasing; lra|]. exfalso. apply Hv. exists x. split; auto. lra.
    - destruct v as [x| | |]; auto. right; right; right. exists x. split; auto.
      destruct (Rlt_dec x (fst (b_domain b))); auto. destruct (Rlt_dec (snd (b_domain b)) x); auto.
      exfalso. apply Hv. exists x. split; auto. lra. }
  destruct H as [->|[->|[->|(y & -> & Hy)]]].
  - reflexivity.
  - rewrite linear_pinf by auto. unfold clip. cbn [nlt_r ngt_r]. now rewrite Bool.orb_true_r.
  - rewrite linear_ninf by auto. reflexivity.
  - rewrite linear_fin, clip_fin by auto. pose proof (scale_pos Hi) as Hsc. pose proof width_pos as Hwp.
    pose proof dom as (_ & _ & _ & _ & _ & _ & Hm & E1 & E2 & _). unfold wide in Hw. fold tiny in Hw. rewrite Rmax_left in * by lra.
    rewrite E1. destruct Hy as [Hy|Hy].
    + assert ((y - fst (mapped b)) * b_scale b < 0) by nra. destruct (Rle_dec _ _); [lra|reflexivity].
    + assert (H : (snd (mapped b) - fst (mapped b)) * b_scale b = snd (b_ref b) - fst (b_ref b)) by (rewrite E2; field; lra).
      assert ((snd (mapped b) - fst (mapped b)) * b_scale b < (y - fst (mapped b)) * b_scale b) by (apply Rmult_lt_compat_r; lra).
      destruct (Rle_dec _ _); [|reflexivity]. destruct (Rle_dec _ _); [lra|reflexivity].
Qed.
Lemma transform_ends : increasing b -> wide b ->
  transform b (Fin (fst (b_domain b))) = Fin (fst (b_ref b)) /\ transform b (Fin (snd (b_domain b))) = Fin (snd (b_ref b)).
Proof.
  intros Hi Hw. pose proof dom as (_ & _ & _ & Hd & Hl & _ & Hm & _ & _ & Hp & _).
  assert (H : logv (Fin (fst (b_domain b))) = Fin (fst (mapped b)) /\ logv (Fin (snd (b_domain b))) = Fin (snd (mapped b))).
  { unfold logv, mapped. destruct (b_log b) eqn:El; [|auto]. rewrite <- Hl in Hp. specialize (Hp eq_refl). rewrite <- Hd in Hp.
    cbn [nlog fst snd]. destruct (Rlt_dec 0 (fst (b_domain b))); [|lra]. destruct (Rlt_dec 0 (snd (b_domain b))); [auto|lra]. }
  destruct H as [E1 E2]. rewrite !transform_eq, E1, E2, linear_start, linear_end by auto.
  destruct (b_safe b); [|auto]. rewrite !clip_fin by auto. unfold increasing in Hi.
  split; repeat (destruct (Rle_dec _ _); [|lra]); reflexivity.
Qed.
Lemma transform_inv x : fst (b_ref b) <= x <= snd (b_ref b) -> increasing b -> transform b (Fin (inv_transform b x)) = Fin x.
Proof.
  intros Hx Hi. assert (Hn : fst (b_ref b) <> snd (b_ref b)) by (unfold increasing in Hi; lra).
  assert (E : logv (Fin (inv_transform b x)) = Fin (inv_linear b x)).
  { unfold logv, inv_transform. destruct (b_log b); [|reflexivity]. cbn [nlog]. pose proof (exp_pos (inv_linear b x)).
    destruct (Rlt_dec 0 (exp (inv_linear b x))); [|lra]. now rewrite ln_exp. }
  rewrite transform_eq, E, linear_inv by auto. destruct (b_safe b); [|reflexivity]. rewrite clip_fin by auto.
  repeat (destruct (Rle_dec _ _); [|lra]); reflexivity.
Qed.
End Map.
