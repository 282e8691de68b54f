(** The approximated distribution function: C53, C90. *)
From Coq Require Import Reals Lra Sorted.
From Verif Require Import Base DistModel DistSpec DistProofs.
Open Scope R_scope.

Section Cdf.
Variables (density : R -> R) (rule : list (R * R)) (dom0 dom1 : R).
Hypothesis Hdom : dom0 < dom1.
Let quad := fixed_quad density rule.
Lemma cdf_len q vs : forall x y, length (cdf_loop dom0 dom1 q x y vs) = length vs.
Proof using. induction vs as [|v vs IH]; intros x y; [reflexivity|]. cbn [cdf_loop]. destruct Rle_dec; [|destruct Rle_dec]; cbn; now rewrite IH. Qed.
(** Weights and density are not negative: so is the quadrature of an interval. *)
Lemma quad_nonneg a b : (forall x, 0 <= density x) -> Forall (fun nw => 0 <= snd nw) rule -> a <= b -> 0 <= fixed_quad density rule a b.
Proof using.
  intros Hd Hw Hab. unfold fixed_quad. apply Rmult_le_pos; [lra|]. induction rule as [|nw r IH]; cbn; [lra|]. inversion Hw; subst.
  apply Rplus_le_le_0_compat; [apply Rmult_le_pos; auto|now apply IH].
Qed.

(** Values with last_x, last_y on the distribution function [F]. *)
Definition val (F : R -> R) (v : R) : R := if Rle_dec v dom0 then 0 else if Rle_dec dom1 v then 1 else F v.
Lemma cdf_post F q vs : Forall (fun v => v <= dom0 \/ dom1 <= v) vs -> forall x y, cdf_loop dom0 dom1 q x y vs = map (val F) vs.
Proof using.
  induction 1 as [|v vs H _ IH]; intros x y; [reflexivity|]. cbn [cdf_loop map]. unfold val at 1.
  destruct (Rle_dec v dom0); [now rewrite IH|]. destruct (Rle_dec dom1 v); [now rewrite IH|]. lra.
Qed.
Lemma cdf_mid F q mid post : (forall a b, dom0 <= a <= dom1 -> dom0 <= b <= dom1 -> q a b = F b - F a) ->
  Forall (fun v => dom0 < v < dom1) mid -> Forall (fun v => v <= dom0 \/ dom1 <= v) post ->
  forall x, dom0 <= x <= dom1 -> cdf_loop dom0 dom1 q x (F x) (mid ++ post) = map (val F) (mid ++ post).
Proof using.
  intros Hq Hm Hp. induction Hm as [|v mid H _ IH]; intros x Hx; [now apply cdf_post|]. cbn [app cdf_loop map]. unfold val at 1.
  destruct (Rle_dec v dom0); [lra|]. destruct (Rle_dec dom1 v); [lra|]. rewrite Hq by lra. replace (F x + (F v - F x)) with (F v) by ring.
  f_equal. apply IH. lra.
Qed.
Lemma cdf_pre F q pre rest : F dom0 = 0 -> Forall (fun v => v <= dom0) pre ->
  cdf_loop dom0 dom1 q dom0 (F dom0) rest = map (val F) rest -> cdf_loop dom0 dom1 q dom0 0 (pre ++ rest) = map (val F) (pre ++ rest).
Proof using.
  intros F0 Hp Hr. rewrite F0 in Hr. induction Hp as [|v pre H _ IH]; [exact Hr|]. cbn [app cdf_loop map]. unfold val at 1.
  destruct (Rle_dec v dom0); [|lra]. now rewrite IH.
Qed.
Lemma in_combine_map {A B} (f : A -> B) l a b : In (a, b) (combine l (map f l)) -> In a l /\ b = f a.
Proof using. induction l as [|x l IH]; cbn; [intros []|]. intros [[= -> <-]|H]; [auto|]. destruct (IH H). auto. Qed.

(** C90: with a density that is not negative, has integral 1 over the domain, and that the quadrature integrates exactly,
    arguments left of the domain first and right of it last (in any order inside) get values of a distribution function.
    Sorted arguments are such. *)
Theorem C90_cdf F pre mid post :
  (forall x, 0 <= density x) -> Forall (fun nw => 0 <= snd nw) rule ->
  (forall a b, dom0 <= a <= dom1 -> dom0 <= b <= dom1 -> fixed_quad density rule a b = F b - F a) -> F dom0 = 0 -> F dom1 = 1 ->
  Forall (fun v => v <= dom0) pre -> Forall (fun v => dom0 < v < dom1) mid -> Forall (fun v => v <= dom0 \/ dom1 <= v) post ->
  is_cdf dom0 dom1 (pre ++ mid ++ post) (cdf density rule dom0 dom1 (pre ++ mid ++ post)).
Proof using Hdom.
  intros Hd Hw Hq F0 F1 Hpre Hmid Hpost. unfold is_cdf, cdf. rewrite cdf_len. split; [reflexivity|].
  rewrite (cdf_pre F) by (auto; apply cdf_mid; auto; lra).
  assert (forall a b, dom0 <= a -> a <= b -> b <= dom1 -> F a <= F b) as Hmono.
  { intros a b H1 H2 H3. pose proof (quad_nonneg a b Hd Hw H2). rewrite Hq in H by lra. lra. }
  split.
  - intros v y H. apply in_combine_map in H as [_ ->]. unfold val. destruct (Rle_dec v dom0); [split; [lra|split; intros; lra]|].
    destruct (Rle_dec dom1 v); [split; [lra|split; intros; lra]|]. split; [|split; intros; lra].
    pose proof (Hmono dom0 v). pose proof (Hmono v dom1). lra.
  - intros v y v' y' H H'. apply in_combine_map in H as [_ ->]. apply in_combine_map in H' as [_ ->]. intros L. unfold val.
    destruct (Rle_dec v dom0); destruct (Rle_dec v' dom0); try lra; destruct (Rle_dec dom1 v); destruct (Rle_dec dom1 v'); try lra.
    + pose proof (Hmono dom0 v'). lra.
    + pose proof (Hmono v dom1). lra.
    + apply Hmono; lra.
Qed.
Theorem C90_sorted F values :
  (forall x, 0 <= density x) -> Forall (fun nw => 0 <= snd nw) rule ->
  (forall a b, dom0 <= a <= dom1 -> dom0 <= b <= dom1 -> fixed_quad density rule a b = F b - F a) -> F dom0 = 0 -> F dom1 = 1 ->
  StronglySorted Rle values -> is_cdf dom0 dom1 values (cdf density rule dom0 dom1 values).
Proof using Hdom.
  intros Hd Hw Hq F0 F1 Hs.
  assert (exists pre mid post, values = pre ++ mid ++ post /\ Forall (fun v => v <= dom0) pre /\ Forall (fun v => dom0 < v < dom1) mid
            /\ Forall (fun v => v <= dom0 \/ dom1 <= v) post) as (pre & mid & post & -> & A & B & C); [|now apply (C90_cdf F)].
  induction Hs as [|v vs Hs IH Hv].
  - exists [], [], []. auto.
  - destruct (Rle_dec v dom0) as [L|L].
    + destruct IH as (pre & mid & post & -> & A & B & C). exists (v :: pre), mid, post. auto.
    + destruct (Rle_dec dom1 v) as [G|G].
      * exists [], [], (v :: vs). repeat split; auto. constructor; [auto|]. eapply Forall_impl; [|exact Hv]. cbn. intros. lra.
      * destruct IH as (pre & mid & post & -> & A & B & C). destruct pre as [|p pre].
        -- exists [], (v :: mid), post. repeat split; auto. constructor; [lra|exact B].
        -- inversion A; subst. cbn in Hv. inversion Hv; subst. lra.
Qed.

(** C53, the part that holds for sorted arguments and any density that is not negative, whatever the quadrature: 0 left and
    1 right of the domain, not negative, and not decreasing inside. Missing: values up to 1 and other orders, see
    [C53_refuted] and [C90_cdf]. *)
Definition inside_ok (vs ys : list R) (lo_x lo_y : R) : Prop :=
  forall v y, In (v, y) (combine vs ys) -> 0 <= y /\ (v <= dom0 -> y = 0) /\ (dom1 <= v -> y = 1) /\ (dom0 < v < dom1 -> lo_y <= y)
   /\ forall v' y', In (v', y') (combine vs ys) -> dom0 < v < dom1 -> dom0 < v' < dom1 -> v < v' -> y <= y'.
Lemma inside_run (Hd : forall x, 0 <= density x) (Hw : Forall (fun nw => 0 <= snd nw) rule) vs : StronglySorted Rle vs -> forall x y,
  dom0 <= x -> Forall (Rle x) vs \/ x = dom0 -> 0 <= y -> (dom0 < x \/ y = 0) -> inside_ok vs (cdf_loop dom0 dom1 quad x y vs) x (if Rlt_dec dom0 x then y else 0).
Proof using Hdom.
  induction 1 as [|v vs Hs IH Hv]; intros x y Hx Hax Hy Hxy; [intros ? ? []|]. cbn [cdf_loop].
  destruct (Rle_dec v dom0) as [L|L]; [|destruct (Rle_dec dom1 v) as [G|G]].
  - assert (x = dom0) as -> by (destruct Hax as [Hax|]; [inversion Hax; subst; lra|assumption]).
    assert (y = 0) as -> by (destruct Hxy; [lra|assumption]).
    specialize (IH dom0 0 ltac:(lra) ltac:(auto) ltac:(lra) ltac:(auto)). destruct (Rlt_dec dom0 dom0); [lra|].
    intros a b [[= <- <-]|H].
    + split; [lra|]. split; [auto|]. split; [lra|]. split; [lra|]. intros. lra.
    + destruct (IH a b H) as (P1 & P2 & P3 & P4 & P5). repeat split; auto. intros v' y' [[= <- <-]|H'] I1 I2 I3; [lra|]. eapply P5; eauto.
  - assert (forall a b, In (a, b) (combine vs (cdf_loop dom0 dom1 quad x 1 vs)) -> dom1 <= a /\ b = 1) as K.
    { rewrite (cdf_post (fun _ => 1) quad vs). 2:{ eapply Forall_impl; [|exact Hv]. cbn. intros. right. lra. }
      intros a b H. apply in_combine_map in H as [H ->]. rewrite Forall_forall in Hv. specialize (Hv a H). unfold val.
      destruct (Rle_dec a dom0); [lra|]. destruct (Rle_dec dom1 a); lra. }
    intros a b [[= <- <-]|H].
    + split; [lra|]. split; [intros; lra|]. split; [auto|]. split; [lra|]. intros. lra.
    + destruct (K a b H) as [K1 ->]. split; [lra|]. split; [intros; lra|]. split; [auto|]. split; [lra|]. intros. lra.
  - set (y1 := y + quad x v).
    assert (x <= v) as Hxv by (destruct Hax as [Hax|Hax]; [inversion Hax; subst; assumption|lra]).
    assert (y <= y1) as Hyy by (unfold y1, quad; pose proof (quad_nonneg x v Hd Hw Hxv); lra).
    specialize (IH v y1 ltac:(lra) ltac:(left; exact Hv) ltac:(lra) ltac:(left; lra)). destruct (Rlt_dec dom0 v); [|lra].
    assert ((if Rlt_dec dom0 x then y else 0) <= y) as Hlo by (destruct Rlt_dec; lra).
    intros a b [[= <- <-]|H].
    + split; [lra|]. split; [intros; lra|]. split; [intros; lra|]. split; [lra|]. intros v' y' [[= <- <-]|H'] I1 I2 I3; [lra|].
      destruct (IH v' y' H') as (_ & _ & _ & P4 & _). auto.
    + destruct (IH a b H) as (P1 & P2 & P3 & P4 & P5). split; [auto|]. split; [auto|]. split; [auto|]. split; [intros I; specialize (P4 I); lra|].
      intros v' y' [[= <- <-]|H'] I1 I2 I3; [|eapply P5; eauto].
      apply in_combine_l in H. rewrite Forall_forall in Hv. specialize (Hv a H). lra.
Qed.
Theorem C53_partial values :
  (forall x, 0 <= density x) -> Forall (fun nw => 0 <= snd nw) rule -> StronglySorted Rle values ->
  let ys := cdf density rule dom0 dom1 values in
  length ys = length values
  /\ forall v y, In (v, y) (combine values ys) -> 0 <= y /\ (v <= dom0 -> y = 0) /\ (dom1 <= v -> y = 1)
     /\ forall v' y', In (v', y') (combine values ys) -> dom0 < v < dom1 -> dom0 < v' < dom1 -> v < v' -> y <= y'.
Proof using Hdom.
  intros Hd Hw Hs. split; [apply cdf_len|]. intros v y H.
  destruct (inside_run Hd Hw values Hs dom0 0 ltac:(lra) ltac:(auto) ltac:(lra) ltac:(auto) v y H) as (A & B & C & _ & D). auto.
Qed.
End Cdf.
Print Assumptions C90_cdf.
Print Assumptions C90_sorted.
Print Assumptions C53_partial.

(** Density 1 on [0, 1], quadrature with one point. *)
Lemma ex_quad a b : fixed_quad (fun _ => 1) [(0, 2)] a b = b - a.
Proof. unfold fixed_quad. cbn. field. Qed.
Ltac cdf_step := unfold cdf; cbn [cdf_loop]; repeat (destruct Rle_dec; try lra); rewrite ?ex_quad;
  repeat (match goal with |- ?a :: ?l = ?b :: ?m => apply (f_equal2 (@cons R)); [lra|] end); reflexivity.
Example C90_ex : is_cdf 0 1 [-1; 3/4; 1/4; 2; -2] (cdf (fun _ => 1) [(0, 2)] 0 1 [-1; 3/4; 1/4; 2; -2])
  /\ cdf (fun _ => 1) [(0, 2)] 0 1 [-1; 3/4; 1/4; 2; -2] = [0; 3/4; 1/4; 1; 0].
Proof.
  split; [|cdf_step]. apply (C90_cdf (fun _ => 1) [(0, 2)] 0 1 ltac:(lra) (fun x => x) [-1] [3/4; 1/4] [2; -2]); try lra.
  - intros; lra.
  - repeat constructor; cbn; lra.
  - intros. apply ex_quad.
  - repeat constructor; lra.
  - repeat constructor; lra.
  - constructor; [lra|]. constructor; [lra|constructor].
Qed.
(** C53 in full is false: an argument left of the domain makes the function start again from 0 in the middle, one right of
    it makes it exceed 1; and with a density that does not have integral 1 sorted arguments exceed 1 as well. *)
Theorem C53_refuted :
  (exists density rule dom0 dom1 values, dom0 < dom1 /\ (forall x, 0 <= density x) /\ (forall a b, fixed_quad density rule a b = b - a)
     /\ dom1 - dom0 = 1 /\ exists v y v' y', In (v, y) (combine values (cdf density rule dom0 dom1 values))
     /\ In (v', y') (combine values (cdf density rule dom0 dom1 values)) /\ v < v' /\ y' < y)
  /\ (exists density rule dom0 dom1 values, dom0 < dom1 /\ (forall x, 0 <= density x) /\ (forall a b, fixed_quad density rule a b = b - a)
     /\ dom1 - dom0 = 1 /\ exists y, In y (cdf density rule dom0 dom1 values) /\ 1 < y)
  /\ (exists density rule dom0 dom1 values, dom0 < dom1 /\ (forall x, 0 <= density x) /\ StronglySorted Rle values
     /\ ~ is_cdf dom0 dom1 values (cdf density rule dom0 dom1 values)).
Proof.
  split; [|split].
  - exists (fun _ => 1), [(0, 2)], 0, 1, [1/2; -1; 3/4]. split; [lra|]. split; [intros; lra|]. split; [exact ex_quad|]. split; [lra|].
    assert (cdf (fun _ => 1) [(0, 2)] 0 1 [1/2; -1; 3/4] = [1/2; 0; 1/4]) as -> by cdf_step.
    exists (1/2), (1/2), (3/4), (1/4). cbn. split; [auto|]. split; [auto|]. lra.
  - exists (fun _ => 1), [(0, 2)], 0, 1, [2; 1/2]. split; [lra|]. split; [intros; lra|]. split; [exact ex_quad|]. split; [lra|].
    assert (cdf (fun _ => 1) [(0, 2)] 0 1 [2; 1/2] = [1; 3/2]) as -> by cdf_step. exists (3/2). cbn. split; [auto|lra].
  - exists (fun _ => 3), [(0, 2)], 0, 1, [1/2]. split; [lra|]. split; [intros; lra|]. split; [repeat constructor|].
    assert (cdf (fun _ => 3) [(0, 2)] 0 1 [1/2] = [3/2]) as ->.
    { unfold cdf. cbn [cdf_loop]. repeat (destruct Rle_dec; try lra). unfold fixed_quad. cbn. f_equal. lra. }
    intros (_ & H & _). specialize (H (1/2) (3/2) ltac:(cbn; auto)). lra.
Qed.
Print Assumptions C53_refuted.
Example C53_partial_ex : cdf (fun _ => 1) [(0, 2)] 0 1 [-1; 1/4; 3/4; 2] = [0; 1/4; 3/4; 1] /\ StronglySorted Rle [-1; 1/4; 3/4; 2].
Proof. split; [cdf_step|]. repeat constructor; lra. Qed.
