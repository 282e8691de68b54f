(** Range mappings: C58, C88. *)
From Coq Require Import Reals Lra.
From Verif Require Import Base RangeModel.
Open Scope R_scope.

(** ** Specification *)
(** [f] maps [0, oo) strictly increasingly onto [a, b). *)
Definition maps_onto (f : R -> res R) (a b : R) : Prop :=
  (forall e, 0 <= e -> exists y, f e = Ok y /\ a <= y < b)
  /\ (forall e e' y y', 0 <= e < e' -> f e = Ok y -> f e' = Ok y' -> y < y')
  /\ (forall y, a <= y < b -> exists e, 0 <= e /\ f e = Ok y).

Lemma ptr_val e a b : 0 < b -> a < b -> 0 <= e ->
  exists y, positive_to_range e a b = Ok y /\ 0 < b + (b - a) * e /\ b - y = b * (b - a) / (b + (b - a) * e).
Proof.
  intros Hb Hab He. assert (0 <= (b - a) * e) by (apply Rmult_le_pos; lra). unfold positive_to_range.
  destruct Req_EM_T; [lra|]. eexists. split; [reflexivity|]. split; [lra|]. field. lra.
Qed.

(** C88: for a range with positive upper end. *)
Theorem C88_range a b : 0 < b -> a < b -> maps_onto (fun e => positive_to_range e a b) a b.
Proof.
  intros Hb Hab. split; [|split].
  - intros e He. destruct (ptr_val e a b Hb Hab He) as (y & E & Hd & Hy). exists y. split; [exact E|].
    assert (0 <= (b - a) * e) by (apply Rmult_le_pos; lra).
    assert (0 < b * (b - a)) as Hp by (apply Rmult_lt_0_compat; lra).
    assert (0 < b * (b - a) / (b + (b - a) * e)) by (apply Rdiv_lt_0_compat; lra).
    assert (b * (b - a) / (b + (b - a) * e) <= b * (b - a) / b).
    { unfold Rdiv. apply Rmult_le_compat_l; [lra|]. apply Rinv_le_contravar; lra. }
    replace (b * (b - a) / b) with (b - a) in * by (field; lra). lra.
  - intros e e' y y' [He Hee] E E'.
    destruct (ptr_val e a b Hb Hab He) as (z & Ez & Hd & Hz). rewrite E in Ez. injection Ez as <-.
    destruct (ptr_val e' a b Hb Hab) as (z & Ez & Hd' & Hz'); [lra|]. rewrite E' in Ez. injection Ez as <-.
    assert ((b - a) * e < (b - a) * e') by (apply Rmult_lt_compat_l; lra).
    assert (0 < b * (b - a)) as Hp by (apply Rmult_lt_0_compat; lra).
    assert (b * (b - a) / (b + (b - a) * e') < b * (b - a) / (b + (b - a) * e)).
    { unfold Rdiv. apply Rmult_lt_compat_l; [exact Hp|]. apply Rinv_lt_contravar; [apply Rmult_lt_0_compat; lra|lra]. }
    lra.
  - intros y [Hya Hyb]. set (e := (b * (b - a) / (b - y) - b) / (b - a)).
    assert (b + (b - a) * e = b * (b - a) / (b - y)) as D by (unfold e; field; lra).
    assert (0 <= e) as He.
    { unfold e. apply Rmult_le_pos; [|left; apply Rinv_0_lt_compat; lra].
      assert (b <= b * (b - a) / (b - y)); [|lra]. apply (Rmult_le_reg_r (b - y)); [lra|].
      replace (b * (b - a) / (b - y) * (b - y)) with (b * (b - a)) by (field; lra).
      apply Rmult_le_compat_l; lra. }
    exists e. split; [exact He|]. destruct (ptr_val e a b Hb Hab He) as (z & Ez & Hd & Hz). rewrite Ez. f_equal. rewrite D in Hz.
    assert (b * (b - a) / (b * (b - a) / (b - y)) = b - y) as E by (field; lra). lra.
Qed.
Print Assumptions C88_range.
Example C88_range_ex : positive_to_range 1 (1/100) (1/2) = Ok (1/2 * (1 - (49/100) / (99/100))).
Proof. unfold positive_to_range. destruct Req_EM_T; [lra|]. f_equal. field. Qed.

Lemma eps10_pos : 0 < eps10 < 1 / 2.
Proof. unfold eps10. change (10 ^ 10)%Z with 10000000000%Z. lra. Qed.
Lemma eps15_pos : 0 < eps15.
Proof. unfold eps15. apply Rinv_0_lt_compat, IZR_lt. reflexivity. Qed.
Definition clamp (p : R) : R := Rmax (Rmin p (1 - eps10)) eps10.
Lemma clamp_in p : eps10 <= clamp p <= 1 - eps10.
Proof. pose proof eps10_pos. unfold clamp, Rmax, Rmin. repeat (destruct Rle_dec); lra. Qed.
Lemma clamp_mono p q : p <= q -> clamp p <= clamp q.
Proof. intros. pose proof eps10_pos. unfold clamp, Rmax, Rmin. repeat (destruct Rle_dec); lra. Qed.
Lemma clamp_id p : eps10 <= p <= 1 - eps10 -> clamp p = p.
Proof. intros. unfold clamp. rewrite Rmin_left by lra. now apply Rmax_left. Qed.
Definition law (p m factor visc : R) : R := factor * Rpower p (2 + m) / (1 - p) ^ 2 / visc.
Lemma inv_sq_lt p q : p < q < 1 -> / (1 - p) ^ 2 < / (1 - q) ^ 2.
Proof.
  intros. assert (0 < (1 - q) ^ 2) by (apply pow_lt; lra). assert (0 < (1 - p) ^ 2) by (apply pow_lt; lra).
  apply Rinv_lt_contravar; [now apply Rmult_lt_0_compat|].
  replace ((1 - p) ^ 2 - (1 - q) ^ 2) with ((q - p) * ((1 - p) + (1 - q))) by ring.
  apply Rminus_gt_0_lt. replace ((1 - p) ^ 2 - (1 - q) ^ 2) with ((q - p) * ((1 - p) + (1 - q))) by ring. apply Rmult_lt_0_compat; lra.
Qed.
Lemma law_strict p q m factor visc : 0 < p -> p < q -> q < 1 -> 0 < factor -> -2 <= m -> 0 < visc -> law p m factor visc < law q m factor visc.
Proof.
  intros Hp Hpq Hq Hf Hm Hv. unfold law, Rdiv. apply Rmult_lt_compat_r; [now apply Rinv_0_lt_compat|].
  assert (0 < Rpower p (2 + m)) by (unfold Rpower; apply exp_pos).
  assert (Rpower p (2 + m) <= Rpower q (2 + m)) by (apply Rle_Rpower_l; lra).
  pose proof (inv_sq_lt p q ltac:(lra)) as I.
  assert (0 < / (1 - p) ^ 2) by (apply Rinv_0_lt_compat, pow_lt; lra).
  rewrite !Rmult_assoc. apply Rmult_lt_compat_l; [exact Hf|].
  apply Rlt_le_trans with (Rpower p (2 + m) * / (1 - q) ^ 2); [now apply Rmult_lt_compat_l|]. apply Rmult_le_compat_r; lra.
Qed.
Lemma law_zero p m visc : law p m 0 visc = 0.
Proof. unfold law, Rdiv. ring. Qed.
Lemma law_mono p q m factor visc : 0 < p -> p <= q -> q < 1 -> 0 <= factor -> -2 <= m -> 0 < visc -> law p m factor visc <= law q m factor visc.
Proof.
  intros Hp [Hpq| ->] Hq [Hf|Hf] Hm Hv; try (right; reflexivity); [left; now apply law_strict|]. subst. rewrite !law_zero. lra.
Qed.

(** C88: the conductivity is at least 1e-15, never decreases with the porosity, and increases between porosities in
    [1e-10, 1 - 1e-10] unless the larger value is that floor. *)
Theorem C88_conductivity m factor visc : 0 <= factor -> -2 <= m -> eps10 < visc ->
  (forall p, exists c, kozeny_carman p m factor visc = Ok c /\ eps15 <= c)
  /\ (forall p q c d, p <= q -> kozeny_carman p m factor visc = Ok c -> kozeny_carman q m factor visc = Ok d -> c <= d)
  /\ (forall p q c d, eps10 <= p < q -> q <= 1 - eps10 -> kozeny_carman p m factor visc = Ok c -> kozeny_carman q m factor visc = Ok d ->
        eps15 < d -> c < d).
Proof.
  intros Hf Hm Hv. pose proof eps10_pos.
  assert (forall p, kozeny_carman p m factor visc = Ok (Rmax (law (clamp p) m factor visc) eps15)) as E.
  { intros p. unfold kozeny_carman. destruct Rlt_dec; [reflexivity|contradiction]. }
  split; [|split].
  - intros p. rewrite E. eexists. split; [reflexivity|]. apply Rmax_r.
  - intros p q c d Hpq. rewrite !E. intros [= <-] [= <-]. apply Rle_max_compat_r.
    pose proof (clamp_in p). pose proof (clamp_in q). pose proof (clamp_mono p q Hpq). apply law_mono; lra.
  - intros p q c d Hpq Hq. rewrite !E. intros [= <-] [= <-]. rewrite !clamp_id by lra. intros Hd.
    assert (eps15 < law q m factor visc) as Hl. { destruct (Rle_dec (law q m factor visc) eps15) as [L|L]; [|lra]. rewrite Rmax_right in Hd by exact L. lra. }
    rewrite (Rmax_left (law q m factor visc)) by lra. destruct Hf as [Hf|Hf].
    + assert (law p m factor visc < law q m factor visc) by (apply law_strict; lra). apply Rmax_lub_lt; lra.
    + subst factor. rewrite law_zero in Hl. pose proof eps15_pos. lra.
Qed.
Print Assumptions C88_conductivity.
(** Porosity 1/2, power 1, factor 1, viscosity 1: (1/2)^3 / (1/4) = 1/2. *)
Example C88_conductivity_ex : kozeny_carman (1/2) 1 1 1 = Ok (1/2).
Proof.
  pose proof eps10_pos. unfold kozeny_carman. destruct Rlt_dec as [_|N]; [|lra]. fold (clamp (1/2)). rewrite clamp_id by lra.
  f_equal. replace (2 + 1) with (INR 3) by (cbn; lra). rewrite Rpower_pow by lra.
  replace (1 * (1/2) ^ 3 / (1 - 1/2) ^ 2 / 1) with (1/2) by (cbn; field). apply Rmax_left. unfold eps15.
  change (10 ^ 15)%Z with 1000000000000000%Z. lra.
Qed.

(** C58 in full is false: a range [a, b) with b <= 0 is hit by a division by zero or collapses, and the conductivity of two
    small porosities is the same. *)
Theorem C58_refuted :
  (exists a b, a < b /\ ~ maps_onto (fun e => positive_to_range e a b) a b)
  /\ (exists a b e, a < b /\ b < 0 /\ 0 <= e /\ positive_to_range e a b = Err ZeroDivisionError)
  /\ (exists p q m factor visc c, 0 < p < q /\ q < 1 /\ 0 < factor /\ eps10 < visc
        /\ kozeny_carman p m factor visc = Ok c /\ kozeny_carman q m factor visc = Ok c).
Proof.
  split; [|split].
  - exists (-1), 0. split; [lra|]. intros (_ & M & _).
    assert (forall e, 0 < e -> positive_to_range e (-1) 0 = Ok 0) as Z.
    { intros e He. unfold positive_to_range. destruct Req_EM_T; [lra|]. f_equal. ring. }
    specialize (M 1 2 0 0 ltac:(lra) (Z 1 ltac:(lra)) (Z 2 ltac:(lra))). lra.
  - exists (-2), (-1), 1. repeat split; try lra. unfold positive_to_range. destruct Req_EM_T; [reflexivity|lra].
  - pose proof eps10_pos. exists (eps10 / 3), (eps10 / 2), 1, 1, 1, (Rmax (law eps10 1 1 1) eps15).
    assert (forall x, x <= eps10 -> kozeny_carman x 1 1 1 = Ok (Rmax (law eps10 1 1 1) eps15)) as K.
    { intros x Hx. unfold kozeny_carman. destruct Rlt_dec as [_|N]; [|exfalso; lra]. rewrite (Rmin_left x) by lra. now rewrite (Rmax_right x). }
    repeat split; try lra; apply K; lra.
Qed.
Print Assumptions C58_refuted.

(** C58, the part that holds for every range: 0 is mapped to [a], and where there is no division by zero the images of
    different numbers differ if the upper end is not 0. Missing: values in the range, see [C58_refuted] and [C88_range]. *)
Theorem C58_partial a b : a < b -> b <> 0 ->
  positive_to_range 0 a b = Ok a
  /\ forall e e' y, positive_to_range e a b = Ok y -> positive_to_range e' a b = Ok y -> e = e'.
Proof.
  intros Hab Hb. split.
  - unfold positive_to_range. destruct Req_EM_T; [lra|]. f_equal. field. lra.
  - intros e e' y. unfold positive_to_range. destruct Req_EM_T as [|N]; [discriminate|]. destruct Req_EM_T as [|N']; [discriminate|].
    intros [= <-] [= E]. apply Rmult_eq_reg_l in E; [|exact Hb].
    assert ((b - a) / (b + (b - a) * e') = (b - a) / (b + (b - a) * e)) as F by lra. unfold Rdiv in F.
    apply Rmult_eq_reg_l in F; [|lra]. apply (f_equal Rinv) in F. rewrite !Rinv_inv in F.
    assert ((b - a) * e = (b - a) * e') as G by lra. apply Rmult_eq_reg_l in G; lra.
Qed.
Print Assumptions C58_partial.
Example C58_partial_ex : positive_to_range 0 (-3) (-1) = Ok (-3).
Proof. apply C58_partial; lra. Qed.
