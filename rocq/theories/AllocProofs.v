(** Proofs about numbers of samples and level parameters. *)
From Coq Require Import Lra.
From Verif Require Import Base BaseFacts AllocModel AllocSpec.
Local Open Scope R_scope.

(** * Rounding *)
Lemma int_part_spec x : IZR (Int_part x) <= x < IZR (Int_part x) + 1.
Proof. destruct (base_Int_part x). lra. Qed.
Lemma half_even_bounds x : x - / 2 <= IZR (half_even x) <= x + / 2.
Proof.
  unfold half_even. pose proof (int_part_spec x). destruct (Rlt_dec _ _) as [H1|H1]; [lra|].
  destruct (Rlt_dec _ _) as [H2|H2]; [rewrite plus_IZR; lra|]. destruct (Z.even _); [lra|rewrite plus_IZR; lra].
Qed.
Lemma half_even_mono x y : x <= y -> (half_even x <= half_even y)%Z.
Proof.
  intros H. pose proof (half_even_bounds x) as A. pose proof (half_even_bounds y) as B.
  destruct (Z_le_gt_dec (half_even x) (half_even y)) as [|G]; auto. assert (G' : (half_even y + 1 <= half_even x)%Z) by lia.
  apply IZR_le in G'. rewrite plus_IZR in G'. assert (x = y) by lra. subst. lia.
Qed.
Lemma half_even_Z z : half_even (IZR z) = z.
Proof.
  pose proof (half_even_bounds (IZR z)) as B. assert (H1 : IZR (half_even (IZR z)) < IZR (z + 1)) by (rewrite plus_IZR; lra).
  assert (H2 : IZR (z - 1) < IZR (half_even (IZR z))) by (rewrite minus_IZR; lra). apply lt_IZR in H1, H2. lia.
Qed.
Lemma to_int_pos x : 0 <= x -> IZR (to_int x) <= x < IZR (to_int x) + 1.
Proof. intros H. unfold to_int. destruct (Rlt_dec x 0); [lra|]. apply int_part_spec. Qed.
Lemma int_part_Z z : Int_part (IZR z) = z.
Proof.
  pose proof (int_part_spec (IZR z)) as B. assert (H1 : IZR (Int_part (IZR z)) <= IZR z) by lra.
  assert (H2 : IZR z < IZR (Int_part (IZR z) + 1)) by (rewrite plus_IZR; lra). apply le_IZR in H1. apply lt_IZR in H2. lia.
Qed.
Lemma to_int_Z z : to_int (IZR z) = z.
Proof. unfold to_int. destruct (Rlt_dec _ _); [rewrite <- opp_IZR|]; rewrite int_part_Z; lia. Qed.

(** * Sums *)
Lemma fold_sum_ext {A} (f g : A -> R) l : (forall i, In i l -> f i = g i) -> fold_right Rplus 0 (map f l) = fold_right Rplus 0 (map g l).
Proof. intros H. f_equal. now apply map_ext_in. Qed.
Lemma sumn_ext n f g : (forall i, (i < n)%nat -> f i = g i) -> sumn n f = sumn n g.
Proof. intros H. apply fold_sum_ext. intros i Hi. apply in_seq in Hi. apply H. lia. Qed.
Lemma sum_le {A} (f g : A -> R) l : (forall i, In i l -> f i <= g i) -> fold_right Rplus 0 (map f l) <= fold_right Rplus 0 (map g l).
Proof. induction l as [|a l IH]; intros H; cbn; [lra|]. apply Rplus_le_compat; [apply H; now left|apply IH; intros; apply H; now right]. Qed.
Lemma sumn_le n f g : (forall i, (i < n)%nat -> f i <= g i) -> sumn n f <= sumn n g.
Proof. intros H. apply sum_le. intros i Hi. apply in_seq in Hi. apply H. lia. Qed.
Lemma sum_plus {A} (f g : A -> R) l : fold_right Rplus 0 (map (fun i => f i + g i) l) = fold_right Rplus 0 (map f l) + fold_right Rplus 0 (map g l).
Proof. induction l as [|a l IH]; cbn; [ring|]. rewrite IH. ring. Qed.
Lemma sumn_plus n f g : sumn n (fun i => f i + g i) = sumn n f + sumn n g.
Proof. apply sum_plus. Qed.
Lemma sum_scal {A} a (f : A -> R) l : fold_right Rplus 0 (map (fun i => a * f i) l) = a * fold_right Rplus 0 (map f l).
Proof. induction l as [|x l IH]; cbn; [ring|]. rewrite IH. ring. Qed.
Lemma sumn_scal n a f : sumn n (fun i => a * f i) = a * sumn n f.
Proof. apply sum_scal. Qed.
Lemma sumn_const n a : sumn n (fun _ => a) = INR n * a.
Proof.
  unfold sumn. assert (H : forall l : list nat, fold_right Rplus 0 (map (fun _ => a) l) = INR (length l) * a); [|now rewrite H, seq_length].
  induction l as [|x l IH]; cbn [map fold_right length]; [cbn; ring|]. rewrite IH, S_INR. ring.
Qed.
Lemma sumn_S n f : sumn (S n) f = sumn n f + f n.
Proof.
  unfold sumn. rewrite seq_S, map_app. cbn [map Nat.add]. generalize (map f (seq 0 n)) as l. induction l as [|x l IH]; cbn; [ring|]. rewrite IH. ring.
Qed.
Lemma sumn_nonneg n f : (forall i, (i < n)%nat -> 0 <= f i) -> 0 <= sumn n f.
Proof. intros H. replace 0 with (sumn n (fun _ => 0)) by (rewrite sumn_const; ring). now apply sumn_le. Qed.
Lemma sumn_term n f i : (forall i, (i < n)%nat -> 0 <= f i) -> (i < n)%nat -> f i <= sumn n f.
Proof.
  induction n as [|n IH]; intros H Hi; [lia|]. rewrite sumn_S. assert (Hn : 0 <= f n) by (apply H; lia).
  assert (0 <= sumn n f) by (apply sumn_nonneg; intros; apply H; lia). destruct (Nat.eq_dec i n) as [->|Hd]; [lra|].
  specialize (IH ltac:(intros; apply H; lia) ltac:(lia)). lra.
Qed.
Lemma sumn_zero n f : (forall i, (i < n)%nat -> 0 <= f i) -> sumn n f = 0 -> forall i, (i < n)%nat -> f i = 0.
Proof. intros H E i Hi. pose proof (sumn_term n f i H Hi). specialize (H i Hi). lra. Qed.
(** Some term is at least the average. *)
Lemma sumn_avg n f : n <> 0%nat -> exists i, (i < n)%nat /\ sumn n f <= INR n * f i.
Proof.
  intros Hn. destruct (Exists_dec (fun i => sumn n f <= INR n * f i) (seq 0 n)) as [E|E].
  - intros i. destruct (Rle_dec (sumn n f) (INR n * f i)); [now left|now right].
  - apply Exists_exists in E as (i & Hi & E). apply in_seq in Hi. exists i. split; [lia|auto].
  - exfalso. assert (P : 0 < INR n) by (apply lt_0_INR; lia).
    assert (H : forall i, (i < n)%nat -> f i < sumn n f / INR n).
    { intros i Hi. apply Rmult_lt_reg_l with (INR n); auto. replace (INR n * (sumn n f / INR n)) with (sumn n f) by (field; lra).
      apply Rnot_le_lt. intros C. apply E. apply Exists_exists. exists i. split; auto. apply in_seq. lia. }
    assert (S : sumn n f < sumn n (fun _ => sumn n f / INR n)).
    { set (b := sumn n f / INR n) in *. clearbody b. clear E P. induction n as [|n IH]; [lia|]. rewrite !sumn_S. destruct n as [|n].
      - unfold sumn. cbn. specialize (H 0%nat ltac:(lia)). lra.
      - specialize (IH ltac:(lia) ltac:(intros; apply H; lia)). specialize (H (S n) ltac:(lia)). lra. }
    rewrite sumn_const in S. replace (INR n * (sumn n f / INR n)) with (sumn n f) in S by (field; lra). lra.
Qed.

(** * The optimal allocation *)
Lemma sqrt_mul_div V c : 0 <= V -> 0 < c -> c * sqrt (V / c) = sqrt (V * c).
Proof.
  intros HV Hc. rewrite <- (sqrt_square c) at 1 by lra. rewrite <- sqrt_mult_alt by nra. f_equal. field. lra.
Qed.
Lemma sqrt_over V c : 0 <= V -> 0 < c -> sqrt (V * c) / c = sqrt (V / c).
Proof. intros HV Hc. rewrite <- (sqrt_mul_div V c) by auto. field. lra. Qed.
Lemma am_gm V c n t : 0 <= V -> 0 < c -> 0 < n -> 2 * t * sqrt (V * c) <= c * n + t * t * (V / n).
Proof.
  intros HV Hc Hn. set (a := sqrt (c * n)). set (b := sqrt (V / n)).
  assert (Ea : a * a = c * n) by (apply sqrt_sqrt; nra).
  assert (Hq : 0 <= V / n) by (apply Rmult_le_pos; [auto|apply Rlt_le, Rinv_0_lt_compat; auto]).
  assert (Eb : b * b = V / n) by (now apply sqrt_sqrt).
  assert (Eab : a * b = sqrt (V * c)) by (unfold a, b; rewrite <- sqrt_mult by (auto; nra); f_equal; field; lra).
  rewrite <- Ea, <- Eb, <- Eab. pose proof (Rle_0_sqr (a - t * b)) as Q. unfold Rsqr in Q. lra.
Qed.
Section Optimal.
Variables (L : nat) (V c : nat -> R) (target : R).
Hypotheses (HV : forall l, (l < L)%nat -> 0 <= V l) (Hc : forall l, (l < L)%nat -> 0 < c l) (Ht : 0 < target).
Definition S_ := sumn L (fun k => sqrt (V k * c k)).
Lemma optimal_cost : cost L c (optimal L V c target) = S_ * S_ / target.
Proof.
  unfold cost. transitivity (sumn L (fun l => (S_ / target) * sqrt (V l * c l))).
  - apply sumn_ext. intros l Hl. unfold optimal. rewrite <- (sqrt_mul_div (V l) (c l)) by auto. fold S_. field. lra.
  - rewrite sumn_scal. fold S_. field. lra.
Qed.
Lemma optimal_least n : (forall l, (l < L)%nat -> 0 < n l) -> variance L V n <= target -> cost L c (optimal L V c target) <= cost L c n.
Proof.
  intros Hn Hv. rewrite optimal_cost. set (t := S_ / target).
  assert (H : 2 * t * S_ <= cost L c n + t * t * variance L V n).
  { unfold cost, variance, S_. rewrite <- !sumn_scal, <- sumn_plus. apply sumn_le. intros l Hl. apply am_gm; auto. }
  assert (T : t * t * variance L V n <= t * t * target) by (apply Rmult_le_compat_l; [apply Rle_0_sqr|auto]).
  replace (S_ * S_ / target) with (2 * t * S_ - t * t * target) by (unfold t; field; lra). lra.
Qed.
Lemma optimal_variance : (forall l, (l < L)%nat -> 0 < V l) -> L <> 0%nat -> variance L V (optimal L V c target) = target.
Proof.
  intros HP HL. assert (HS : 0 < S_).
  { apply Rlt_le_trans with (sqrt (V 0%nat * c 0%nat)); [apply sqrt_lt_R0, Rmult_lt_0_compat; [apply HP|apply Hc]; lia|].
    unfold S_. apply (sumn_term L (fun k => sqrt (V k * c k)) 0); [intros; apply sqrt_pos|lia]. }
  unfold variance. transitivity (sumn L (fun l => (target / S_) * sqrt (V l * c l))).
  - apply sumn_ext. intros l Hl. unfold optimal. fold S_. rewrite <- (sqrt_mul_div (V l) (c l)) by auto.
    assert (P : 0 < V l / c l) by (apply Rdiv_lt_0_compat; auto). pose proof (sqrt_lt_R0 _ P) as Q.
    assert (E : sqrt (V l / c l) * sqrt (V l / c l) = V l / c l) by (apply sqrt_sqrt; lra).
    set (r := sqrt (V l / c l)) in *. replace (V l) with (c l * (r * r)) by (rewrite E; field; specialize (Hc l Hl); lra).
    field. specialize (Hc l Hl). repeat split; lra.
  - rewrite sumn_scal. fold S_. field. lra.
Qed.
(** Numbers at least min (optimal, cap) up to one sample. *)
Lemma capped_variance n : L <> 0%nat -> (forall l, (l < L)%nat -> 0 < n l) ->
  (forall l, (l < L)%nat -> Rmin (optimal L V c target l) (V l * INR L / target) <= n l) -> variance L V n <= (2 - / INR L) * target.
Proof.
  intros HL Hn Hcap. assert (PL : 0 < INR L) by (apply lt_0_INR; lia). assert (PI : 0 < / INR L) by now apply Rinv_0_lt_compat.
  assert (L1 : 1 <= INR L) by (apply (le_INR 1); lia). assert (I1 : / INR L <= 1) by (rewrite <- Rinv_1; apply Rinv_le_contravar; lra).
  assert (HS : 0 <= S_) by (apply sumn_nonneg; intros; apply sqrt_pos).
  destruct (Req_EM_T S_ 0) as [E|E].
  - replace (variance L V n) with 0; [nra|]. symmetry. transitivity (sumn L (fun _ => 0)); [|rewrite sumn_const; ring].
    apply sumn_ext. intros l Hl. assert (Z := sumn_zero L _ (fun i _ => sqrt_pos (V i * c i)) E l Hl). cbn beta in Z.
    apply sqrt_eq_0 in Z; [|specialize (HV l Hl); specialize (Hc l Hl); nra]. specialize (Hc l Hl). apply Rmult_integral in Z as [->|Z]; [unfold Rdiv; ring|lra].
  - set (w := fun l => sqrt (V l * c l) / S_).
    assert (W0 : forall l, 0 <= w l) by (intros; apply Rmult_le_pos; [apply sqrt_pos|apply Rlt_le, Rinv_0_lt_compat; lra]).
    assert (W1 : sumn L w = 1).
    { transitivity (sumn L (fun l => / S_ * sqrt (V l * c l))); [apply sumn_ext; intros; unfold w; field; lra|]. rewrite sumn_scal. fold S_. field. auto. }
    assert (B : forall l, (l < L)%nat -> V l / n l <= target * (w l + / INR L - Rmin (w l) (/ INR L))).
    { intros l Hl. specialize (HV l Hl). specialize (Hc l Hl). specialize (Hn l Hl). specialize (Hcap l Hl).
      replace (w l + / INR L - Rmin (w l) (/ INR L)) with (Rmax (w l) (/ INR L)) by (unfold Rmax, Rmin; destruct (Rle_dec _ _); ring).
      destruct (Req_EM_T (V l) 0) as [Z|Z].
      { rewrite Z. unfold Rdiv. rewrite Rmult_0_l. apply Rmult_le_pos; [lra|]. apply Rle_trans with (/ INR L); [lra|apply Rmax_r]. }
      assert (PV : 0 < V l) by lra.
      apply Rmult_le_reg_r with (n l); auto. replace (V l / n l * n l) with (V l) by (field; lra).
      unfold Rmin in Hcap. destruct (Rle_dec _ _) as [C|C].
      - apply Rle_trans with (target * w l * optimal L V c target l).
        + apply Req_le. unfold optimal, w. fold S_. rewrite <- (sqrt_mul_div (V l) (c l)) by lra.
          assert (Q : sqrt (V l / c l) * sqrt (V l / c l) = V l / c l) by (apply sqrt_sqrt, Rlt_le, Rdiv_lt_0_compat; auto).
          set (r := sqrt (V l / c l)) in *. replace (V l) with (c l * (r * r)) by (rewrite Q; field; lra). field. split; [lra|auto].
        + apply Rmult_le_compat; auto; [apply Rmult_le_pos; [lra|auto]| |].
          * unfold optimal. apply Rmult_le_pos; [|apply Rlt_le, Rinv_0_lt_compat; auto]. apply Rmult_le_pos; [apply sqrt_pos|auto].
          * apply Rmult_le_compat_l; [lra|apply Rmax_l].
      - apply Rle_trans with (target * / INR L * (V l * INR L / target)).
        + apply Req_le. field. lra.
        + apply Rmult_le_compat; auto; [apply Rmult_le_pos; lra| |].
          * apply Rmult_le_pos; [nra|apply Rlt_le, Rinv_0_lt_compat; auto].
          * apply Rmult_le_compat_l; [lra|apply Rmax_r]. }
    unfold variance. eapply Rle_trans; [apply sumn_le, B|]. rewrite sumn_scal, (Rmult_comm (2 - _)). apply Rmult_le_compat_l; [lra|].
    apply Rle_trans with (sumn L w + 1 - sumn L (fun l => Rmin (w l) (/ INR L))).
    + apply Req_le. transitivity (sumn L w + sumn L (fun _ => / INR L) + -1 * sumn L (fun l => Rmin (w l) (/ INR L))).
      * rewrite <- sumn_scal, <- !sumn_plus. apply sumn_ext. intros. ring.
      * rewrite sumn_const. field. lra.
    + rewrite W1. destruct (sumn_avg L w HL) as (i & Hi & Ha). rewrite W1 in Ha.
      assert (Hw : / INR L <= w i). { apply Rmult_le_reg_l with (INR L); auto. rewrite Rinv_r by lra. auto. }
      assert (Hm := sumn_term L (fun l => Rmin (w l) (/ INR L)) i). cbn beta in Hm. rewrite (Rmin_right (w i)) in Hm by auto.
      specialize (Hm ltac:(intros; apply Rmin_glb; [apply W0|lra]) Hi). lra.
Qed.
Lemma balanced_variance n : (forall l k, (l < L)%nat -> (k < L)%nat -> V l * c l = V k * c k) -> (forall l, (l < L)%nat -> 0 < n l) ->
  (forall l, (l < L)%nat -> Rmin (optimal L V c target l) (V l * INR L / target) <= n l) -> variance L V n <= target.
Proof.
  intros HE Hn Hcap. destruct (Nat.eq_dec L 0) as [->|HL]; [unfold variance, sumn; cbn; lra|]. assert (PL : 0 < INR L) by (apply lt_0_INR; lia).
  assert (B : forall l, (l < L)%nat -> V l / n l <= target * / INR L).
  { intros l Hl. assert (ES : S_ = INR L * sqrt (V l * c l)).
    { unfold S_. rewrite <- sumn_const. apply sumn_ext. intros k Hk. now rewrite (HE k l). }
    assert (EO : optimal L V c target l = V l * INR L / target).
    { unfold optimal. fold S_. rewrite ES, <- (sqrt_mul_div (V l) (c l)) by auto.
      assert (Q : sqrt (V l / c l) * sqrt (V l / c l) = V l / c l) by (apply sqrt_sqrt; apply Rmult_le_pos; [auto|apply Rlt_le, Rinv_0_lt_compat; auto]).
      specialize (Hc l Hl). transitivity (INR L * c l * (sqrt (V l / c l) * sqrt (V l / c l)) / target); [field; lra|]. rewrite Q. field. lra. }
    specialize (Hcap l Hl). rewrite EO in Hcap. rewrite Rmin_left in Hcap by lra. specialize (Hn l Hl).
    apply Rmult_le_reg_r with (n l); auto. replace (V l / n l * n l) with (V l) by (field; lra).
    apply Rle_trans with (target * / INR L * (V l * INR L / target)); [apply Req_le; field; lra|].
    apply Rmult_le_compat_l; [apply Rmult_le_pos; [lra|apply Rlt_le, Rinv_0_lt_compat; auto]|auto]. }
  unfold variance. eapply Rle_trans; [apply sumn_le, B|]. rewrite sumn_const. apply Req_le. field. lra.
Qed.
End Optimal.

(** * The function *)
Lemma all_ok_map {A B} (f : A -> res B) (g : A -> B) l : (forall x, In x l -> f x = Ok (g x)) -> all_ok (map f l) = Ok (map g l).
Proof.
  induction l as [|x l IH]; intros H; cbn; [reflexivity|]. rewrite (H x) by now left. cbn [bind]. rewrite IH by (intros; apply H; now right). reflexivity.
Qed.
Lemma fold_max l : forall a, a <= fold_left Rmax l a /\ (forall x, In x l -> x <= fold_left Rmax l a) /\ (fold_left Rmax l a = a \/ In (fold_left Rmax l a) l).
Proof.
  induction l as [|y l IH]; intros a; cbn; [ands; auto; [lra|easy]|]. destruct (IH (Rmax a y)) as (H1 & H2 & H3). pose proof (Rmax_l a y). pose proof (Rmax_r a y). ands.
  - lra.
  - intros x [<-|Hx]; [lra|auto].
  - destruct H3 as [E|H3]; [|now right; right]. rewrite E. unfold Rmax. destruct (Rle_dec a y); [now right; left|now left].
Qed.
Lemma vmax_spec l : l <> [] -> exists r, vmax l = Ok r /\ In r l /\ forall x, In x l -> x <= r.
Proof.
  destruct l as [|a l]; [easy|]. intros _. destruct (fold_max l a) as (H1 & H2 & H3). exists (fold_left Rmax l a). ands; [reflexivity| |].
  - destruct H3 as [->|H3]; [now left|now right].
  - intros x [<-|Hx]; auto.
Qed.
Lemma estimate_n_ok L M target vars n_ops : data_ok L M target vars n_ops ->
  exists ns, estimate_n target vars n_ops L = Ok ns /\ length ns = L /\ forall l, (l < L)%nat ->
    let V m l := nth m (nth l vars []) 0 in let c l := nth l n_ops 0 in let N := nth l ns 0%Z in
    (2 <= N)%Z
    /\ (forall m, (m < M)%nat -> Rmin (optimal L (V m) c target l) (V m l * INR L / target) < IZR N + 1)
    /\ (N = 2%Z \/ exists m, (m < M)%nat /\ IZR N <= optimal L (V m) c target l + / 2 /\ IZR N <= V m l * INR L / target).
Proof.
  intros [HL HM Hops Hpos Hvars Ht HM0]. unfold estimate_n. rewrite HL, Hops, Nat.eqb_refl. cbn [negb].
  set (safe := fun l m => Rmax (Rmin (IZR (to_int (IZR (half_even (sqrt (entry vars l m * nth l n_ops 0) / nth l n_ops 0
     * vsum (map (fun l0 => sqrt (entry vars l0 m * nth l0 n_ops 0)) (seq 0 L)) / target))))) (entry vars l m * INR L / target)) 2).
  set (best := fun l => match vmax (map (safe l) (seq 0 M)) with Ok r => r | Err _ => 0 end).
  assert (Hb : forall l, (l < L)%nat -> vmax (map (safe l) (seq 0 M)) = Ok (best l) /\ exists m, (m < M)%nat /\ best l = safe l m /\ forall k, (k < M)%nat -> safe l k <= best l).
  { intros l Hl. destruct (vmax_spec (map (safe l) (seq 0 M))) as (r & E & Hin & Hmax).
    { destruct M; [lia|]. discriminate. }
    unfold best. rewrite E. split; auto. apply in_map_iff in Hin as (m & <- & Hm). apply in_seq in Hm. exists m. ands; [lia|reflexivity|].
    intros k Hk. apply Hmax. apply in_map. apply in_seq. lia. }
  rewrite (all_ok_map _ best).
  2:{ intros l Hl. apply in_seq in Hl. rewrite HM by lia. apply Hb. lia. }
  cbn [bind]. eexists. ands; [reflexivity|now rewrite !map_length, seq_length|]. intros l Hl. cbv zeta.
  replace (nth l (map to_int (map best (seq 0 L))) 0%Z) with (to_int (best l)).
  2:{ rewrite map_map. symmetry. rewrite nth_indep with (d' := to_int (best 0%nat)) by (now rewrite map_length, seq_length).
      rewrite (map_nth (fun x => to_int (best x)) (seq 0 L) 0%nat). now rewrite seq_nth. }
  destruct (Hb l Hl) as (_ & m0 & Hm0 & Em & Hmax).
  assert (B2 : 2 <= best l) by (rewrite Em; apply Rmax_r). pose proof (to_int_pos (best l) ltac:(lra)) as TI.
  assert (Eo : forall m, (m < M)%nat -> sqrt (entry vars l m * nth l n_ops 0) / nth l n_ops 0 * vsum (map (fun l0 => sqrt (entry vars l0 m * nth l0 n_ops 0)) (seq 0 L)) / target
     = optimal L (fun l => nth m (nth l vars []) 0) (fun l => nth l n_ops 0) target l).
  { intros m Hm. unfold optimal, entry. now rewrite (sqrt_over (nth m (nth l vars []) 0)) by auto. }
  ands.
  - assert (H : IZR 1 < IZR (to_int (best l))) by (cbn; lra). apply lt_IZR in H. lia.
  - intros m Hm. specialize (Hmax m Hm). unfold safe in Hmax. rewrite Eo in Hmax by auto. rewrite to_int_Z in Hmax.
    set (o := optimal L _ _ target l) in *. pose proof (half_even_bounds o) as HB.
    set (cap := entry vars l m * INR L / target) in *.
    change (nth m (nth l vars []) 0 * INR L / target) with cap.
    assert (HX : Rmin (IZR (half_even o)) cap <= best l) by (eapply Rle_trans; [apply Rmax_l|exact Hmax]).
    destruct (Rle_dec (IZR (half_even o)) cap) as [C|C].
    + rewrite Rmin_left in HX by auto. apply Rle_lt_trans with o; [apply Rmin_l|].
      assert (HZ : (half_even o <= to_int (best l))%Z).
      { apply Z.lt_succ_r. apply lt_IZR. unfold Z.succ. rewrite plus_IZR. lra. }
      apply IZR_le in HZ. lra.
    + rewrite Rmin_right in HX by lra. apply Rle_lt_trans with cap; [apply Rmin_r|]. lra.
  - unfold safe in Em. rewrite Eo in Em by auto. rewrite to_int_Z in Em. set (o := optimal L _ _ target l) in *. pose proof (half_even_bounds o) as HB.
    set (cap := entry vars l m0 * INR L / target) in *. unfold Rmax in Em. destruct (Rle_dec _ 2) as [C|C].
    + left. rewrite Em. exact (to_int_Z 2).
    + right. exists m0. pose proof (Rmin_l (IZR (half_even o)) cap). pose proof (Rmin_r (IZR (half_even o)) cap). fold o.
      change (nth m0 (nth l vars []) 0 * INR L / target) with cap. ands; auto; lra.
Qed.
