(** Expected values and variances of sums of independent samples. *)
From Coq Require Import Reals Lra.
From Verif Require Import Base BaseFacts NumModel NumFacts EstimateSpec ProbSpec.
Local Open Scope R_scope.

Section Expect.
Context {A : Type}.
Implicit Types (d : dist A) (f g : A -> R).

Lemma expect_nil f : expect [] f = 0. Proof. reflexivity. Qed.
Lemma expect_cons p x d f : expect ((p, x) :: d) f = p * f x + expect d f. Proof. reflexivity. Qed.
Lemma expect_ext d f g : (forall p x, In (p, x) d -> f x = g x) -> expect d f = expect d g.
Proof. intros H. unfold expect. apply rsum_ext. intros [p x] Hp. cbn. now rewrite (H p x Hp). Qed.
Lemma expect_add d f g : expect d (fun x => f x + g x) = expect d f + expect d g.
Proof. induction d as [|[p x] d IH]; rewrite ?expect_nil, ?expect_cons; [ring|]. rewrite IH. ring. Qed.
Lemma expect_scal d c f : expect d (fun x => c * f x) = c * expect d f.
Proof. induction d as [|[p x] d IH]; rewrite ?expect_nil, ?expect_cons; [ring|]. rewrite IH. ring. Qed.
Lemma expect_const d c : proper d -> expect d (fun _ => c) = c.
Proof.
  intros [_ H]. assert (E : expect d (fun _ => c) = rsum (map fst d) * c); [|rewrite E, H; ring]. clear H.
  induction d as [|[p x] d IH]; [cbn; ring|]. rewrite expect_cons, IH. cbn [map fst]. rewrite rsum_cons. ring.
Qed.
Lemma variance_alt d f : proper d -> variance d f = expect d (fun x => f x ^ 2) - expect d f ^ 2.
Proof.
  intros H. unfold variance. set (m := expect d f).
  rewrite (expect_ext d _ (fun x => f x ^ 2 + ((-2 * m) * f x + m ^ 2))) by (intros; ring).
  rewrite expect_add, expect_add, expect_scal, expect_const by auto. unfold m. ring.
Qed.
Lemma variance_ext d f g : (forall p x, In (p, x) d -> f x = g x) -> variance d f = variance d g.
Proof. intros H. unfold variance. rewrite (expect_ext d f g H). apply expect_ext. intros p x Hx. now rewrite (H p x Hx). Qed.
Lemma variance_scal d c f : variance d (fun x => c * f x) = c ^ 2 * variance d f.
Proof. unfold variance. rewrite <- expect_scal. apply expect_ext. intros. rewrite expect_scal. ring. Qed.
End Expect.

Lemma expect_app {A} (d e : dist A) f : expect (d ++ e) f = expect d f + expect e f.
Proof. unfold expect. now rewrite map_app, rsum_app. Qed.
Lemma expect_joint {A B C} (h : A -> B -> C) (d : dist A) (e : dist B) f :
  expect (joint h d e) f = expect d (fun a => expect e (fun b => f (h a b))).
Proof.
  induction d as [|[p x] d IH]; [reflexivity|]. cbn [joint flat_map fst snd]. rewrite expect_app, expect_cons.
  fold (joint h d e). rewrite IH. f_equal. clear. induction e as [|[q y] e IH]; [cbn; ring|].
  cbn [map fst snd]. rewrite !expect_cons, IH. ring.
Qed.
Lemma joint_in {A B C} (h : A -> B -> C) (d : dist A) (e : dist B) p z : In (p, z) (joint h d e) ->
  exists p1 x p2 y, In (p1, x) d /\ In (p2, y) e /\ z = h x y /\ p = p1 * p2.
Proof.
  unfold joint. intros H. apply in_flat_map in H as ([p1 x] & H1 & H). apply in_map_iff in H as ([p2 y] & E & H2). cbn in E. injection E as <- <-.
  exists p1, x, p2, y. auto.
Qed.
Lemma joint_proper {A B C} (h : A -> B -> C) (d : dist A) (e : dist B) : proper d -> proper e -> proper (joint h d e).
Proof.
  intros Hd He. split.
  - intros p z H. apply joint_in in H as (p1 & x & p2 & y & H1 & H2 & _ & ->). apply Rmult_le_pos; [apply (proj1 Hd p1 x H1)|apply (proj1 He p2 y H2)].
  - assert (E : forall T (d : dist T), rsum (map fst d) = expect d (fun _ => 1)).
    { intros T d0. unfold expect. apply rsum_ext. intros o _. ring. }
    rewrite E, expect_joint. rewrite (expect_ext d _ (fun _ => 1)); [now apply expect_const|]. intros. now apply expect_const.
Qed.
Lemma one_proper {A} (x : A) : proper [(1, x)].
Proof. split; [intros p y [H|[]]; injection H as <- _; lra|cbn; ring]. Qed.

(** * Independent samples *)
Section Draws.
Context {A : Type} (d : dist A) (Hd : proper d) (g : A -> R).
Lemma draws_proper n : proper (draws d n).
Proof. induction n as [|n IH]; [apply one_proper|now apply joint_proper]. Qed.
Lemma draws_in n : forall p xs, In (p, xs) (draws d n) -> length xs = n /\ forall x, In x xs -> exists q, In (q, x) d.
Proof.
  induction n as [|n IH]; intros p xs H; cbn in H.
  - destruct H as [H|[]]. injection H as _ <-. split; [reflexivity|intros x []].
  - apply joint_in in H as (p1 & x & p2 & y & H1 & H2 & -> & _). destruct (IH p2 y H2) as [L I]. split; [cbn; now rewrite L|].
    intros z [<-|Hz]; eauto.
Qed.
Lemma expect_sum n : expect (draws d n) (fun xs => rsum (map g xs)) = INR n * expect d g.
Proof.
  induction n as [|n IH]; [cbn; ring|]. cbn [draws]. rewrite expect_joint.
  rewrite (expect_ext d _ (fun a => g a + INR n * expect d g)).
  - rewrite expect_add, expect_const by auto. rewrite S_INR. ring.
  - intros p a _. cbn [map]. rewrite (expect_ext _ _ (fun xs => g a + rsum (map g xs))) by (intros; now rewrite rsum_cons).
    rewrite expect_add, expect_const, IH by apply draws_proper. reflexivity.
Qed.
Lemma expect_sum2 n : expect (draws d n) (fun xs => rsum (map g xs) ^ 2)
  = INR n * expect d (fun x => g x ^ 2) + INR n * (INR n - 1) * expect d g ^ 2.
Proof.
  induction n as [|n IH]; [cbn; ring|]. cbn [draws]. rewrite expect_joint.
  rewrite (expect_ext d _ (fun a => g a ^ 2 + (2 * (INR n * expect d g) * g a + (INR n * expect d (fun x => g x ^ 2) + INR n * (INR n - 1) * expect d g ^ 2)))).
  - rewrite expect_add, expect_add, expect_scal, expect_const by auto. rewrite S_INR. ring.
  - intros p a _. rewrite (expect_ext _ _ (fun xs => g a ^ 2 + (2 * g a * rsum (map g xs) + rsum (map g xs) ^ 2))) by (intros; cbn [map]; rewrite rsum_cons; ring).
    rewrite expect_add, expect_add, expect_scal, expect_const, IH, expect_sum by apply draws_proper. ring.
Qed.
Lemma variance_sum n : variance (draws d n) (fun xs => rsum (map g xs)) = INR n * variance d g.
Proof. rewrite !variance_alt by (auto using draws_proper). rewrite expect_sum, expect_sum2. ring. Qed.

Lemma expect_mean n : (1 <= n)%nat -> expect (draws d n) (fun xs => rmean (map g xs)) = expect d g.
Proof.
  intros Hn. assert (Hp : INR n <> 0) by (apply not_0_INR; lia).
  rewrite (expect_ext _ _ (fun xs => / INR n * rsum (map g xs))).
  - rewrite expect_scal, expect_sum. field. exact Hp.
  - intros p xs H. apply draws_in in H as [L _]. unfold rmean. rewrite map_length, L. field. exact Hp.
Qed.
Lemma variance_mean n : (1 <= n)%nat -> variance (draws d n) (fun xs => rmean (map g xs)) = variance d g / INR n.
Proof.
  intros Hn. assert (Hp : INR n <> 0) by (apply not_0_INR; lia).
  rewrite (variance_ext _ _ (fun xs => / INR n * rsum (map g xs))).
  - rewrite variance_scal, variance_sum. field. exact Hp.
  - intros p xs H. apply draws_in in H as [L _]. unfold rmean. rewrite map_length, L. field. exact Hp.
Qed.
Lemma rvar_alt (v : list R) : (1 < length v)%nat -> rvar v = (rsum (map (fun x => x ^ 2) v) - rsum v ^ 2 / INR (length v)) / (INR (length v) - 1).
Proof.
  intros H. assert (Hp : INR (length v) <> 0) by (apply not_0_INR; lia). unfold rvar. f_equal. set (m := rmean v).
  rewrite (rsum_ext _ (fun x => x ^ 2 + (-2 * m * x + m ^ 2))) by (intros; ring).
  rewrite rsum_map_add, rsum_map_add, rsum_const. rewrite (rsum_map_mul (fun x => x) (-2 * m)), map_id. unfold m, rmean. field. exact Hp.
Qed.
Lemma expect_rvar n : (2 <= n)%nat -> expect (draws d n) (fun xs => rvar (map g xs)) = variance d g.
Proof.
  intros Hn. assert (Hp : INR n <> 0) by (apply not_0_INR; lia). assert (Hq : INR n - 1 <> 0).
  { assert (1 < INR n) by (apply (lt_INR 1); lia). lra. }
  rewrite (expect_ext _ _ (fun xs => / (INR n - 1) * (rsum (map (fun x => g x ^ 2) xs) + - / INR n * rsum (map g xs) ^ 2))).
  - rewrite expect_scal, expect_add, expect_scal, expect_sum2, variance_alt by auto.
    assert (E := expect_sum n). clear E. 
    assert (E : expect (draws d n) (fun xs => rsum (map (fun x => g x ^ 2) xs)) = INR n * expect d (fun x => g x ^ 2)).
    { clear - Hd. induction n as [|k IH]; [cbn; ring|]. cbn [draws]. rewrite expect_joint.
      rewrite (expect_ext d _ (fun a => g a ^ 2 + INR k * expect d (fun x => g x ^ 2))).
      - rewrite expect_add, expect_const by auto. rewrite S_INR. ring.
      - intros p a _. rewrite (expect_ext _ _ (fun xs => g a ^ 2 + rsum (map (fun x => g x ^ 2) xs))) by (intros; cbn [map]; now rewrite rsum_cons).
        rewrite expect_add, expect_const, IH by apply draws_proper. reflexivity. }
    rewrite E. field. auto.
  - intros p xs H. apply draws_in in H as [L _]. rewrite rvar_alt by (rewrite map_length; lia). rewrite map_map, map_length, L. field. auto.
Qed.
End Draws.

(** * Independent levels *)
Section Levels.
Context {A : Type} (h : nat -> list A -> R).
Fixpoint total (k : nat) (oc : list (list A)) : R := match oc with [] => 0 | xs :: r => h k xs + total (S k) r end.
Fixpoint sum_from (w : nat -> dist A * nat -> R) (k : nat) (ls : list (dist A * nat)) : R :=
  match ls with [] => 0 | x :: r => w k x + sum_from w (S k) r end.
Definition all_proper (ls : list (dist A * nat)) : Prop := forall x, In x ls -> proper (fst x).

Lemma campaign_proper ls : all_proper ls -> proper (campaign ls).
Proof.
  induction ls as [|[d n] r IH]; intros H; [apply one_proper|]. cbn [campaign]. apply joint_proper.
  - apply draws_proper. apply (H (d, n)). now left. - apply IH. intros x Hx. apply H. now right.
Qed.
Lemma campaign_in (ls : list (dist A * nat)) : forall p oc, In (p, oc) (campaign ls) -> length oc = length ls /\ forall l, (l < length ls)%nat ->
  exists q, In (q, nth l oc []) (draws (fst (nth l ls ([], O))) (snd (nth l ls ([], O)))).
Proof.
  induction ls as [|[d n] r IH]; intros p oc H; cbn [campaign] in H.
  - destruct H as [H|[]]. injection H as _ <-. split; [reflexivity|]. cbn. lia.
  - apply joint_in in H as (p1 & xs & p2 & y & H1 & H2 & -> & _). destruct (IH p2 y H2) as [L I]. split; [cbn; now rewrite L|].
    intros [|l] Hl; cbn [nth length] in *; [eauto|]. apply I. lia.
Qed.
Lemma expect_total ls : all_proper ls -> forall k,
  expect (campaign ls) (total k) = sum_from (fun l (x : dist A * nat) => expect (draws (fst x) (snd x)) (h l)) k ls.
Proof.
  induction ls as [|[d n] r IH]; intros H k; [cbn; ring|]. cbn [campaign sum_from fst snd]. rewrite expect_joint. cbn [total].
  assert (Hd : proper d) by (apply (H (d, n)); now left). assert (Hr : all_proper r) by (intros x Hx; apply H; now right).
  rewrite (expect_ext _ _ (fun xs => h k xs + expect (campaign r) (total (S k)))).
  - rewrite expect_add, expect_const by now apply draws_proper. now rewrite IH.
  - intros p xs _. now rewrite expect_add, expect_const by now apply campaign_proper.
Qed.
Lemma variance_total ls : all_proper ls -> forall k,
  variance (campaign ls) (total k) = sum_from (fun l (x : dist A * nat) => variance (draws (fst x) (snd x)) (h l)) k ls.
Proof.
  induction ls as [|[d n] r IH]; intros H k; [cbn; ring|]. cbn [campaign sum_from fst snd].
  assert (Hd : proper (draws d n)) by (apply draws_proper; apply (H (d, n)); now left). assert (Hr : all_proper r) by (intros x Hx; apply H; now right).
  rewrite <- IH by auto. assert (Hc := campaign_proper r Hr). rewrite !variance_alt by (auto; now apply joint_proper).
  rewrite !expect_joint. cbn [total]. set (e := expect (campaign r) (total (S k))).
  rewrite (expect_ext (draws d n) _ (fun xs => h k xs ^ 2 + (2 * e * h k xs + expect (campaign r) (fun x => total (S k) x ^ 2)))).
  - rewrite expect_add, expect_add, expect_scal, expect_const by auto.
    rewrite (expect_ext (draws d n) (fun a => expect (campaign r) (fun b => h k a + total (S k) b)) (fun xs => h k xs + e)).
    + rewrite expect_add, expect_const by auto. ring.
    + intros p xs _. now rewrite expect_add, expect_const by auto.
  - intros p xs _. rewrite (expect_ext _ _ (fun x => h k xs ^ 2 + (2 * h k xs * total (S k) x + total (S k) x ^ 2))) by (intros; ring).
    rewrite expect_add, expect_add, expect_scal, expect_const by auto. fold e. ring.
Qed.
End Levels.

Lemma total_ext {A} (h h' : nat -> list A -> R) oc : forall k, (forall i, (i < length oc)%nat -> h (k + i)%nat (nth i oc []) = h' (k + i)%nat (nth i oc [])) -> total h k oc = total h' k oc.
Proof.
  induction oc as [|xs r IH]; intros k H; [reflexivity|]. cbn [total]. f_equal.
  - specialize (H O ltac:(cbn; lia)). now rewrite Nat.add_0_r in H.
  - apply IH. intros i Hi. specialize (H (S i) ltac:(cbn; lia)). cbn [nth] in H. now rewrite Nat.add_succ_r in H.
Qed.
Lemma total_seq {A} (h : nat -> list A -> R) oc : forall k, total h k oc = rsum (map (fun i => h (k + i)%nat (nth i oc [])) (seq 0 (length oc))).
Proof.
  induction oc as [|xs r IH]; intros k; [reflexivity|]. cbn [total length seq map]. rewrite rsum_cons, Nat.add_0_r. f_equal.
  rewrite IH, <- seq_shift, map_map. apply rsum_ext. intros i _. now rewrite Nat.add_succ_r.
Qed.
Lemma sum_from_seq {A} (w : nat -> dist A * nat -> R) ls : forall k, sum_from w k ls = rsum (map (fun i => w (k + i)%nat (nth i ls ([], O))) (seq 0 (length ls))).
Proof.
  induction ls as [|xs r IH]; intros k; [reflexivity|]. cbn [sum_from length seq map]. rewrite rsum_cons, Nat.add_0_r. f_equal.
  rewrite IH, <- seq_shift, map_map. apply rsum_ext. intros i _. now rewrite Nat.add_succ_r.
Qed.
