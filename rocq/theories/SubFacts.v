(** Expected values for hypergeometric sizes and uniform draws. *)
From Coq Require Import Reals Lra.
From Verif Require Import Base BaseFacts NumModel NumFacts EstimateSpec ProbSpec ProbFacts SubModel.
Local Open Scope R_scope.

(** * Binomial coefficients *)
Lemma binom_0 n : binom n 0 = 1%nat. Proof. destruct n; reflexivity. Qed.
Lemma binom_S n k : binom (S n) (S k) = (binom n k + binom n (S k))%nat. Proof. reflexivity. Qed.
Lemma binom_big n : forall k, (n < k)%nat -> binom n k = O.
Proof. induction n as [|n IH]; intros [|k] H; try lia; [reflexivity|]. rewrite binom_S, !IH by lia. reflexivity. Qed.
Lemma binom_pos n : forall k, (k <= n)%nat -> (0 < binom n k)%nat.
Proof. induction n as [|n IH]; intros [|k] H; try lia; [cbn; lia|cbn; lia|]. rewrite binom_S. specialize (IH k ltac:(lia)). lia. Qed.
Lemma binom_n n : binom n n = 1%nat.
Proof. induction n as [|n IH]; [reflexivity|]. rewrite binom_S, IH, binom_big by lia. reflexivity. Qed.
Lemma binom_absorb n : forall k, (S k * binom (S n) (S k) = S n * binom n k)%nat.
Proof.
  induction n as [|n IH]; intros [|k].
  - reflexivity. - rewrite binom_S, (binom_big 0 (S k)), (binom_big 0 (S (S k))) by lia. lia.
  - rewrite binom_S, !binom_0. specialize (IH O). rewrite binom_0 in IH. lia.
  - rewrite (binom_S (S n) (S k)). rewrite Nat.mul_add_distr_l. rewrite (IH (S k)). pose proof (IH k) as H.
    replace (S (S k) * binom (S n) (S k))%nat with (S k * binom (S n) (S k) + binom (S n) (S k))%nat by lia. rewrite H.
    rewrite (binom_S n k). lia.
Qed.

(** * Sums over 0 ... m *)
Fixpoint nsum_to (f : nat -> nat) (m : nat) : nat := match m with O => f O | S m' => (nsum_to f m' + f m)%nat end.
Lemma nsum_to_ext f g m : (forall j, (j <= m)%nat -> f j = g j) -> nsum_to f m = nsum_to g m.
Proof. induction m as [|m IH]; intros H; cbn; [now apply H|]. rewrite IH, (H (S m)) by (intros; try apply H; lia). reflexivity. Qed.
Lemma nsum_to_add f g m : nsum_to (fun j => f j + g j)%nat m = (nsum_to f m + nsum_to g m)%nat.
Proof. induction m as [|m IH]; cbn; [reflexivity|]. rewrite IH. lia. Qed.
Lemma nsum_to_mul c f m : nsum_to (fun j => c * f j)%nat m = (c * nsum_to f m)%nat.
Proof. induction m as [|m IH]; cbn; [reflexivity|]. rewrite IH. lia. Qed.
Lemma nsum_to_shift f m : nsum_to f (S m) = (f O + nsum_to (fun j => f (S j)) m)%nat.
Proof. induction m as [|m IH]; [reflexivity|]. change (nsum_to f (S (S m))) with (nsum_to f (S m) + f (S (S m)))%nat. rewrite IH. cbn. lia. Qed.
Lemma nsum_to_zero f m : (forall j, (j <= m)%nat -> f j = O) -> nsum_to f m = O.
Proof. induction m as [|m IH]; intros H; cbn; [now apply H|]. rewrite IH, H by (intros; try apply H; lia). reflexivity. Qed.

(** Vandermonde. *)
Lemma vandermonde a b : forall m, nsum_to (fun j => binom a j * binom b (m - j))%nat m = binom (a + b) m.
Proof.
  induction a as [|a IH]; intros m.
  - destruct m as [|m]; [cbn; now rewrite !binom_0|]. rewrite nsum_to_shift, nsum_to_zero; [rewrite binom_0, Nat.sub_0_r; cbn; lia|]. intros j _. now rewrite (binom_big 0) by lia.
  - destruct m as [|m]; [cbn [nsum_to]; now rewrite !binom_0|]. rewrite nsum_to_shift.
    rewrite (nsum_to_ext _ (fun j => binom a j * binom b (m - j) + binom a (S j) * binom b (m - j))%nat) by (intros j _; rewrite binom_S; cbn [Nat.sub]; lia).
    rewrite nsum_to_add, IH. cbn [Nat.add]. rewrite binom_S. rewrite <- (IH (S m)), nsum_to_shift, !binom_0. cbn [Nat.sub]. lia.
Qed.
Lemma vandermonde_mean a b m : nsum_to (fun j => j * (binom (S a) j * binom b (S m - j)))%nat (S m) = (S a * binom (a + b) m)%nat.
Proof.
  rewrite nsum_to_shift. rewrite (nsum_to_ext _ (fun j => S a * (binom a j * binom b (m - j)))%nat).
  - rewrite nsum_to_mul, vandermonde. lia.
  - intros j _. rewrite Nat.mul_assoc, binom_absorb. cbn [Nat.sub]. lia.
Qed.

(** * The hypergeometric law *)
Lemma rsum_seq (f : nat -> R) m : forall g : nat -> nat, (forall j, (j <= m)%nat -> f j = INR (g j)) -> rsum (map f (seq 0 (S m))) = INR (nsum_to g m).
Proof.
  intros g H. induction m as [|m IH].
  - cbn. rewrite (H O) by lia. ring.
  - rewrite seq_S, map_app, rsum_app, IH by (intros; apply H; lia). cbn [map Nat.add nsum_to]. rewrite plus_INR, (H (S m)) by lia. cbn. ring.
Qed.
Lemma expect_hyper n k m (f : nat -> R) : expect (hypergeom n k m) f = rsum (map (fun j => INR (binom k j * binom (n - k) (m - j)) * f j) (seq 0 (S m))) / INR (binom n m).
Proof.
  unfold expect, hypergeom. rewrite map_map. cbn [fst snd]. generalize (seq 0 (S m)). intros l. induction l as [|j l IH]; [cbn; unfold Rdiv; ring|].
  cbn [map]. rewrite !rsum_cons, IH. unfold Rdiv. ring.
Qed.
Lemma binom_INR n m : (m <= n)%nat -> INR (binom n m) <> 0.
Proof. intros H. apply not_0_INR. pose proof (binom_pos n m H). lia. Qed.
Lemma hyper_proper n k m : (k <= n)%nat -> (m <= n)%nat -> proper (hypergeom n k m).
Proof.
  intros Hk Hm. split.
  - intros p x H. unfold hypergeom in H. apply in_map_iff in H as (j & E & _). injection E as <- _. apply Rle_mult_inv_pos; [apply pos_INR|].
    apply lt_0_INR. now apply binom_pos.
  - assert (E : rsum (map fst (hypergeom n k m)) = expect (hypergeom n k m) (fun _ => 1)) by (unfold expect; apply rsum_ext; intros; ring). rewrite E, expect_hyper.
    rewrite (rsum_seq _ m (fun j => binom k j * binom (n - k) (m - j))%nat) by (intros; ring). rewrite vandermonde. replace (k + (n - k))%nat with n by lia.
    field. now apply binom_INR.
Qed.
Lemma hyper_mean n k m : (k <= n)%nat -> (m <= n)%nat -> INR n * expect (hypergeom n k m) INR = INR k * INR m.
Proof.
  intros Hk Hm. rewrite expect_hyper. rewrite (rsum_seq _ m (fun j => j * (binom k j * binom (n - k) (m - j)))%nat) by (intros; rewrite !mult_INR; ring).
  destruct k as [|a]; [|destruct m as [|m]].
  - rewrite nsum_to_zero; [cbn [INR]; unfold Rdiv; ring|]. intros [|j] _; [reflexivity|]. rewrite (binom_big 0) by lia. lia.
  - cbn [nsum_to]. cbn [INR Nat.mul]. unfold Rdiv. ring.
  - rewrite vandermonde_mean. destruct n as [|n]; [lia|]. replace (a + (S n - S a))%nat with n by lia.
    pose proof (binom_absorb n m) as H. assert (H' : INR (S m) * INR (binom (S n) (S m)) = INR (S n) * INR (binom n m)) by (rewrite <- !mult_INR; now rewrite H).
    rewrite mult_INR. assert (N : INR (binom (S n) (S m)) <> 0) by now apply binom_INR.
    apply (Rmult_eq_reg_r (INR (binom (S n) (S m)))); [|exact N]. rewrite (Rmult_assoc (INR (S a)) (INR (S m))), H'. field. exact N.
Qed.
(** Numbers outside the support have probability 0. *)
Lemma hyper_support n k m p j : (k <= n)%nat -> In (p, j) (hypergeom n k m) -> p <> 0 -> (k + m <= n + j /\ j <= k /\ j <= m)%nat.
Proof.
  intros Hk H Hp. unfold hypergeom in H. apply in_map_iff in H as (j' & E & Hj). apply in_seq in Hj. injection E as E ->.
  destruct (le_lt_dec j k) as [H1|H1]. 2:{ exfalso. apply Hp. rewrite <- E, (binom_big k j) by lia. cbn [Nat.mul INR]. unfold Rdiv. ring. }
  destruct (le_lt_dec (m - j) (n - k)) as [H2|H2]. 2:{ exfalso. apply Hp. rewrite <- E, (binom_big (n - k) (m - j)) by lia. rewrite Nat.mul_0_r. cbn [INR]. unfold Rdiv. ring. }
  lia.
Qed.
(** All items taken: all marked ones are among them. *)
Lemma hyper_all n k f : (k <= n)%nat -> expect (hypergeom n k n) f = f k.
Proof.
  intros Hk. rewrite expect_hyper, binom_n. rewrite (rsum_ext _ (fun j => if Nat.eqb j k then f k else 0)).
  - assert (E : forall a l, (a <= k < a + l)%nat -> rsum (map (fun j => if Nat.eqb j k then f k else 0) (seq a l)) = f k).
    { intros a l. revert a. induction l as [|l IH]; intros a H; [lia|]. cbn [seq map]. rewrite rsum_cons. destruct (Nat.eqb_spec a k) as [->|N].
      - rewrite (rsum_ext _ (fun _ => 0)); [|intros j Hj; apply in_seq in Hj; destruct (Nat.eqb_spec j k); [lia|reflexivity]].
        assert (Z : forall l' : list nat, rsum (map (fun _ => 0) l') = 0) by (induction l' as [|? ? IH']; [reflexivity|cbn [map]; rewrite rsum_cons, IH'; ring]). rewrite Z. ring.
      - rewrite IH by lia. ring. }
    rewrite E by lia. cbn [INR]. field.
  - intros j Hj. apply in_seq in Hj. destruct (Nat.eqb_spec j k) as [->|N].
    + rewrite !binom_n. cbn [Nat.mul Nat.add INR]. ring.
    + destruct (Nat.lt_trichotomy j k) as [H|[H|H]]; [|lia|].
      * rewrite (binom_big (n - k)) by lia. rewrite Nat.mul_0_r. cbn [INR]. ring.
      * rewrite (binom_big k j) by lia. cbn [Nat.mul INR]. ring.
Qed.

(** * Dependent experiments *)
Lemma expect_map {A B} (d : dist A) (h : A -> B) (f : B -> R) : expect (map (fun o => (fst o, h (snd o))) d) f = expect d (fun x => f (h x)).
Proof. unfold expect. rewrite map_map. reflexivity. Qed.
Lemma expect_weight {A} (c : R) (d : dist A) f : expect (map (fun o => (c * fst o, snd o)) d) f = c * expect d f.
Proof. induction d as [|[p x] d IH]; cbn [map]; rewrite ?expect_nil, ?expect_cons; [ring|]. rewrite IH. cbn [fst snd]. ring. Qed.
Lemma expect_after {A B} (d : dist A) (h : A -> dist B) f : expect (after d h) f = expect d (fun x => expect (h x) f).
Proof.
  induction d as [|[p x] d IH]; [reflexivity|]. unfold after in *. cbn [flat_map]. rewrite expect_app, IH, expect_cons, expect_weight. reflexivity.
Qed.
Lemma after_in {A B} (d : dist A) (h : A -> dist B) p y : In (p, y) (after d h) -> exists p1 x p2, In (p1, x) d /\ In (p2, y) (h x) /\ p = p1 * p2.
Proof.
  intros H. unfold after in H. apply in_flat_map in H as ([p1 x] & H1 & H2). apply in_map_iff in H2 as ([p2 y'] & E & H2). injection E as <- <-.
  exists p1, x, p2. auto.
Qed.
Lemma after_proper {A B} (d : dist A) (h : A -> dist B) : proper d -> (forall p x, In (p, x) d -> p <> 0 -> proper (h x)) -> (forall p x q y, In (p, x) d -> In (q, y) (h x) -> 0 <= q) ->
  proper (after d h).
Proof.
  intros [Hd Hs] Hh Hq. split.
  - intros p y H. apply after_in in H as (p1 & x & p2 & H1 & H2 & ->). apply Rmult_le_pos; eauto.
  - assert (E : forall T (e : dist T), rsum (map fst e) = expect e (fun _ => 1)) by (intros; unfold expect; apply rsum_ext; intros; ring).
    rewrite E, expect_after. transitivity (rsum (map fst d)); [|exact Hs]. unfold expect at 1. apply rsum_ext. intros [p x] Hin. cbn [fst snd].
    destruct (Req_dec p 0) as [->|N]; [ring|]. rewrite <- E. destruct (Hh p x Hin N) as [_ ->]. ring.
Qed.
(** Only outcomes of positive probability matter. *)
Lemma expect_ext0 {A} (d : dist A) (f g : A -> R) : (forall p x, In (p, x) d -> p <> 0 -> f x = g x) -> expect d f = expect d g.
Proof. intros H. unfold expect. apply rsum_ext. intros [p x] Hp. cbn [fst snd]. destruct (Req_dec p 0) as [->|N]; [ring|]. now rewrite (H p x Hp N). Qed.

(** * Uniform draws *)
Lemma expect_uniform {X} (c : list X) (g : X -> R) : expect (uniform c) g = rsum (map g c) / INR (length c).
Proof.
  unfold uniform. generalize (INR (length c)). intros z. induction c as [|x c IH]; [cbn; unfold Rdiv; ring|]. cbn [map]. rewrite expect_cons, IH, rsum_cons. unfold Rdiv. ring.
Qed.
Lemma uniform_proper {X} (c : list X) : c <> [] -> proper (uniform c).
Proof.
  intros N. assert (P : 0 < INR (length c)) by (apply lt_0_INR; destruct c; [contradiction|cbn; lia]). split.
  - intros p x H. unfold uniform in H. apply in_map_iff in H as (y & E & _). injection E as <- _. left. now apply Rinv_0_lt_compat.
  - assert (E : rsum (map fst (uniform c)) = expect (uniform c) (fun _ => 1)) by (unfold expect; apply rsum_ext; intros; ring). rewrite E, expect_uniform.
    assert (Z : forall l : list X, rsum (map (fun _ => 1) l) = INR (length l)).
    { induction l as [|? ? IH]; [reflexivity|]. cbn [map length]. rewrite rsum_cons, IH, S_INR. ring. }
    rewrite Z. field. lra.
Qed.
Lemma draws_nonneg {X} (c : list X) size : forall q xs, In (q, xs) (draws (uniform c) size) -> 0 <= q.
Proof.
  induction size as [|size IH]; intros q xs H; cbn [draws] in H; [destruct H as [H|[]]; injection H as <- _; lra|].
  apply joint_in in H as (p1 & x & p2 & y & H1 & H2 & _ & ->). apply Rmult_le_pos; [|eauto]. unfold uniform in H1. apply in_map_iff in H1 as (z & E & Hz). injection E as <- _.
  left. apply Rinv_0_lt_compat, lt_0_INR. destruct c; [destruct Hz|cbn; lia].
Qed.
