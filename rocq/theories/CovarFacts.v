(** Positive semidefinite kernels: factors, entrywise products, exponentials. *)
From Coq Require Import Reals Lra.
From Coquelicot Require Import Coquelicot.
From Verif Require Import Base CovarModel.
Open Scope R_scope.

(** ** Specification *)
(** Quadratic form of a kernel on the first [n] indices. *)
Definition form (n : nat) (K : nat -> nat -> R) (c : nat -> R) : R := rsum n (fun i => rsum n (fun j => c i * c j * K i j)).
Definition psd (n : nat) (K : nat -> nat -> R) : Prop := forall c, 0 <= form n K c.
Definition symm (n : nat) (K : nat -> nat -> R) : Prop := forall i j, (i < n)%nat -> (j < n)%nat -> K i j = K j i.
(** The kernel is the covariance of linear combinations of [m] uncorrelated numbers of unit variance. *)
Definition factored (n : nat) (K : nat -> nat -> R) : Prop := exists m L, forall i j, (i < n)%nat -> (j < n)%nat -> K i j = rsum m (fun k => L i k * L j k).

(** ** Sums *)
Lemma rsum_ext n f g : (forall i, (i < n)%nat -> f i = g i) -> rsum n f = rsum n g.
Proof. induction n as [|n IH]; intros H; cbn [rsum]; [reflexivity|]. rewrite IH, H; auto. Qed.
Lemma rsum_plus n f g : rsum n (fun i => f i + g i) = rsum n f + rsum n g.
Proof. induction n as [|n IH]; cbn [rsum]; [ring|]. rewrite IH. ring. Qed.
Lemma rsum_scal n a f : rsum n (fun i => a * f i) = a * rsum n f.
Proof. induction n as [|n IH]; cbn [rsum]; [ring|]. rewrite IH. ring. Qed.
Lemma rsum_scal_r n a f : rsum n (fun i => f i * a) = rsum n f * a.
Proof. induction n as [|n IH]; cbn [rsum]; [ring|]. rewrite IH. ring. Qed.
Lemma rsum_minus n f g : rsum n (fun i => f i - g i) = rsum n f - rsum n g.
Proof. induction n as [|n IH]; cbn [rsum]; [ring|]. rewrite IH. ring. Qed.
Lemma rsum_zero n : rsum n (fun _ => 0) = 0.
Proof. induction n as [|n IH]; cbn [rsum]; [ring|]. rewrite IH. ring. Qed.
Lemma rsum_ge0 n f : (forall i, (i < n)%nat -> 0 <= f i) -> 0 <= rsum n f.
Proof. induction n as [|n IH]; intros H; cbn [rsum]; [lra|]. specialize (IH (fun i Hi => H i (Nat.lt_trans _ _ _ Hi (Nat.lt_succ_diag_r n)))). specialize (H n (Nat.lt_succ_diag_r n)). lra. Qed.
Lemma rsum_swap n m f : rsum n (fun i => rsum m (fun j => f i j)) = rsum m (fun j => rsum n (fun i => f i j)).
Proof.
  induction n as [|n IH]; cbn [rsum]; [symmetry; apply rsum_zero|]. rewrite IH, <- rsum_plus. reflexivity.
Qed.
Lemma rsum_first n f : rsum (S n) f = f 0%nat + rsum n (fun i => f (S i)).
Proof. induction n as [|n IH]; cbn [rsum] in *; [ring|]. rewrite IH. ring. Qed.
Lemma rsum_prod n m f g : rsum n f * rsum m g = rsum n (fun i => rsum m (fun j => f i * g j)).
Proof. rewrite <- rsum_scal_r. apply rsum_ext. intros i _. symmetry. apply rsum_scal. Qed.

Lemma form_ext n K K' c : (forall i j, (i < n)%nat -> (j < n)%nat -> K i j = K' i j) -> form n K c = form n K' c.
Proof. intros H. unfold form. apply rsum_ext. intros i Hi. apply rsum_ext. intros j Hj. rewrite H; auto. Qed.
Lemma psd_ext n K K' : (forall i j, (i < n)%nat -> (j < n)%nat -> K i j = K' i j) -> psd n K -> psd n K'.
Proof. intros H P c. rewrite <- (form_ext n K K' c H). apply P. Qed.
Lemma form_plus n K K' c : form n (fun i j => K i j + K' i j) c = form n K c + form n K' c.
Proof. unfold form. rewrite <- rsum_plus. apply rsum_ext. intros i _. rewrite <- rsum_plus. apply rsum_ext. intros j _. ring. Qed.
Lemma form_scal n a K c : form n (fun i j => a * K i j) c = a * form n K c.
Proof. unfold form. rewrite <- rsum_scal. apply rsum_ext. intros i _. rewrite <- rsum_scal. apply rsum_ext. intros j _. ring. Qed.
(** Kernels of one factor. *)
Lemma form_one n (u : nat -> R) c : form n (fun i j => u i * u j) c = rsum n (fun i => c i * u i) ^ 2.
Proof.
  unfold form. replace (rsum n (fun i => c i * u i) ^ 2) with (rsum n (fun i => c i * u i) * rsum n (fun i => c i * u i)) by ring.
  rewrite rsum_prod. apply rsum_ext. intros i _. apply rsum_ext. intros j _. ring.
Qed.
Lemma form_twist n (u : nat -> R) K c : form n (fun i j => u i * u j * K i j) c = form n K (fun i => c i * u i).
Proof. unfold form. apply rsum_ext. intros i _. apply rsum_ext. intros j _. ring. Qed.

Lemma form_first n K c : symm (S n) K -> form (S n) K c =
  c 0%nat ^ 2 * K 0%nat 0%nat + 2 * c 0%nat * rsum n (fun i => c (S i) * K 0%nat (S i)) + form n (fun i j => K (S i) (S j)) (fun i => c (S i)).
Proof.
  intros Sy. unfold form. rewrite rsum_first. rewrite rsum_first.
  rewrite (rsum_ext n (fun i => rsum (S n) (fun j => c (S i) * c j * K (S i) j))
    (fun i => c (S i) * c 0%nat * K 0%nat (S i) + rsum n (fun j => c (S i) * c (S j) * K (S i) (S j)))).
  2: { intros i Hi. rewrite rsum_first. rewrite (Sy (S i) 0%nat) by lia. reflexivity. }
  rewrite rsum_plus.
  rewrite (rsum_ext n (fun i => c 0%nat * c (S i) * K 0%nat (S i)) (fun i => c 0%nat * (c (S i) * K 0%nat (S i)))) by (intros; ring).
  rewrite (rsum_ext n (fun i => c (S i) * c 0%nat * K 0%nat (S i)) (fun i => c 0%nat * (c (S i) * K 0%nat (S i)))) by (intros; ring).
  rewrite !rsum_scal. ring.
Qed.

Lemma form_zero_rest n K c i0 : (i0 < n)%nat -> (forall i, (i < n)%nat -> i <> i0 -> c i = 0) -> form n K c = c i0 ^ 2 * K i0 i0.
Proof.
  intros H Z. assert (S : forall f, rsum n (fun i => c i * f i) = c i0 * f i0).
  { intros f. clear K. revert H Z. induction n as [|n IH]; intros H Z; [lia|]. cbn [rsum].
    destruct (Nat.eq_dec i0 n) as [->|N].
    - rewrite (rsum_ext n _ (fun _ => 0)); [rewrite rsum_zero; ring|]. intros i Hi. rewrite Z by lia. ring.
    - rewrite IH by (try lia; intros; apply Z; lia). rewrite (Z n) by lia. ring. }
  unfold form. rewrite (rsum_ext n _ (fun i => c i * (c i0 * K i i0))).
  - rewrite S. ring.
  - intros i _. rewrite (rsum_ext n _ (fun j => c j * (c i * K i j))) by (intros; ring). rewrite S. ring.
Qed.

(** A row of a semidefinite kernel with zero on the diagonal is zero. *)
Lemma psd_zero_row n K : symm (S n) K -> psd (S n) K -> K 0%nat 0%nat = 0 -> forall j, (j < n)%nat -> K 0%nat (S j) = 0.
Proof.
  intros Sy P Z j Hj. destruct (Req_dec (K 0%nat (S j)) 0) as [E|N]; [exact E|exfalso].
  set (d := K (S j) (S j)). set (r := K 0%nat (S j)) in *.
  set (t := - (d + 1) / (2 * r)).
  pose (c := fun i => match i with O => t | S i' => if Nat.eq_dec i' j then 1 else 0 end).
  pose proof (P c) as Q. rewrite form_first in Q by exact Sy. rewrite Z in Q.
  assert (R1 : rsum n (fun i => c (S i) * K 0%nat (S i)) = r).
  { clear - Hj. unfold r. revert Hj. induction n as [|m IH]; intros H; [lia|]. cbn [rsum]. cbn [c].
    destruct (Nat.eq_dec m j) as [->|Nm].
    - rewrite (rsum_ext j _ (fun _ => 0)); [rewrite rsum_zero; ring|]. intros i Hi. destruct (Nat.eq_dec i j); [lia|]. ring.
    - cbn [c] in IH. rewrite IH by lia. ring. }
  rewrite R1 in Q.
  rewrite (form_zero_rest n _ (fun i => c (S i)) j) in Q.
  - cbn [c] in Q. destruct (Nat.eq_dec j j) as [_|]; [|congruence]. fold d in Q.
    assert (2 * t * r = - (d + 1)) by (unfold t; field; exact N). nra.
  - exact Hj.
  - intros i _ Ne. cbn [c]. destruct (Nat.eq_dec i j); [congruence|reflexivity].
Qed.

(** ** A semidefinite kernel has a factor *)
Theorem psd_factored n K : symm n K -> psd n K -> factored n K.
Proof.
  revert K. induction n as [|n IH]; intros K Sy P.
  { exists 0%nat, (fun _ _ => 0). intros i j H. lia. }
  set (k := K 0%nat 0%nat).
  assert (Pk : 0 <= k).
  { pose proof (P (fun i => if Nat.eq_dec i 0 then 1 else 0)) as Q. rewrite (form_zero_rest (S n) K _ 0%nat) in Q.
    - destruct (Nat.eq_dec 0 0); [fold k in Q; lra|congruence].
    - lia.
    - intros i _ Ne. destruct (Nat.eq_dec i 0); [congruence|reflexivity]. }
  destruct (Req_dec k 0) as [Z|NZ].
  - pose proof (psd_zero_row n K Sy P Z) as ZR.
    destruct (IH (fun i j => K (S i) (S j))) as (m & L & HL).
    + intros i j Hi Hj. apply Sy; lia.
    + intros c. pose (c' := fun i => match i with O => 0 | S i' => c i' end). pose proof (P c') as Q. rewrite form_first in Q by exact Sy.
      cbn [c'] in Q. change (fun i => c i) with c in Q. lra.
    + exists m, (fun i k => match i with O => 0 | S i' => L i' k end).
      intros [|i] [|j] Hi Hj.
      * fold k. rewrite Z. symmetry. rewrite (rsum_ext m _ (fun _ => 0)); [apply rsum_zero|intros; ring].
      * rewrite ZR by lia. symmetry. rewrite (rsum_ext m _ (fun _ => 0)); [apply rsum_zero|intros; ring].
      * rewrite Sy by lia. rewrite ZR by lia. symmetry. rewrite (rsum_ext m _ (fun _ => 0)); [apply rsum_zero|intros; ring].
      * apply HL; lia.
  - assert (Kp : 0 < k) by lra. set (s := sqrt k). assert (S2 : s * s = k) by (apply sqrt_sqrt; lra).
    assert (Sp : 0 < s) by (apply sqrt_lt_R0; exact Kp).
    set (r := fun i => K 0%nat i / s).
    destruct (IH (fun i j => K (S i) (S j) - r (S i) * r (S j))) as (m & L & HL).
    + intros i j Hi Hj. rewrite (Sy (S i) (S j)) by lia. ring.
    + intros c. set (w := rsum n (fun i => c i * K 0%nat (S i))).
      pose (c' := fun i => match i with O => - w / k | S i' => c i' end). pose proof (P c') as Q. rewrite form_first in Q by exact Sy.
      cbn [c'] in Q. fold w in Q. fold k in Q.
      replace (form n (fun i j => K (S i) (S j) - r (S i) * r (S j)) c) with (form n (fun i j => K (S i) (S j)) c - w ^ 2 / k).
      * replace ((- w / k) ^ 2 * k + 2 * (- w / k) * w) with (- (w ^ 2 / k)) in Q by (field; lra).
        change (fun i => c i) with c in Q. lra.
      * transitivity (form n (fun i j => K (S i) (S j)) c + (-1) * form n (fun i j => r (S i) * r (S j)) c).
        -- rewrite (form_one n (fun i => r (S i)) c). 
           rewrite (rsum_ext n (fun i => c i * r (S i)) (fun i => c i * K 0%nat (S i) * / s)) by (intros; unfold r; field; lra).
           rewrite rsum_scal_r. fold w. rewrite <- S2. field. lra.
        -- rewrite <- form_scal, <- form_plus. apply form_ext. intros. ring.
    + exists (S m), (fun i q => match q with O => r i | S q' => match i with O => 0 | S i' => L i' q' end end).
      assert (R0 : r 0%nat = s) by (unfold r; fold k; rewrite <- S2; field; lra).
      intros i j Hi Hj. rewrite rsum_first. destruct i as [|i], j as [|j].
      * rewrite (rsum_ext m _ (fun _ => 0)) by (intros; ring). rewrite rsum_zero, R0. fold k. lra.
      * rewrite (rsum_ext m _ (fun _ => 0)) by (intros; ring). rewrite rsum_zero, R0. unfold r. field. lra.
      * rewrite (rsum_ext m _ (fun _ => 0)) by (intros; ring). rewrite rsum_zero, R0, (Sy (S i) 0%nat) by lia. unfold r. field. lra.
      * rewrite <- HL by lia. ring.
Qed.

(** A kernel with a factor is semidefinite. *)
Theorem factored_psd n K : factored n K -> psd n K.
Proof.
  intros (m & L & H) c. rewrite (form_ext n K (fun i j => rsum m (fun k => L i k * L j k)) c H).
  replace (form n (fun i j => rsum m (fun k => L i k * L j k)) c) with (rsum m (fun k => rsum n (fun i => c i * L i k) ^ 2)).
  - apply rsum_ge0. intros k _. apply pow2_ge_0.
  - unfold form. symmetry.
    rewrite (rsum_ext n _ (fun i => rsum m (fun k => rsum n (fun j => c i * L i k * (c j * L j k))))).
    2: { intros i _. rewrite <- rsum_swap. apply rsum_ext. intros j _. rewrite <- rsum_scal. apply rsum_ext. intros k _. ring. }
    rewrite rsum_swap. apply rsum_ext. intros k _. rewrite <- rsum_prod. ring.
Qed.

(** ** Entrywise products and exponentials *)
Lemma psd_product n K M : symm n K -> psd n K -> psd n M -> psd n (fun i j => K i j * M i j).
Proof.
  intros Sy P PM c. destruct (psd_factored n K Sy P) as (m & L & H).
  rewrite (form_ext n _ (fun i j => rsum m (fun k => L i k * L j k) * M i j)) by (intros; rewrite H by assumption; reflexivity).
  replace (form n (fun i j => rsum m (fun k => L i k * L j k) * M i j) c) with (rsum m (fun k => form n M (fun i => c i * L i k))).
  - apply rsum_ge0. intros k _. apply PM.
  - unfold form. rewrite rsum_swap. apply rsum_ext. intros i _. rewrite rsum_swap. apply rsum_ext. intros j _.
    rewrite <- rsum_scal_r, <- rsum_scal. apply rsum_ext. intros k _. ring.
Qed.

Lemma psd_power n K m : symm n K -> psd n K -> psd n (fun i j => K i j ^ m).
Proof.
  intros Sy P. induction m as [|m IH].
  - intros c. rewrite (form_ext n _ (fun i j => 1 * 1)) by (intros; cbn; ring). rewrite (form_one n (fun _ => 1)). apply pow2_ge_0.
  - cbn [pow]. apply psd_product; assumption.
Qed.

Lemma psd_limit n (K : nat -> nat -> R) (Kq : nat -> nat -> nat -> R) :
  (forall q, psd n (Kq q)) -> (forall i j, (i < n)%nat -> (j < n)%nat -> is_lim_seq (fun q => Kq q i j) (K i j)) -> psd n K.
Proof.
  intros P L c.
  assert (SL : forall m (f : nat -> nat -> R) (g : nat -> R), (m <= n)%nat -> (forall i, (i < m)%nat -> is_lim_seq (fun q => f q i) (g i)) -> is_lim_seq (fun q => rsum m (f q)) (rsum m g)).
  { induction m as [|m IH]; intros f g Hm H; cbn [rsum]; [apply is_lim_seq_const|].
    apply is_lim_seq_plus'; [apply IH; [lia|intros i Hi; apply H; lia]|apply H; lia]. }
  assert (FL : is_lim_seq (fun q => form n (Kq q) c) (form n K c)).
  { unfold form. apply SL; [lia|]. intros i Hi. apply SL; [lia|]. intros j Hj.
    apply (is_lim_seq_scal_l (fun q => Kq q i j) (c i * c j) (K i j)). apply L; assumption. }
  apply (is_lim_seq_le (fun _ => 0) (fun q => form n (Kq q) c) 0 (form n K c)); [intros q; apply P|apply is_lim_seq_const|exact FL].
Qed.

Lemma exp_lim x : is_lim_seq (fun q => rsum q (fun m => / INR (fact m) * x ^ m)) (exp x).
Proof.
  apply is_lim_seq_Reals. intros eps He. 
  unfold exp. destruct (exist_exp x) as [l Hl]. cbn [proj1_sig].
  unfold exp_in, infinite_sum in Hl. destruct (Hl eps He) as [N HN]. exists (S N). intros q Hq. destruct q as [|q]; [lia|].
  specialize (HN q ltac:(lia)). 
  replace (rsum (S q) (fun m => / INR (fact m) * x ^ m)) with (sum_f_R0 (fun i => / INR (fact i) * x ^ i) q); [exact HN|].
  clear. induction q as [|q IH]; cbn [sum_f_R0 rsum]; [cbn; ring|]. rewrite IH. cbn [rsum]. ring.
Qed.

Lemma psd_exp n K : symm n K -> psd n K -> psd n (fun i j => exp (K i j)).
Proof.
  intros Sy P. apply (psd_limit n _ (fun q i j => rsum q (fun m => / INR (fact m) * K i j ^ m))).
  - intros q c. replace (form n (fun i j => rsum q (fun m => / INR (fact m) * K i j ^ m)) c) with (rsum q (fun m => / INR (fact m) * form n (fun i j => K i j ^ m) c)).
    + apply rsum_ge0. intros m _. apply Rmult_le_pos; [left; apply Rinv_0_lt_compat, INR_fact_lt_0|apply psd_power; assumption].
    + induction q as [|q IH]; cbn [rsum].
      * unfold form. symmetry. rewrite (rsum_ext n _ (fun _ => 0)); [apply rsum_zero|]. intros i _. rewrite (rsum_ext n _ (fun _ => 0)); [apply rsum_zero|]. intros; ring.
      * rewrite IH, <- form_scal, <- form_plus. reflexivity.
  - intros i j _ _. apply exp_lim.
Qed.

(** ** Conditionally negative kernels *)
Definition cnd (n : nat) (K : nat -> nat -> R) : Prop := forall c, rsum n c = 0 -> form n K c <= 0.

Lemma cnd_exp n K s : symm n K -> (forall i, (i < n)%nat -> K i i = 0) -> cnd n K -> 0 <= s -> psd n (fun i j => exp (- (s * K i j))).
Proof.
  intros Sy D N Hs. destruct n as [|n]; [intros c; unfold form; cbn; lra|].
  set (G := fun i j => K i 0%nat + K 0%nat j - K i j).
  assert (SG : symm (S n) G) by (intros i j Hi Hj; unfold G; rewrite (Sy i j), (Sy i 0%nat), (Sy 0%nat j) by lia; ring).
  assert (PG : psd (S n) G).
  { intros c. set (t := rsum (S n) c). set (w := rsum (S n) (fun i => c i * K i 0%nat)).
    pose (c' := fun i => match i with O => c 0%nat - t | S _ => c i end).
    assert (T0 : rsum (S n) c' = 0). { rewrite rsum_first. unfold c', t. rewrite (rsum_first n c). ring. }
    pose proof (N c' T0) as Q.
    assert (EG : form (S n) G c = 2 * t * w - form (S n) K c).
    { transitivity (form (S n) (fun i j => K i 0%nat) c + form (S n) (fun i j => K 0%nat j) c + (-1) * form (S n) K c).
      - rewrite <- form_scal, <- !form_plus. apply form_ext. intros; unfold G; ring.
      - assert (A : form (S n) (fun i j => K i 0%nat) c = t * w).
        { unfold form, w, t. rewrite Rmult_comm. rewrite rsum_prod. apply rsum_ext. intros i _. apply rsum_ext. intros j _. ring. }
        assert (B : form (S n) (fun i j => K 0%nat j) c = t * w).
        { unfold form, w, t. rewrite rsum_prod. apply rsum_ext. intros i _. apply rsum_ext. intros j Hj. rewrite (Sy j 0%nat) by lia. ring. }
        rewrite A, B. ring. }
    assert (E' : form (S n) K c' = form (S n) K c - 2 * t * w).
    { rewrite !form_first by exact Sy. cbn [c']. rewrite (D 0%nat) by lia. 
      unfold w. rewrite rsum_first. rewrite (D 0%nat) by lia.
      rewrite (rsum_ext n (fun i => c (S i) * K (S i) 0%nat) (fun i => c (S i) * K 0%nat (S i))) by (intros; rewrite (Sy (S i) 0%nat) by lia; reflexivity). ring. }
    lra. }
  apply (psd_ext (S n) (fun i j => exp (- (s * K i 0%nat)) * exp (- (s * K j 0%nat)) * exp (s * G i j))).
  - intros i j Hi Hj. rewrite <- !exp_plus. f_equal. unfold G. rewrite (Sy 0%nat j) by lia. ring.
  - intros c. rewrite (form_twist (S n) (fun i => exp (- (s * K i 0%nat)))). apply psd_exp.
    + intros i j Hi Hj. rewrite (SG i j) by assumption. reflexivity.
    + intros d. rewrite form_scal. apply Rmult_le_pos; [exact Hs|apply PG].
Qed.
