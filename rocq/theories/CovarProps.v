(** Covariance matrices of correlated fields: C193, C194. *)
From Coq Require Import Reals Lra.
From Coquelicot Require Import Coquelicot.
From Verif Require Import Base CovarModel CovarFacts CovarPow.
Open Scope R_scope.

(** The correlation tensor has no negative values of its quadratic form. *)
Definition tensor_ok (dim : nat) (aniso : option (nat -> nat -> R)) : Prop :=
  match aniso with None => True | Some K => psd dim K end.

Lemma len_sqr_form d T (v : nat -> R) : rsum d (fun l => rsum d (fun k => v k * T k l) * v l) = form d T v.
Proof.
  unfold form. rewrite rsum_swap. apply rsum_ext. intros l _. rewrite <- rsum_scal_r. apply rsum_ext. intros k _. ring.
Qed.

Lemma cov_form f points i j : cov_matrix f points i j = exp (- power (form (f_dim f) (f_tensor f) (fun k => points j k - points i k)) (f_exponent f / 2)).
Proof. unfold cov_matrix. rewrite (len_sqr_form (f_dim f) (f_tensor f) (fun k => points j k - points i k)). reflexivity. Qed.

Lemma form_opp d T v w : (forall k, v k = - w k) -> form d T v = form d T w.
Proof. intros H. unfold form. apply rsum_ext. intros i _. apply rsum_ext. intros j _. rewrite !H. ring. Qed.
Lemma form_null d T v : (forall k, v k = 0) -> form d T v = 0.
Proof.
  intros H. unfold form. rewrite (rsum_ext d _ (fun _ => 0)); [apply rsum_zero|]. intros i _.
  rewrite (rsum_ext d _ (fun _ => 0)); [apply rsum_zero|]. intros j _. rewrite H. ring.
Qed.

(** Squared distances are conditionally negative. *)
Lemma distance_cnd n d T (p : nat -> nat -> R) : psd d T -> cnd n (fun i j => form d T (fun k => p j k - p i k)).
Proof.
  intros P c C0.
  assert (A : forall k l, form n (fun i j => (p j k - p i k) * (p j l - p i l)) c = -2 * (rsum n (fun i => c i * p i k) * rsum n (fun i => c i * p i l))).
  { intros k l.
    transitivity (form n (fun i j => p j k * p j l) c + form n (fun i j => p i k * p i l) c + (-1) * form n (fun i j => p j k * p i l) c + (-1) * form n (fun i j => p i k * p j l) c).
    { rewrite <- !form_scal, <- !form_plus. apply form_ext. intros; ring. }
    assert (E1 : form n (fun i j => p j k * p j l) c = 0).
    { unfold form. transitivity (rsum n c * rsum n (fun j => c j * (p j k * p j l))); [|rewrite C0; ring].
      rewrite rsum_prod. apply rsum_ext. intros i _. apply rsum_ext. intros j _. ring. }
    assert (E2 : form n (fun i j => p i k * p i l) c = 0).
    { unfold form. transitivity (rsum n (fun i => c i * (p i k * p i l)) * rsum n c); [|rewrite C0; ring].
      rewrite rsum_prod. apply rsum_ext. intros i _. apply rsum_ext. intros j _. ring. }
    assert (E3 : form n (fun i j => p j k * p i l) c = rsum n (fun i => c i * p i k) * rsum n (fun i => c i * p i l)).
    { unfold form. rewrite Rmult_comm, rsum_prod. apply rsum_ext. intros i _. apply rsum_ext. intros j _. ring. }
    assert (E4 : form n (fun i j => p i k * p j l) c = rsum n (fun i => c i * p i k) * rsum n (fun i => c i * p i l)).
    { unfold form. rewrite rsum_prod. apply rsum_ext. intros i _. apply rsum_ext. intros j _. ring. }
    rewrite E1, E2, E3, E4. ring. }
  assert (E : form n (fun i j => form d T (fun k => p j k - p i k)) c = rsum d (fun k => rsum d (fun l => T k l * form n (fun i j => (p j k - p i k) * (p j l - p i l)) c))).
  { transitivity (rsum n (fun i => rsum n (fun j => rsum d (fun k => rsum d (fun l => T k l * (c i * c j * ((p j k - p i k) * (p j l - p i l)))))))).
    { unfold form. apply rsum_ext. intros i _. apply rsum_ext. intros j _. rewrite <- rsum_scal. apply rsum_ext. intros k _. rewrite <- rsum_scal. apply rsum_ext. intros l _. ring. }
    rewrite (rsum_ext n _ (fun i => rsum d (fun k => rsum n (fun j => rsum d (fun l => T k l * (c i * c j * ((p j k - p i k) * (p j l - p i l)))))))) by (intros; apply rsum_swap).
    rewrite rsum_swap. apply rsum_ext. intros k _.
    rewrite (rsum_ext n _ (fun i => rsum d (fun l => rsum n (fun j => T k l * (c i * c j * ((p j k - p i k) * (p j l - p i l))))))) by (intros; apply rsum_swap).
    rewrite rsum_swap. apply rsum_ext. intros l _. unfold form. rewrite <- rsum_scal. apply rsum_ext. intros i _. rewrite <- rsum_scal. reflexivity. }
  rewrite E. set (w := fun k => rsum n (fun i => c i * p i k)).
  rewrite (rsum_ext d _ (fun k => rsum d (fun l => -2 * (w k * w l * T k l)))).
  2: { intros k _. apply rsum_ext. intros l _. rewrite A. unfold w. ring. }
  rewrite (rsum_ext d _ (fun k => -2 * rsum d (fun l => w k * w l * T k l))) by (intros; apply rsum_scal).
  rewrite rsum_scal. pose proof (P w) as Q. unfold form in Q. lra.
Qed.

Lemma identity_psd d L : psd d (fun i j => (if (i =? j)%nat then 1 else 0) * (1 / (L ^ 2))).
Proof.
  assert (G : 0 <= 1 / L ^ 2).
  { unfold Rdiv. rewrite Rmult_1_l. destruct (Req_dec L 0) as [->|N]; [|left; apply Rinv_0_lt_compat; nra].
    replace (0 ^ 2) with 0 by ring. rewrite Rinv_0. lra. }
  intros c. unfold form. apply rsum_ge0. intros i Hi.
  rewrite (rsum_ext d _ (fun j => (if (i =? j)%nat then c i * c j else 0) * (1 / L ^ 2))).
  2: { intros j _. destruct (i =? j)%nat; ring. }
  rewrite rsum_scal_r. apply Rmult_le_pos; [|exact G]. apply rsum_ge0. intros j _.
  destruct (Nat.eqb_spec i j) as [->|]; [|lra]. nra.
Qed.

Lemma power_ge0 x e : 0 <= power x e.
Proof. unfold power. destruct (Req_EM_T x 0); [lra|left; apply exp_pos]. Qed.

(** Positive exponents up to two. *)
Lemma kernel_psd n d T e (p : nat -> nat -> R) : psd d T -> 0 < e <= 2 ->
  psd n (fun i j => exp (- power (form d T (fun k => p j k - p i k)) (e / 2))).
Proof.
  intros P He. set (D := fun i j => form d T (fun k => p j k - p i k)).
  assert (Sy : symm n D) by (intros i j _ _; apply form_opp; intros k; ring).
  assert (Z : forall i, (i < n)%nat -> D i i = 0) by (intros i _; apply form_null; intros k; ring).
  assert (N : cnd n D) by (apply distance_cnd; exact P).
  assert (G : forall i j, (i < n)%nat -> (j < n)%nat -> 0 <= D i j) by (intros i j _ _; apply P).
  assert (Q : cnd n (fun i j => power (D i j) (e / 2))).
  { destruct (Req_dec e 2) as [->|Ne].
    - intros c C0. rewrite (form_ext n _ D); [apply N; exact C0|]. intros i j Hi Hj. unfold power.
      destruct (Req_EM_T (D i j) 0) as [E|E]; [lra|]. replace (2 / 2) with 1 by field. apply Rpower_1. pose proof (G i j Hi Hj). lra.
    - apply cnd_power; try assumption. lra. }
  apply (psd_ext n (fun i j => exp (- (1 * power (D i j) (e / 2))))).
  - intros i j _ _. rewrite Rmult_1_l. reflexivity.
  - apply (cnd_exp n (fun i j => power (D i j) (e / 2)) 1); [| |exact Q|lra].
    + intros i j Hi Hj. rewrite (Sy i j) by assumption. reflexivity.
    + intros i Hi. rewrite (Z i Hi). unfold power. destruct (Req_EM_T 0 0); [reflexivity|congruence].
Qed.

Lemma make_field_tensor e dim L aniso f : make_field e dim L aniso = Ok f -> tensor_ok dim aniso -> f_dim f = dim /\ psd (f_dim f) (f_tensor f).
Proof.
  unfold make_field. destruct aniso as [K|].
  - intros E H. injection E as <-. cbn. auto.
  - destruct (Rlt_dec float_eps L); [|discriminate]. intros E _. injection E as <-. cbn [f_dim f_tensor]. split; [reflexivity|apply identity_psd].
Qed.

(** C193: the matrix computed for any points is the covariance of some random vector. This holds if the exponent is at most two,
    in particular for the two named functions. Missing: exponents above two, for which it is false. *)
Theorem C193_covariance_partial e dim L aniso f n points : make_field e dim L aniso = Ok f -> tensor_ok dim aniso ->
  match e with Number x => 0 < x <= 2 | _ => True end ->
  factored n (cov_matrix f points) /\ psd n (cov_matrix f points) /\ forall i, cov_matrix f points i i = 1.
Proof.
  intros E T X. destruct (make_field_tensor e dim L aniso f E T) as [_ P].
  assert (B : 0 < f_exponent f <= 2).
  { unfold make_field in E. destruct aniso as [K|]; [|destruct (Rlt_dec float_eps L); [|discriminate]]; injection E as <-; cbn [f_exponent]; destruct e; lra. }
  assert (Q : psd n (cov_matrix f points)).
  { apply (psd_ext n (fun i j => exp (- power (form (f_dim f) (f_tensor f) (fun k => points j k - points i k)) (f_exponent f / 2)))).
    - intros i j _ _. symmetry. apply cov_form.
    - apply kernel_psd; assumption. }
  split; [|split; [exact Q|]].
  - apply psd_factored; [|exact Q]. intros i j _ _. rewrite !cov_form. do 3 f_equal. apply form_opp. intros k. ring.
  - intros i. rewrite cov_form, form_null by (intros k; ring). unfold power. destruct (Req_EM_T 0 0); [|congruence]. rewrite Ropp_0. apply exp_0.
Qed.

(** For every exponent above two there are three points on a line whose matrix is no covariance matrix; the constructor accepts
    the exponent and the documentation asks for one of at least 1. *)
Theorem C193_covariance_refuted x : 2 < x -> exists f points, make_field (Number x) 1 1 None = Ok f /\ ~ factored 3 (cov_matrix f points).
Proof.
  intros Hx.
  assert (EPS : float_eps < 1).
  { unfold float_eps. rewrite <- Rinv_1. apply Rinv_lt_contravar; [|apply Rlt_pow_R1; [lra|lia]]. rewrite Rmult_1_l. apply pow_lt. lra. }
  set (K := Rpower 2 x).
  assert (K4 : 4 < K). { unfold K. replace 4 with (Rpower 2 2); [apply Rpower_lt; lra|]. change 2 with (INR 2) at 2. rewrite Rpower_pow by lra. ring. }
  set (y := (2 * K - 8) / (16 * K)). assert (Y0 : 0 < y) by (unfold y; apply Rdiv_lt_0_compat; lra).
  set (h := Rpower y (1 / x)). assert (H0 : 0 < h) by apply exp_pos.
  assert (HX : Rpower (h * h) (x / 2) = y).
  { rewrite <- Rpower_mult_distr by exact H0. rewrite <- Rpower_plus. unfold h. rewrite Rpower_mult. replace (1 / x * (x / 2 + x / 2)) with 1 by (field; lra). apply Rpower_1. exact Y0. }
  assert (H2X : Rpower (2 * h * (2 * h)) (x / 2) = K * y).
  { replace (2 * h * (2 * h)) with (2 * 2 * (h * h)) by ring. rewrite <- Rpower_mult_distr by nra. rewrite HX. f_equal.
    rewrite <- Rpower_mult_distr by lra. rewrite <- Rpower_plus. unfold K. f_equal. field. }
  exists {| f_dim := 1; f_exponent := x; f_tensor := fun i j => (if (i =? j)%nat then 1 else 0) * (1 / (1 ^ 2)) |}, (fun i _ => INR i * h).
  split; [unfold make_field; destruct (Rlt_dec float_eps 1); [reflexivity|contradiction]|].
  intros F. apply factored_psd in F.
  specialize (F (fun i => match i with 1%nat => -2 | _ => 1 end)).
  set (C := cov_matrix _ _) in F.
  assert (E : forall i j, C i j = exp (- power ((INR j * h - INR i * h) * (INR j * h - INR i * h)) (x / 2))).
  { intros i j. unfold C. rewrite cov_form. cbn [f_dim f_exponent f_tensor]. do 3 f_equal. unfold form. cbn [rsum Nat.eqb]. field. }
  assert (C0 : forall i, C i i = 1).
  { intros i. rewrite E. replace ((INR i * h - INR i * h) * (INR i * h - INR i * h)) with 0 by ring. unfold power. destruct (Req_EM_T 0 0); [|congruence]. rewrite Ropp_0. apply exp_0. }
  assert (C1 : forall i j, INR j * h - INR i * h = h \/ INR j * h - INR i * h = - h -> C i j = exp (- y)).
  { intros i j D. rewrite E. do 2 f_equal. rewrite <- HX. replace ((INR j * h - INR i * h) * (INR j * h - INR i * h)) with (h * h) by (destruct D as [-> | ->]; ring).
    unfold power. destruct (Req_EM_T (h * h) 0); [nra|reflexivity]. }
  assert (C2 : forall i j, INR j * h - INR i * h = 2 * h \/ INR j * h - INR i * h = - (2 * h) -> C i j = exp (- (K * y))).
  { intros i j D. rewrite E. do 2 f_equal. rewrite <- H2X. replace ((INR j * h - INR i * h) * (INR j * h - INR i * h)) with (2 * h * (2 * h)) by (destruct D as [-> | ->]; ring).
    unfold power. destruct (Req_EM_T (2 * h * (2 * h)) 0); [nra|reflexivity]. }
  unfold form in F. cbn [rsum] in F.
  rewrite !C0, (C1 0%nat 1%nat), (C1 1%nat 0%nat), (C1 1%nat 2%nat), (C1 2%nat 1%nat), (C2 0%nat 2%nat), (C2 2%nat 0%nat) in F; try (cbn [INR]; (left; ring) || (right; ring)).
  assert (A : 1 - y <= exp (- y)). { destruct (Req_dec (- y) 0); [lra|]. pose proof (exp_ineq1 (- y) H). lra. }
  assert (B : exp (- (K * y)) <= / (1 + K * y)).
  { rewrite exp_Ropp. assert (0 < K * y) by nra. apply Rinv_le_contravar; [lra|]. left. apply exp_ineq1. lra. }
  assert (KY : K * y = (2 * K - 8) / 16) by (unfold y; field; lra).
  assert (Z : 8 * y + 2 * / (1 + K * y) < 2).
  { assert (P1 : 0 < 1 + K * y) by nra. apply (Rmult_lt_reg_r (1 + K * y)); [exact P1|].
    replace ((8 * y + 2 * / (1 + K * y)) * (1 + K * y)) with (8 * y * (1 + K * y) + 2) by (field; lra).
    assert (8 * (1 + K * y) < 2 * K) by (rewrite KY; lra). nra. }
  lra.
Qed.

Example C193_example : exists f, make_field Exponential 2 (1 / 2) None = Ok f /\ factored 4 (cov_matrix f (fun i k => INR (i * i + k))).
Proof.
  assert (H : exists f, make_field Exponential 2 (1 / 2) None = Ok f).
  { unfold make_field. destruct (Rlt_dec float_eps (1 / 2)) as [|N]; [eexists; reflexivity|exfalso; apply N].
    unfold float_eps. replace (1 / 2) with (/ 2 ^ 1) by field. apply Rinv_lt_contravar; [apply Rmult_lt_0_compat; apply pow_lt; lra|apply Rlt_pow; [lra|lia]]. }
  destruct H as [f E]. exists f. split; [exact E|]. apply (C193_covariance_partial Exponential 2 (1 / 2) None f 4 _ E I I).
Qed.

(** ** C194: the correlation length *)
Definition distance (dim : nat) (p q : nat -> R) : R := sqrt (rsum dim (fun k => (q k - p k) ^ 2)).

Lemma isotropic_form dim L v : 0 < L -> form dim (fun i j => (if (i =? j)%nat then 1 else 0) * (1 / (L ^ 2))) v = rsum dim (fun k => v k ^ 2) / L ^ 2.
Proof.
  intros HL. unfold form.
  assert (S : forall m i f, rsum m (fun j => if (i =? j)%nat then f j else 0) = if (i <? m)%nat then f i else 0).
  { induction m as [|m IH]; intros i f; cbn [rsum]; [destruct i; reflexivity|]. rewrite IH.
    destruct (Nat.ltb_spec i m), (Nat.ltb_spec i (S m)), (Nat.eqb_spec i m); try lia; subst; ring. }
  rewrite (rsum_ext dim _ (fun i => v i ^ 2 * / L ^ 2)).
  - rewrite rsum_scal_r. reflexivity.
  - intros i Hi. rewrite (rsum_ext dim _ (fun j => if (i =? j)%nat then v i * v j * / L ^ 2 else 0)).
    + rewrite S. destruct (Nat.ltb_spec i dim); [ring|lia].
    + intros j _. destruct (i =? j)%nat; field; lra.
Qed.

(** Without a tensor the covariance of two points is exp(-(r/L)^a) for their distance r, correlation length L and exponent a:
    1/e at the distance L, decreasing with the distance. *)
Theorem C194_correlation_length e dim L f points : make_field e dim L None = Ok f -> match e with Number x => 0 < x | _ => True end ->
  let r i j := distance dim (points i) (points j) in
  (forall i j, 0 < r i j -> cov_matrix f points i j =
     exp (- match e with Gauss => (r i j / L) ^ 2 | Exponential => r i j / L | Number x => Rpower (r i j / L) x end)) /\
  (forall i j, r i j = 0 -> cov_matrix f points i j = 1) /\
  (forall i j, r i j = L -> cov_matrix f points i j = exp (-1)) /\
  (forall i j i' j', r i j < r i' j' -> cov_matrix f points i' j' < cov_matrix f points i j).
Proof.
  intros E A' r. unfold make_field in E. destruct (Rlt_dec float_eps L) as [HL|]; [|discriminate].
  assert (L0 : 0 < L). { assert (0 < float_eps) by (unfold float_eps; apply Rinv_0_lt_compat, pow_lt; lra). lra. }
  injection E as <-. set (a := match e with Gauss => 2 | Exponential => 1 | Number x => x end) in *.
  assert (A : 0 < a) by (unfold a; destruct e; lra).
  assert (R0 : forall i j, 0 <= r i j) by (intros i j; apply sqrt_pos).
  assert (SQ : forall i j, rsum dim (fun k => (points j k - points i k) ^ 2) = r i j * r i j).
  { intros i j. symmetry. apply sqrt_sqrt. apply rsum_ge0. intros k _. apply pow2_ge_0. }
  set (f := {| f_dim := dim; f_exponent := a; f_tensor := _ |}).
  assert (V : forall i j, cov_matrix f points i j = exp (- power (r i j * r i j / L ^ 2) (a / 2))).
  { intros i j. rewrite cov_form. rewrite <- SQ. rewrite <- (isotropic_form dim L (fun k => points j k - points i k) L0). reflexivity. }
  assert (P1 : forall i j, 0 < r i j -> cov_matrix f points i j = exp (- Rpower (r i j / L) a)).
  { intros i j H. rewrite V. do 2 f_equal. assert (D : 0 < r i j / L) by (apply Rdiv_lt_0_compat; assumption).
    replace (r i j * r i j / L ^ 2) with (r i j / L * (r i j / L)) by (field; lra).
    unfold power. destruct (Req_EM_T (r i j / L * (r i j / L)) 0) as [Z|_]; [nra|].
    rewrite <- Rpower_mult_distr by exact D. rewrite <- Rpower_plus. f_equal. field. }
  assert (P2 : forall i j, r i j = 0 -> cov_matrix f points i j = 1).
  { intros i j H. rewrite V, H. replace (0 * 0 / L ^ 2) with 0 by (field; lra). unfold power. destruct (Req_EM_T 0 0); [|congruence]. rewrite Ropp_0. apply exp_0. }
  split; [|split; [exact P2|split]].
  - intros i j H. rewrite P1 by exact H. do 2 f_equal. assert (D : 0 < r i j / L) by (apply Rdiv_lt_0_compat; assumption).
    unfold a. destruct e; [|apply Rpower_1; exact D|reflexivity].
    change 2 with (INR 2) at 1. apply Rpower_pow. exact D.
  - intros i j H. rewrite P1 by (rewrite H; exact L0). rewrite H. replace (L / L) with 1 by (field; lra).
    unfold Rpower. rewrite ln_1, Rmult_0_r, exp_0. reflexivity.
  - intros i j i' j' H. pose proof (R0 i j) as G. rewrite (P1 i' j') by lra.
    destruct (Req_dec (r i j) 0) as [Z|NZ].
    + rewrite (P2 i j Z). rewrite <- exp_0. apply exp_increasing. assert (0 < Rpower (r i' j' / L) a) by apply exp_pos. lra.
    + rewrite (P1 i j) by lra. apply exp_increasing, Ropp_lt_contravar. unfold Rpower. apply exp_increasing, Rmult_lt_compat_l; [exact A|].
      apply ln_increasing; [apply Rdiv_lt_0_compat; lra|]. apply Rmult_lt_compat_r; [apply Rinv_0_lt_compat; exact L0|exact H].
Qed.

Example C194_example : exists f, make_field Gauss 1 3 None = Ok f /\ cov_matrix f (fun i _ => 3 * INR i) 0 1 = exp (-1).
Proof.
  assert (H : exists f, make_field Gauss 1 3 None = Ok f).
  { unfold make_field. destruct (Rlt_dec float_eps 3) as [|N]; [eexists; reflexivity|exfalso; apply N].
    unfold float_eps. apply Rlt_trans with 1; [|lra]. rewrite <- Rinv_1. apply Rinv_lt_contravar; [|apply Rlt_pow_R1; [lra|lia]]. rewrite Rmult_1_l. apply pow_lt. lra. }
  destruct H as [f E]. exists f. split; [exact E|].
  apply (C194_correlation_length Gauss 1 3 f (fun i _ => 3 * INR i) E I). unfold distance. cbn [rsum INR].
  replace (0 + (3 * 1 - 3 * 0) ^ 2) with (3 * 3) by ring. apply sqrt_square. lra.
Qed.

(** A tensor K = A^T A stands for the points moved by the matrix A and the correlation length 1. *)
Theorem C194_tensor e dim L A f g points : make_field e dim L (Some (fun k l => rsum dim (fun m => A m k * A m l))) = Ok f ->
  make_field e dim 1 None = Ok g ->
  forall i j, cov_matrix f points i j = cov_matrix g (fun q m => rsum dim (fun k => A m k * points q k)) i j.
Proof.
  unfold make_field. destruct (Rlt_dec float_eps 1); [|discriminate]. intros E F. injection E as <-. injection F as <-. intros i j.
  rewrite !cov_form. cbn [f_dim f_exponent f_tensor]. do 3 f_equal.
  etransitivity; [|symmetry; apply (isotropic_form dim 1 (fun m => rsum dim (fun k => A m k * points j k) - rsum dim (fun k => A m k * points i k))); lra].
  replace (1 ^ 2) with 1 by ring. rewrite Rdiv_1.
  set (v := fun k => points j k - points i k).
  rewrite (rsum_ext dim _ (fun m => rsum dim (fun k => rsum dim (fun l => v k * v l * (A m k * A m l))))).
  2: { intros m _. transitivity (rsum dim (fun k => A m k * v k) * rsum dim (fun k => A m k * v k)).
       - assert (S : rsum dim (fun k => A m k * points j k) - rsum dim (fun k => A m k * points i k) = rsum dim (fun k => A m k * v k)).
         { unfold v. replace (rsum dim (fun k => A m k * points j k) - rsum dim (fun k => A m k * points i k)) with
             (rsum dim (fun k => A m k * points j k) + -1 * rsum dim (fun k => A m k * points i k)) by ring.
           rewrite <- rsum_scal, <- rsum_plus. apply rsum_ext. intros k _. ring. }
         rewrite S. ring.
       - rewrite rsum_prod. apply rsum_ext. intros k _. apply rsum_ext. intros l _. ring. }
  rewrite (rsum_swap dim dim (fun m k => rsum dim (fun l => v k * v l * (A m k * A m l)))).
  rewrite (rsum_ext dim (fun k => rsum dim (fun m => rsum dim (fun l => v k * v l * (A m k * A m l)))) (fun k => rsum dim (fun l => rsum dim (fun m => v k * v l * (A m k * A m l))))) by (intros; apply rsum_swap).
  unfold form. apply rsum_ext. intros k _. apply rsum_ext. intros l _. symmetry. apply rsum_scal.
Qed.

(** Correlation twice as short along the second axis. *)
Example C194_tensor_example : exists f, make_field Gauss 2 5 (Some (fun k l => rsum 2 (fun m => (if (m =? k)%nat then INR (k + 1) else 0) * (if (m =? l)%nat then INR (l + 1) else 0)))) = Ok f /\
  cov_matrix f (fun i k => if ((i =? 1) && (k =? 1))%nat then 1 else 0) 0 1 = exp (-4).
Proof.
  eexists. split; [reflexivity|]. rewrite cov_form. cbn [f_dim f_exponent f_tensor]. unfold form. cbn [rsum Nat.eqb andb Nat.add]. f_equal.
  match goal with |- - power ?x _ = _ => replace x with 4 by (cbn [INR]; ring) end.
  unfold power. destruct (Req_EM_T 4 0); [lra|]. replace (2 / 2) with 1 by field. rewrite Rpower_1 by lra. reflexivity.
Qed.

Print Assumptions C193_covariance_partial.
Print Assumptions C193_covariance_refuted.
Print Assumptions C194_correlation_length.
Print Assumptions C194_tensor.
