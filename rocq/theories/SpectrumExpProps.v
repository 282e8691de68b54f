(** Exponential Fourier fields in the plane: C205 and the remaining case of C197. *)
From Coq Require Import Reals Lra.
From Coquelicot Require Import Coquelicot.
From Verif Require Import Base NumFacts ProbSpec ProbFacts CovarModel CovarFacts CovarProps FourierModel FourierProps.
From Verif Require Import SpectrumModel SpectrumSpec SpectrumFacts SpectrumExp SpectrumProps.
Open Scope R_scope.

(** Distance of two points of the plane. *)
Definition distance (x y : list R) : R := sqrt ((nth 0 x 0 - nth 0 y 0) ^ 2 + (nth 1 x 0 - nth 1 y 0) ^ 2).

Lemma exp_plane_mean L x y : 0 < L -> uniform_mean (mode_cos false L x y) (exp (- (distance x y / L))).
Proof.
  intros HL. pose proof PI_RGT_0 as P. set (d1 := nth 0 x 0 - nth 0 y 0). set (d2 := nth 1 x 0 - nth 1 y 0).
  replace (distance x y / L) with (/ L * sqrt (dsq d1 d2)) by (unfold distance, dsq; fold d1 d2; field; lra).
  apply (uniform_ext (fun u v => cos (/ L * sqrt (1 / u ^ 2 - 1) * gfun d1 d2 v))); [|apply exponential_mean; left; apply Rinv_0_lt_compat, HL].
  intros u v _. unfold mode_cos, plane_mode, exp_radius, len_scale, circle, gfun. cbn [fst snd]. f_equal. fold d1 d2. field. lra.
Qed.
Lemma number_plane e L f points i j : make_field e 2 L None = Ok f ->
  cov_matrix f (coords points) i j = exp (- power ((distance (nth i points []) (nth j points []) / L) ^ 2) (f_exponent f / 2)) /\ 0 < L /\ f_dim f = 2%nat
  /\ f_exponent f = match e with Gauss => 2 | Exponential => 1 | Number x => x end.
Proof.
  unfold make_field. destruct (Rlt_dec float_eps L) as [HL|]; [|discriminate].
  assert (L0 : 0 < L). { assert (0 < float_eps) by (unfold float_eps; apply Rinv_0_lt_compat, pow_lt; lra). lra. }
  intros E. injection E as <-. split; [|auto]. rewrite cov_form. cbn [f_exponent f_dim]. f_equal. f_equal. f_equal.
  etransitivity; [apply (isotropic_form 2 L (fun k => coords points j k - coords points i k) L0)|]. cbn [CovarModel.rsum]. unfold coords, distance.
  set (p := nth 0 (nth i points []) 0 - nth 0 (nth j points []) 0). set (q := nth 1 (nth i points []) 0 - nth 1 (nth j points []) 0).
  unfold Rdiv. rewrite (Rpow_mult_distr (sqrt _)), pow2_sqrt by (pose proof (pow2_ge_0 p); pose proof (pow2_ge_0 q); lra). unfold p, q. field. lra.
Qed.
Lemma power_half r x : 0 <= r -> power (r ^ 2) (x / 2) = if Req_EM_T r 0 then 0 else Rpower r x.
Proof.
  intros Hr. unfold power. destruct (Req_EM_T r 0) as [->|N].
  - destruct (Req_EM_T (0 ^ 2) 0) as [|N]; [reflexivity|exfalso; apply N; ring].
  - destruct (Req_EM_T (r ^ 2) 0) as [Z|_]; [exfalso; apply (pow_nonzero r 2 N Z)|].
    rewrite <- (Rpower_pow 2 r) by lra. rewrite Rpower_mult. f_equal. change (INR 2) with 2. field.
Qed.

(** C205: the Fourier field with the exponential function in the plane has the covariance exp(-r/L) of the field computed from the
    covariance matrix: mean over the modes of a function of the two uniform numbers of a mode, whose mean value is that entry. *)
Theorem C205_exponential_plane L f points i j : make_field Exponential 2 L None = Ok f -> Forall (fun p => length p = 2%nat) points ->
  (i < length points)%nat -> (j < length points)%nat ->
  cov_matrix f (coords points) i j = exp (- (distance (nth i points []) (nth j points []) / L)) /\
  exists c : R -> R -> R, uniform_mean c (cov_matrix f (coords points) i j) /\
    forall M a b d, (0 < M)%nat -> length a = M -> length b = M -> white M d ->
      expect d (fun z => value M f L a b points z i * value M f L a b points z j) = / INR M * total (fun m => c (nth m b 0) (nth m a 0)) M.
Proof.
  intros E Lp Hi Hj. destruct (number_plane _ L f points i j E) as (C & HL & D & X). set (r := distance (nth i points []) (nth j points [])) in *.
  assert (R0 : 0 <= r / L) by (apply Rmult_le_pos; [apply sqrt_pos|left; apply Rinv_0_lt_compat, HL]).
  assert (C' : cov_matrix f (coords points) i j = exp (- (r / L))).
  { rewrite C, X, power_half by exact R0. destruct (Req_EM_T (r / L) 0) as [-> |]; [reflexivity|]. rewrite Rpower_1 by lra. reflexivity. }
  split; [exact C'|]. exists (mode_cos false L (nth i points []) (nth j points [])). split; [rewrite C'; apply exp_plane_mean, HL|].
  intros M a b d HM La Lb W.
  assert (G : (if Req_EM_T (f_exponent f) 2 then true else false) = false) by (rewrite X; destruct (Req_EM_T 1 2); [lra|reflexivity]).
  assert (Ek : exists k, modes (f_dim f) (if Req_EM_T (f_exponent f) 2 then true else false) L a b = Ok k) by (rewrite D; eexists; reflexivity).
  destruct Ek as [k Ek].
  destruct (C195_given_modes M f L a b k points d HM Ek La Lb ltac:(rewrite D; exact Lp) W i j Hi Hj) as (_ & K & _).
  rewrite K. f_equal. unfold total. f_equal. apply map_ext_in. intros m Hm. apply in_seq in Hm. rewrite G, D in Ek.
  rewrite Forall_forall in Lp. apply (mode_phase L false a b k m _ _ M Ek La Lb); [lia|apply Lp, nth_In, Hi|apply Lp, nth_In, Hj].
Qed.
Print Assumptions C205_exponential_plane.
Example C205_example : exists f, make_field Exponential 2 1 None = Ok f /\
  cov_matrix f (coords [[0; 0]; [3; 4]]) 0 1 = exp (- 5) /\ uniform_mean (mode_cos false 1 [0; 0] [3; 4]) (exp (- 5)).
Proof.
  destruct (one_field Exponential 2 None) as [f E]. exists f. split; [exact E|].
  assert (S : distance [0; 0] [3; 4] / 1 = 5). { unfold distance. cbn [nth]. replace ((0 - 3) ^ 2 + (0 - 4) ^ 2) with (5 ^ 2) by ring. rewrite sqrt_pow2 by lra. field. }
  destruct (C205_exponential_plane 1 f [[0; 0]; [3; 4]] 0 1 E) as [C _]; [repeat (apply Forall_cons; [reflexivity|]); apply Forall_nil|cbn; lia|cbn; lia|].
  cbn [nth] in C. rewrite S in C. split; [exact C|]. pose proof (exp_plane_mean 1 [0; 0] [3; 4] Rlt_0_1) as T. rewrite S in T. exact T.
Qed.

(** C197 in the plane without tensor: for an exponent other than 2 the covariance of two points is right exactly if the exponent is 1 or the
    points have the distance 0 or L. *)
Theorem C197_plane_partial x L f points i j : make_field (Number x) 2 L None = Ok f -> 0 < x -> x <> 2 ->
  let r := distance (nth i points []) (nth j points []) in
  uniform_mean (mode_cos (if Req_EM_T (f_exponent f) 2 then true else false) L (nth i points []) (nth j points [])) (cov_matrix f (coords points) i j)
  <-> r = 0 \/ r = L \/ x = 1.
Proof.
  intros E Hx H2. cbv zeta. destruct (number_plane _ L f points i j E) as (C & HL & D & X). set (r := distance (nth i points []) (nth j points [])) in *.
  assert (Rp : 0 <= r) by apply sqrt_pos. assert (R0 : 0 <= r / L) by (apply Rmult_le_pos; [exact Rp|left; apply Rinv_0_lt_compat, HL]).
  rewrite C, X. destruct (Req_EM_T x 2) as [|_]; [contradiction|]. rewrite power_half by exact R0.
  pose proof (exp_plane_mean L (nth i points []) (nth j points []) HL) as T. fold r in T.
  assert (Z : r = 0 <-> r / L = 0). { split; [intros ->; field; lra|]. intros Z. replace r with (r / L * L) by (field; lra). rewrite Z. ring. }
  assert (O : r = L <-> r / L = 1). { split; [intros ->; field; lra|]. intros O. replace r with (r / L * L) by (field; lra). rewrite O. ring. }
  rewrite Z, O. set (q := r / L) in *. destruct (Req_EM_T q 0) as [Q|Q].
  - split; [intros _; now left|]. intros _. rewrite Q in T. exact T.
  - assert (Qp : 0 < q) by lra. split.
    + intros U. pose proof (uniform_unique _ _ _ U T) as V. apply exp_inv in V. assert (V' : Rpower q x = Rpower q 1) by (rewrite Rpower_1 by lra; lra).
      unfold Rpower in V'. apply exp_inv in V'. destruct (Req_dec x 1) as [|N]; [auto|]. assert (Ln : ln q = 0) by (apply (Rmult_eq_reg_l (x - 1)); lra).
      right. left. apply ln_inv; [lra|lra|]. rewrite ln_1. exact Ln.
    + intros [?|[->| ->]]; [contradiction| |].
      * unfold Rpower. rewrite ln_1, Rmult_0_r, exp_0. exact T.
      * rewrite Rpower_1 by lra. exact T.
Qed.
Print Assumptions C197_plane_partial.
Example C197_plane_example : exists f, make_field (Number 3) 2 1 None = Ok f /\ ~ uniform_mean (mode_cos (if Req_EM_T (f_exponent f) 2 then true else false) 1 [0; 0] [2; 0]) (cov_matrix f (coords [[0; 0]; [2; 0]]) 0 1).
Proof.
  destruct (one_field (Number 3) 2 None) as [f E]. exists f. split; [exact E|]. intros U.
  apply (C197_plane_partial 3 1 f [[0; 0]; [2; 0]] 0 1 E) in U; [|lra|lra]. cbn [nth] in U.
  assert (S : distance [0; 0] [2; 0] = 2). { unfold distance. cbn [nth]. replace ((0 - 2) ^ 2 + (0 - 0) ^ 2) with (2 ^ 2) by ring. apply sqrt_pow2. lra. }
  rewrite S in U. lra.
Qed.
