(** Covariance of Fourier fields: C195, C196, C197, C198. *)
From Coq Require Import Reals Lra FunctionalExtensionality.
From Coquelicot Require Import Coquelicot.
From Verif Require Import Base NumFacts ProbSpec ProbFacts CovarModel CovarFacts CovarProps FourierModel FourierProps.
From Verif Require Import SpectrumModel SpectrumSpec SpectrumFacts SpectrumMean.
Open Scope R_scope.

(** ** C195: given the frequencies *)
(** Uncorrelated numbers with mean 0 and variance 1, [M] in each row. *)
Definition white (M : nat) (d : dist (list R * list R)) : Prop :=
  proper d /\ (forall p z, In (p, z) d -> length (fst z) = M /\ length (snd z) = M) /\
  (forall m, (m < M)%nat -> expect d (fun z => nth m (fst z) 0) = 0 /\ expect d (fun z => nth m (snd z) 0) = 0) /\
  (forall m n, (m < M)%nat -> (n < M)%nat ->
     expect d (fun z => nth m (fst z) 0 * nth n (fst z) 0) = (if (m =? n)%nat then 1 else 0) /\
     expect d (fun z => nth m (snd z) 0 * nth n (snd z) 0) = (if (m =? n)%nat then 1 else 0) /\
     expect d (fun z => nth m (fst z) 0 * nth n (snd z) 0) = 0).
(** Value of the sample at point [i] if there is enough memory. *)
Definition value (M : nat) (f : field) (L : R) (a b : list R) (points : list (list R)) (z : list R * list R) (i : nat) : R :=
  match fourier_field (fun _ _ => false) (S M) M f L (fst z) (snd z) a b points with Ok (Some l) => nth i l 0 | _ => 0 end.

Section Sums.
Context {A : Type} (d : dist A).
Lemma expect_list (F : nat -> A -> R) l : expect d (fun z => NumFacts.rsum (map (fun m => F m z) l)) = NumFacts.rsum (map (fun m => expect d (F m)) l).
Proof.
  induction l as [|m l IH]; cbn [map].
  - change (NumFacts.rsum []) with 0. unfold expect. induction d as [|[p x] d' IHd]; [reflexivity|]. cbn [map]. rewrite rsum_cons, IHd. cbn [fst snd]. ring.
  - rewrite rsum_cons, <- IH, <- expect_add. apply expect_ext. intros p x _. apply rsum_cons.
Qed.
Lemma sum_product (f g : nat -> R) l l' : NumFacts.rsum (map f l) * NumFacts.rsum (map g l') = NumFacts.rsum (map (fun m => NumFacts.rsum (map (fun n => f m * g n) l')) l).
Proof.
  induction l as [|m l IH]; cbn [map]; [change (NumFacts.rsum []) with 0; ring|]. rewrite !rsum_cons, Rmult_plus_distr_r, IH. f_equal.
  rewrite <- rsum_map_mul. reflexivity.
Qed.
End Sums.
Lemma total_rsum f n : total f n = NumFacts.rsum (map f (seq 0 n)).
Proof. reflexivity. Qed.
Lemma sum_delta (h : nat -> R) n m : (m < n)%nat -> NumFacts.rsum (map (fun j => (if (m =? j)%nat then 1 else 0) * h j) (seq 0 n)) = h m.
Proof.
  intros H. induction n as [|n IH]; [lia|]. rewrite seq_S, map_app, rsum_app. cbn [map Nat.add]. rewrite rsum_cons. change (NumFacts.rsum []) with 0.
  destruct (Nat.eq_dec m n) as [->|N].
  - rewrite Nat.eqb_refl. rewrite (map_ext_in _ (fun _ => 0)).
    + rewrite rsum_const. ring.
    + intros j Hj. apply in_seq in Hj. destruct (Nat.eqb_spec n j); [lia|]. ring.
  - rewrite IH by lia. destruct (Nat.eqb_spec m n); [lia|]. ring.
Qed.

Lemma zip_length f : forall a b : list R, length (zip f a b) = Nat.min (length a) (length b).
Proof. induction a as [|x a IH]; intros [|y b]; cbn; try reflexivity. rewrite IH. reflexivity. Qed.
Lemma modes_shape dim gauss L a b k M : modes dim gauss L a b = Ok k -> length a = M -> length b = M ->
  length k = dim /\ Forall (fun kd => length kd = M) k /\ (dim = 1%nat \/ dim = 2%nat) /\ (dim = 1%nat -> gauss = true).
Proof.
  intros E La Lb. unfold modes in E. destruct dim as [|[|[|[|]]]]; try discriminate; destruct gauss; try discriminate; injection E as <-;
    (split; [reflexivity|]); (split; [|split; [auto|try reflexivity; discriminate]]); repeat (apply Forall_cons; [|]);
    try apply Forall_nil; rewrite ?map_length, ?zip_length, ?La, ?Lb, ?Nat.min_id; reflexivity.
Qed.

Section Given.
Variables (M : nat) (f : field) (L : R) (a b : list R) (k : list (list R)) (points : list (list R)).
Let gauss := if Req_EM_T (f_exponent f) 2 then true else false.
Hypothesis Ek : modes (f_dim f) gauss L a b = Ok k.
Hypothesis La : length a = M. Hypothesis Lb : length b = M.
Hypothesis Lp : Forall (fun p => length p = f_dim f) points.

Lemma field_ok z : length (fst z) = M -> length (snd z) = M ->
  fourier_field (fun _ _ => false) (S M) M f L (fst z) (snd z) a b points = Ok (Some (map (field_at M k (fst z) (snd z)) points)).
Proof.
  intros L0 L1. destruct (modes_shape _ _ _ _ _ _ _ Ek La Lb) as (Lk & Fk & D & G). unfold fourier_field. fold gauss. rewrite Ek. cbn [bind].
  apply (C89_size (fun _ => false)); try reflexivity; try discriminate.
  - unfold shapes. rewrite Lk. auto.
  - rewrite Lk. exact G.
  - apply Nat.lt_le_incl, Nat.pow_gt_lin_r. lia.
Qed.
Lemma value_ok z i : length (fst z) = M -> length (snd z) = M -> (i < length points)%nat ->
  value M f L a b points z i = field_at M k (fst z) (snd z) (nth i points []).
Proof.
  intros L0 L1 Hi. unfold value. rewrite field_ok by assumption. rewrite (nth_indep _ 0 (field_at M k (fst z) (snd z) [])) by (rewrite map_length; exact Hi). apply map_nth.
Qed.
End Given.

(** C195: for given frequencies k and random amplitudes the field has mean 0 and the covariance of two points is the mean of
    cos(2 pi k.(x - y)) over the modes; in particular the variance is 1. *)
Theorem C195_given_modes M f L a b k points d :
  (0 < M)%nat -> modes (f_dim f) (if Req_EM_T (f_exponent f) 2 then true else false) L a b = Ok k -> length a = M -> length b = M ->
  Forall (fun p => length p = f_dim f) points -> white M d ->
  forall i j, (i < length points)%nat -> (j < length points)%nat ->
    let phase i m := 2 * PI * dot k (nth i points []) m in
    expect d (fun z => value M f L a b points z i) = 0 /\
    expect d (fun z => value M f L a b points z i * value M f L a b points z j) = / INR M * total (fun m => cos (phase i m - phase j m)) M /\
    expect d (fun z => value M f L a b points z i ^ 2) = 1.
Proof.
  intros HM Ek La Lb Lp (Pd & Ld & E1 & E2) i j Hi Hj phase.
  assert (V : forall i, (i < length points)%nat -> forall p z, In (p, z) d -> value M f L a b points z i = sqrt (1 / INR M) * NumFacts.rsum (map (fun m => nth m (fst z) 0 * cos (phase i m) + nth m (snd z) 0 * sin (phase i m)) (seq 0 M))).
  { intros q Hq p z Hz. destruct (Ld p z Hz). rewrite (value_ok M f L a b k points Ek La Lb Lp) by assumption. reflexivity. }
  assert (S : sqrt (1 / INR M) * sqrt (1 / INR M) = / INR M).
  { rewrite sqrt_sqrt; [unfold Rdiv; ring|]. left. apply Rdiv_lt_0_compat; [lra|apply lt_0_INR, HM]. }
  assert (C : forall i j, (i < length points)%nat -> (j < length points)%nat ->
    expect d (fun z => value M f L a b points z i * value M f L a b points z j) = / INR M * total (fun m => cos (phase i m - phase j m)) M).
  { clear i j Hi Hj. intros i j Hi Hj.
    rewrite (expect_ext d _ (fun z => / INR M * NumFacts.rsum (map (fun m => NumFacts.rsum (map (fun n =>
       (nth m (fst z) 0 * cos (phase i m) + nth m (snd z) 0 * sin (phase i m)) * (nth n (fst z) 0 * cos (phase j n) + nth n (snd z) 0 * sin (phase j n))) (seq 0 M))) (seq 0 M)))).
    2: { intros p z Hz. rewrite (V i Hi p z Hz), (V j Hj p z Hz), <- S. rewrite <- (sum_product (fun m => nth m (fst z) 0 * cos (phase i m) + nth m (snd z) 0 * sin (phase i m)) (fun n => nth n (fst z) 0 * cos (phase j n) + nth n (snd z) 0 * sin (phase j n))). ring. }
    rewrite expect_scal. f_equal. rewrite total_rsum.
    rewrite (expect_list d (fun m z => NumFacts.rsum (map (fun n => (nth m (fst z) 0 * cos (phase i m) + nth m (snd z) 0 * sin (phase i m)) * (nth n (fst z) 0 * cos (phase j n) + nth n (snd z) 0 * sin (phase j n))) (seq 0 M)))).
    f_equal. apply map_ext_in. intros m Hm. apply in_seq in Hm.
    rewrite (expect_list d (fun n z => (nth m (fst z) 0 * cos (phase i m) + nth m (snd z) 0 * sin (phase i m)) * (nth n (fst z) 0 * cos (phase j n) + nth n (snd z) 0 * sin (phase j n)))).
    rewrite <- (sum_delta (fun n => cos (phase i m - phase j n)) M m) by lia.
    f_equal. apply map_ext_in. intros n Hn. apply in_seq in Hn.
    destruct (E2 m n ltac:(lia) ltac:(lia)) as (F1 & F2 & F3). destruct (E2 n m ltac:(lia) ltac:(lia)) as (_ & _ & F4).
    rewrite (expect_ext d _ (fun z => (cos (phase i m) * cos (phase j n)) * (nth m (fst z) 0 * nth n (fst z) 0) + ((sin (phase i m) * sin (phase j n)) * (nth m (snd z) 0 * nth n (snd z) 0) +
       ((cos (phase i m) * sin (phase j n)) * (nth m (fst z) 0 * nth n (snd z) 0) + (sin (phase i m) * cos (phase j n)) * (nth n (fst z) 0 * nth m (snd z) 0))))) by (intros; ring).
    rewrite !expect_add, !expect_scal, F1, F2, F3, F4, cos_minus. ring. }
  split; [|split; [apply C; assumption|]].
  - rewrite (expect_ext d _ (fun z => sqrt (1 / INR M) * NumFacts.rsum (map (fun m => nth m (fst z) 0 * cos (phase i m) + nth m (snd z) 0 * sin (phase i m)) (seq 0 M)))) by (apply V; exact Hi).
    rewrite expect_scal, (expect_list d (fun m z => nth m (fst z) 0 * cos (phase i m) + nth m (snd z) 0 * sin (phase i m))).
    rewrite (map_ext_in _ (fun _ => 0)); [rewrite rsum_const; ring|]. intros m Hm. apply in_seq in Hm. destruct (E1 m ltac:(lia)) as [F1 F2].
    rewrite (expect_ext d _ (fun z => cos (phase i m) * nth m (fst z) 0 + sin (phase i m) * nth m (snd z) 0)) by (intros; ring).
    rewrite expect_add, !expect_scal, F1, F2. ring.
  - rewrite (expect_ext d _ (fun z => value M f L a b points z i * value M f L a b points z i)) by (intros; ring). rewrite (C i i Hi Hi).
    rewrite total_rsum, (map_ext _ (fun _ => 1)) by (intros m; rewrite Rminus_eq_0; apply cos_0). rewrite rsum_const, seq_length. field. apply not_0_INR. lia.
Qed.

(** One mode with random signs. *)
Example C195_example : white 1 [(/4, ([1], [1])); (/4, ([1], [-1])); (/4, ([-1], [1])); (/4, ([-1], [-1]))] /\
  exists k, modes 2 true 1 [/2] [/3] = Ok k.
Proof.
  split; [|eexists; reflexivity]. unfold white, proper. split; [split|split; [|split]].
  - intros p x H. cbn in H. repeat (destruct H as [H|H]; [injection H as <- <-; lra|]). destruct H.
  - cbn. lra.
  - intros p z H. cbn in H. repeat (destruct H as [H|H]; [injection H as <- <-; split; reflexivity|]). destruct H.
  - intros m Hm. assert (m = 0%nat) as -> by lia. unfold expect. cbn. lra.
  - intros m n Hm Hn. assert (m = 0%nat) as -> by lia. assert (n = 0%nat) as -> by lia. unfold expect. cbn. lra.
Qed.
Print Assumptions C195_given_modes.

(** ** Facts on mean values *)
Lemma uniform_ext f g l : (forall u v, 0 < u < 1 -> f u v = g u v) -> uniform_mean f l -> uniform_mean g l.
Proof.
  intros H [E I]. split.
  - intros u Hu. apply (ex_RInt_ext (f u)); [intros v _; apply H, Hu|apply E, Hu].
  - intros eps He. destruct (I eps He) as (d & Hd & K). exists (Rmin d 1). split; [apply Rmin_glb_lt; lra|]. intros a Ha.
    pose proof (Rmin_l d 1). pose proof (Rmin_r d 1). destruct (K a ltac:(lra)) as (J & HJ & HJ'). exists J. split; [|exact HJ'].
    apply (is_RInt_ext (fun u => RInt (f u) 0 1)); [|exact HJ]. intros u Hu. rewrite Rmin_left, Rmax_right in Hu by lra.
    apply RInt_ext. intros v _. apply H. lra.
Qed.
Lemma uniform_unique f l l' : uniform_mean f l -> uniform_mean f l' -> l = l'.
Proof.
  intros [_ H] [_ H']. destruct (Req_dec l l') as [|N]; [assumption|exfalso].
  assert (He : 0 < Rabs (l - l') / 2). { pose proof (Rabs_pos_lt (l - l') ltac:(lra)). lra. }
  destruct (H _ He) as (d & Hd & K). destruct (H' _ He) as (d' & Hd' & K').
  set (a := Rmin d d' / 2). pose proof (Rmin_l d d'). pose proof (Rmin_r d d'). assert (0 < Rmin d d') by (apply Rmin_glb_lt; lra).
  destruct (K a ltac:(unfold a; lra)) as (I & HI & A). destruct (K' a ltac:(unfold a; lra)) as (I' & HI' & A').
  assert (I' = I) as ->. { apply (is_RInt_unique (V := R_CompleteNormedModule)) in HI, HI'. congruence. }
  pose proof (Rabs_triang (l - I) (I - l')) as T. replace (l - I + (I - l')) with (l - l') in T by ring. rewrite (Rabs_minus_sym l I) in T. lra.
Qed.
Lemma uniform_linear f g l l' c d : uniform_mean f l -> uniform_mean g l' -> uniform_mean (fun u v => c * f u v + d * g u v) (c * l + d * l').
Proof.
  intros [Ef If] [Eg Ig].
  assert (E : forall u, 0 < u < 1 -> is_RInt (fun v => c * f u v + d * g u v) 0 1 (c * RInt (f u) 0 1 + d * RInt (g u) 0 1)).
  { intros u Hu. apply (is_RInt_plus (V := R_NormedModule) (fun v => c * f u v) (fun v => d * g u v)).
    - apply (is_RInt_scal (V := R_NormedModule) (f u)). apply (RInt_correct (V := R_CompleteNormedModule)), Ef, Hu.
    - apply (is_RInt_scal (V := R_NormedModule) (g u)). apply (RInt_correct (V := R_CompleteNormedModule)), Eg, Hu. }
  split; [intros u Hu; eexists; apply E, Hu|]. intros eps He.
  set (w := Rabs c + Rabs d + 1). assert (W : 0 < w) by (unfold w; pose proof (Rabs_pos c); pose proof (Rabs_pos d); lra).
  destruct (If (eps / w)) as (e1 & H1 & K1); [apply Rdiv_lt_0_compat; lra|]. destruct (Ig (eps / w)) as (e2 & H2 & K2); [apply Rdiv_lt_0_compat; lra|].
  exists (Rmin 1 (Rmin e1 e2)). split; [repeat apply Rmin_glb_lt; lra|]. intros a Ha.
  pose proof (Rmin_l 1 (Rmin e1 e2)). pose proof (Rmin_r 1 (Rmin e1 e2)). pose proof (Rmin_l e1 e2). pose proof (Rmin_r e1 e2).
  destruct (K1 a ltac:(lra)) as (I1 & J1 & B1). destruct (K2 a ltac:(lra)) as (I2 & J2 & B2). exists (c * I1 + d * I2). split.
  - apply (is_RInt_ext (fun u => c * RInt (f u) 0 1 + d * RInt (g u) 0 1)).
    + intros u Hu. rewrite Rmin_left, Rmax_right in Hu by lra. symmetry. apply (is_RInt_unique (V := R_CompleteNormedModule)). apply E. lra.
    + apply (is_RInt_plus (V := R_NormedModule) (fun u => c * RInt (f u) 0 1) (fun u => d * RInt (g u) 0 1)).
      * apply (is_RInt_scal (V := R_NormedModule) (fun u => RInt (f u) 0 1)). exact J1.
      * apply (is_RInt_scal (V := R_NormedModule) (fun u => RInt (g u) 0 1)). exact J2.
  - replace (c * I1 + d * I2 - (c * l + d * l')) with (c * (I1 - l) + d * (I2 - l')) by ring.
    eapply Rle_lt_trans; [apply Rabs_triang|]. rewrite !Rabs_mult. pose proof (Rabs_pos c) as C0. pose proof (Rabs_pos d) as D0.
    set (q := eps / w) in *. assert (Q : q * w = eps) by (unfold q; field; lra). assert (0 < q) by (unfold q; apply Rdiv_lt_0_compat; lra). unfold w in Q.
    assert (Rabs c * Rabs (I1 - l) <= Rabs c * q) by (apply Rmult_le_compat_l; lra).
    assert (Rabs d * Rabs (I2 - l') <= Rabs d * q) by (apply Rmult_le_compat_l; lra). nra.
Qed.
Lemma uniform_order f g l l' : uniform_mean f l -> uniform_mean g l' -> (forall u v, f u v <= g u v) -> l <= l'.
Proof.
  intros [Ef If] [Eg Ig] H. destruct (Rle_dec l l') as [|N]; [assumption|exfalso].
  destruct (If ((l - l') / 2) ltac:(lra)) as (e1 & H1 & K1). destruct (Ig ((l - l') / 2) ltac:(lra)) as (e2 & H2 & K2).
  set (a := Rmin 1 (Rmin e1 e2) / 2). assert (0 < Rmin 1 (Rmin e1 e2)) by (repeat apply Rmin_glb_lt; lra).
  pose proof (Rmin_l 1 (Rmin e1 e2)). pose proof (Rmin_r 1 (Rmin e1 e2)). pose proof (Rmin_l e1 e2). pose proof (Rmin_r e1 e2).
  destruct (K1 a ltac:(unfold a; lra)) as (I1 & J1 & B1). destruct (K2 a ltac:(unfold a; lra)) as (I2 & J2 & B2).
  assert (I1 <= I2).
  { apply (is_RInt_le (fun u => RInt (f u) 0 1) (fun u => RInt (g u) 0 1) a 1); [unfold a; lra|exact J1|exact J2|].
    intros u Hu. assert (0 < a) by (unfold a; lra). apply RInt_le; [lra|apply Ef; lra|apply Eg; lra|]. intros v _. apply H. }
  apply Rabs_def2 in B1, B2. lra.
Qed.

(** ** C196: the Gaussian field in the plane *)
Definition coords (points : list (list R)) (i k : nat) : R := nth k (nth i points []) 0.
(** Cosine of the phase difference of two points for a mode. *)
Definition mode_cos (gauss : bool) (L : R) (x y : list R) (u v : R) : R :=
  let k := plane_mode gauss L u v in cos (2 * PI * (fst k * (nth 0 x 0 - nth 0 y 0) + snd k * (nth 1 x 0 - nth 1 y 0))).

Lemma gau_scale_sqr L : 0 < L -> 0 < gau_scale L /\ gau_scale L ^ 2 = PI ^ 3 * L ^ 2.
Proof.
  intros HL. pose proof PI_RGT_0 as P. unfold gau_scale, len_scale. split.
  - apply Rmult_lt_0_compat; [nra|]. apply sqrt_lt_R0. lra.
  - replace ((L * 2 * PI * sqrt (PI / 4)) ^ 2) with ((L * 2 * PI) ^ 2 * (sqrt (PI / 4) * sqrt (PI / 4))) by ring. rewrite sqrt_sqrt by lra. field.
Qed.
Lemma gauss_plane_mean L x y : 0 < L ->
  uniform_mean (mode_cos true L x y) (exp (- (((nth 0 x 0 - nth 0 y 0) ^ 2 + (nth 1 x 0 - nth 1 y 0) ^ 2) / L ^ 2))).
Proof.
  intros HL. destruct (gau_scale_sqr L HL) as [S0 S2]. pose proof PI_RGT_0 as P.
  set (d1 := nth 0 x 0 - nth 0 y 0). set (d2 := nth 1 x 0 - nth 1 y 0). set (sigma := 2 * PI * (sqrt PI / gau_scale L)).
  replace ((d1 ^ 2 + d2 ^ 2) / L ^ 2) with (sigma ^ 2 * (d1 ^ 2 + d2 ^ 2) / 4).
  - apply (uniform_ext (fun u v => cos (sigma * sqrt (- ln u) * gfun d1 d2 v))); [|apply gauss_mean].
    intros u v _. unfold mode_cos, plane_mode, gau_radius, circle, gfun, sigma. cbn [fst snd]. f_equal. fold d1 d2. ring.
  - unfold sigma. replace ((2 * PI * (sqrt PI / gau_scale L)) ^ 2) with (4 * PI ^ 2 * (sqrt PI * sqrt PI) / gau_scale L ^ 2) by (field; lra).
    rewrite sqrt_sqrt by lra. rewrite S2. field. lra.
Qed.
Lemma mode_phase L gauss a b k m x y M : modes 2 gauss L a b = Ok k -> length a = M -> length b = M -> (m < M)%nat -> length x = 2%nat -> length y = 2%nat ->
  cos (2 * PI * dot k x m - 2 * PI * dot k y m) = mode_cos gauss L x y (nth m b 0) (nth m a 0).
Proof.
  intros E La Lb Hm Hx Hy. cbn in E. injection E as <-. destruct x as [|x0 [|x1 [|]]]; try discriminate. destruct y as [|y0 [|y1 [|]]]; try discriminate.
  assert (Z : forall F : R -> R -> R, nth m (zip F a b) 0 = F (nth m a 0) (nth m b 0)).
  { intros F. clear - La Lb Hm. revert b m M La Lb Hm. induction a as [|p a IH]; intros [|q b] m M La Lb Hm; cbn in La, Lb; try lia.
    destruct m as [|m]; [reflexivity|]. cbn [zip nth]. apply (IH b m (M - 1)%nat); lia. }
  unfold mode_cos. cbn [dot nth]. rewrite !Z. apply (f_equal cos). unfold plane_mode, circle. cbn [fst snd]. ring.
Qed.
Lemma plane_cov L f points i j : make_field Gauss 2 L None = Ok f ->
  cov_matrix f (coords points) i j = exp (- (((nth 0 (nth i points []) 0 - nth 0 (nth j points []) 0) ^ 2 + (nth 1 (nth i points []) 0 - nth 1 (nth j points []) 0) ^ 2) / L ^ 2)) /\ 0 < L /\ f_exponent f = 2 /\ f_dim f = 2%nat.
Proof.
  unfold make_field. destruct (Rlt_dec float_eps L) as [HL|]; [|discriminate].
  assert (L0 : 0 < L). { assert (0 < float_eps) by (unfold float_eps; apply Rinv_0_lt_compat, pow_lt; lra). lra. }
  intros E. injection E as <-. split; [|auto]. rewrite cov_form. cbn [f_exponent f_dim]. f_equal. f_equal.
  match goal with |- power ?x _ = ?y => assert (X : x = y) end.
  { etransitivity; [apply (isotropic_form 2 L (fun k => coords points j k - coords points i k) L0)|]. cbn [CovarModel.rsum]. unfold coords. field. lra. }
  rewrite X. unfold power. destruct (Req_EM_T _ 0) as [Z|Z]; [symmetry; exact Z|]. replace (2 / 2) with 1 by field. apply Rpower_1.
  set (p := nth 0 (nth i points []) 0 - nth 0 (nth j points []) 0) in *. set (q := nth 1 (nth i points []) 0 - nth 1 (nth j points []) 0) in *.
  assert (0 <= (p ^ 2 + q ^ 2) / L ^ 2). { apply Rmult_le_pos; [pose proof (pow2_ge_0 p); pose proof (pow2_ge_0 q); lra|left; apply Rinv_0_lt_compat, pow_lt, L0]. }
  lra.
Qed.

(** C196: the Fourier field with the Gaussian function in the plane has the covariance of the field computed from the
    covariance matrix: it is the mean over the modes of a function of the two uniform numbers of the mode, whose mean value is
    the entry of the covariance matrix. *)
Theorem C196_gauss_plane L f points i j : make_field Gauss 2 L None = Ok f -> Forall (fun p => length p = 2%nat) points ->
  (i < length points)%nat -> (j < length points)%nat ->
  exists c : R -> R -> R, uniform_mean c (cov_matrix f (coords points) i j) /\
    forall M a b d, (0 < M)%nat -> length a = M -> length b = M -> white M d ->
      expect d (fun z => value M f L a b points z i * value M f L a b points z j) = / INR M * total (fun m => c (nth m b 0) (nth m a 0)) M.
Proof.
  intros E Lp Hi Hj. destruct (plane_cov L f points i j E) as (C & HL & X & D).
  exists (mode_cos true L (nth i points []) (nth j points [])). split; [rewrite C; apply gauss_plane_mean, HL|].
  intros M a b d HM La Lb W.
  assert (G : (if Req_EM_T (f_exponent f) 2 then true else false) = true) by (rewrite X; destruct (Req_EM_T 2 2); [reflexivity|congruence]).
  assert (Ek : exists k, modes (f_dim f) (if Req_EM_T (f_exponent f) 2 then true else false) L a b = Ok k) by (rewrite D; eexists; reflexivity).
  destruct Ek as [k Ek].
  destruct (C195_given_modes M f L a b k points d HM Ek La Lb ltac:(rewrite D; exact Lp) W i j Hi Hj) as (_ & K & _).
  rewrite K. f_equal. unfold total. f_equal. apply map_ext_in. intros m Hm. apply in_seq in Hm. rewrite G, D in Ek.
  rewrite Forall_forall in Lp. apply (mode_phase L true a b k m _ _ M Ek La Lb); [lia|apply Lp, nth_In, Hi|apply Lp, nth_In, Hj].
Qed.
Print Assumptions C196_gauss_plane.

Lemma one_field e dim K : exists f, make_field e dim 1 K = Ok f.
Proof.
  unfold make_field. destruct K; [eexists; reflexivity|]. destruct (Rlt_dec float_eps 1) as [|N]; [eexists; reflexivity|exfalso; apply N].
  unfold float_eps. rewrite <- Rinv_1. apply Rinv_lt_contravar; [|apply Rlt_pow_R1; [lra|lia]]. rewrite Rmult_1_l. apply pow_lt. lra.
Qed.
Example C196_example : exists f, make_field Gauss 2 1 None = Ok f /\ Forall (fun p => length p = 2%nat) [[0; 0]; [1; 2]].
Proof. destruct (one_field Gauss 2 None) as [f E]. exists f. split; [exact E|]. repeat (apply Forall_cons; [reflexivity|]). apply Forall_nil. Qed.

(** ** The normal law *)
Section Normal.
Variable mean : (R -> R) -> R -> Prop.
Hypothesis Law : normal_law mean.
Lemma law_unique f a b : mean f a -> mean f b -> a = b.
Proof. intros A B. apply Rle_antisym; [apply (law_order mean Law f f a b)|apply (law_order mean Law f f b a)]; auto; intros; lra. Qed.
Definition xs (t : R) (M : nat) : R := sum_f_R0 (fun k => / INR (fact k) * (- (t ^ 2 / 2)) ^ k) M.
Lemma law_term t m : exists h, mean h ((t ^ 2 / 2) ^ m / INR (fact m)) /\ forall x, h x = (t * x) ^ (2 * m) / INR (fact (2 * m)).
Proof.
  exists (fun x => t ^ (2 * m) / INR (fact (2 * m)) * x ^ (2 * m) + 0 * x ^ (2 * m)). split.
  - replace ((t ^ 2 / 2) ^ m / INR (fact m)) with (t ^ (2 * m) / INR (fact (2 * m)) * (INR (fact (2 * m)) / (2 ^ m * INR (fact m))) + 0 * (INR (fact (2 * m)) / (2 ^ m * INR (fact m)))).
    + apply (law_linear mean Law (fun x => x ^ (2 * m)) (fun x => x ^ (2 * m))); apply (law_moments mean Law).
    + replace (t ^ 2 / 2) with (t ^ 2 * / 2) by field. rewrite Rpow_mult_distr, <- pow_mult, pow_inv. field. repeat split; try apply INR_fact_neq_0. apply pow_nonzero; lra.
  - intros x. rewrite Rpow_mult_distr. unfold Rdiv. ring.
Qed.
Lemma law_poly t M : exists h, mean h (xs t M) /\ forall x, h x = cosp M (t * x).
Proof.
  induction M as [|M (h & A & B)].
  - destruct (law_term t 0) as (h & A & B). exists h. split.
    + unfold xs. cbn [sum_f_R0]. replace (/ INR (fact 0) * (- (t ^ 2 / 2)) ^ 0) with ((t ^ 2 / 2) ^ 0 / INR (fact 0)) by (cbn; field). exact A.
    + intros x. rewrite B. cbn. field.
  - destruct (law_term t (S M)) as (g & A' & B'). exists (fun x => 1 * h x + (-1) ^ S M * g x). split.
    + unfold xs. cbn [sum_f_R0].
      replace (sum_f_R0 (fun k => / INR (fact k) * (- (t ^ 2 / 2)) ^ k) M + / INR (fact (S M)) * (- (t ^ 2 / 2)) ^ S M) with (1 * xs t M + (-1) ^ S M * ((t ^ 2 / 2) ^ S M / INR (fact (S M)))).
      * apply (law_linear mean Law h g); assumption.
      * replace (- (t ^ 2 / 2)) with (-1 * (t ^ 2 / 2)) by ring. unfold xs. rewrite Rpow_mult_distr. replace (- (t ^ 2 / 2)) with (-1 * (t ^ 2 / 2)) by ring. unfold Rdiv. ring.
    + intros x. rewrite B, B'. cbn [cosp]. ring.
Qed.
(** Mean of the cosine of a normal number. *)
Lemma law_gauss t : mean (fun x => cos (t * x)) (exp (- (t ^ 2 / 2))).
Proof.
  destruct (law_cos mean Law t) as [a Ha]. assert (a = exp (- (t ^ 2 / 2))) as <-; [|exact Ha].
  set (B := t ^ 2 / 2).
  assert (K : forall M, Rabs (a - xs t M) <= B ^ S M / INR (fact (S M))).
  { intros M. destruct (law_poly t M) as (h & A1 & A2). destruct (law_term t (S M)) as (g & B1 & B2). apply Rabs_le. split.
    - assert (1 * xs t M + -1 * (B ^ S M / INR (fact (S M))) <= a); [|lra].
      apply (law_order mean Law (fun x => 1 * h x + -1 * g x) (fun x => cos (t * x))); [apply (law_linear mean Law h g); assumption|exact Ha|].
      intros x. rewrite A2, B2. pose proof (taylor M (t * x)) as T. apply Rabs_le_between in T. lra.
    - assert (a <= 1 * xs t M + 1 * (B ^ S M / INR (fact (S M)))); [|lra].
      apply (law_order mean Law (fun x => cos (t * x)) (fun x => 1 * h x + 1 * g x)); [exact Ha|apply (law_linear mean Law h g); assumption|].
      intros x. rewrite A2, B2. pose proof (taylor M (t * x)) as T. apply Rabs_le_between in T. lra. }
  apply cond_eq. intros eps He.
  destruct (cv_speed_pow_fact B (eps / 2) ltac:(lra)) as (N1 & H1).
  pose proof (is_exp_Reals (- B)) as E. apply is_pseries_Reals in E. unfold Pser, infinite_sum in E. destruct (E (eps / 2) ltac:(lra)) as (N2 & H2).
  set (M := (N1 + N2)%nat). specialize (H1 (S M) ltac:(unfold M; lia)). unfold R_dist in H1. rewrite Rminus_0_r in H1.
  specialize (H2 M ltac:(unfold M; lia)). unfold R_dist in H2. specialize (K M). pose proof (Rle_abs (B ^ S M / INR (fact (S M)))).
  replace (a - exp (- B)) with ((a - xs t M) + (xs t M - exp (- B))) by ring. eapply Rle_lt_trans; [apply Rabs_triang|]. unfold xs in *. fold B. fold B in K. lra.
Qed.
End Normal.

(** The law of Box and Muller: the first coordinate of a point with uniform angle and squared radius of exponential law. *)
Definition box_muller (f : R -> R) (l : R) : Prop := uniform_mean (fun u v => f (sqrt 2 * sqrt (- ln u) * cos (2 * PI * v))) l.
Lemma box_muller_normal : normal_law box_muller.
Proof.
  assert (G : forall v, cos (2 * PI * v) = gfun 1 0 v) by (intros v; unfold gfun; ring).
  assert (D : dsq 1 0 = 1) by (unfold dsq; ring).
  split.
  - intros f g a b c d A B. apply (uniform_linear _ _ _ _ c d A B).
  - intros f g a b A B H. apply (uniform_order _ _ _ _ A B). intros u v. apply H.
  - intros m.
    assert (T : forall u, 0 < u < 1 -> is_RInt (fun v => (sqrt 2 * sqrt (- ln u) * cos (2 * PI * v)) ^ (2 * m)) 0 1 (2 ^ m * wallis m * (- ln u) ^ m)).
    { intros u Hu. pose proof (nlog_pos u ltac:(lra)) as P.
      replace (2 ^ m * wallis m * (- ln u) ^ m) with ((2 * - ln u) ^ m * RInt (fun v => gfun 1 0 v ^ (2 * m)) 0 1) by (rewrite circle_moment, D, pow1, Rpow_mult_distr; ring).
      apply (is_RInt_ext (V := R_NormedModule) (fun v => (2 * - ln u) ^ m * gfun 1 0 v ^ (2 * m))).
      - intros v _. assert (E : (2 * - ln u) ^ m * gfun 1 0 v ^ (2 * m) = (sqrt 2 * sqrt (- ln u) * cos (2 * PI * v)) ^ (2 * m)); [|exact E].
        rewrite G, (pow_mult (sqrt 2 * sqrt (- ln u) * gfun 1 0 v)), (pow_mult (gfun 1 0 v)), <- Rpow_mult_distr. f_equal.
        replace ((sqrt 2 * sqrt (- ln u) * gfun 1 0 v) ^ 2) with ((sqrt 2 * sqrt 2) * (sqrt (- ln u) * sqrt (- ln u)) * gfun 1 0 v ^ 2) by ring.
        rewrite !sqrt_sqrt by lra. ring.
      - apply (is_RInt_scal (V := R_NormedModule) (fun v => gfun 1 0 v ^ (2 * m))). apply (RInt_correct (V := R_CompleteNormedModule)), gpow_ex. }
    assert (E : INR (fact (2 * m)) / (2 ^ m * INR (fact m)) = 2 ^ m * wallis m * INR (fact m)).
    { rewrite <- wallis_fact. replace 4 with (2 * 2) by ring. rewrite Rpow_mult_distr. field. split; [apply INR_fact_neq_0|apply pow_nonzero; lra]. }
    rewrite E. set (w := 2 ^ m * wallis m). split.
    + intros u Hu. eexists. apply T, Hu.
    + intros eps He. set (c := Rabs w + 1). pose proof (Rabs_pos w) as W. destruct (qp_small m (eps / c)) as (e & He1 & H); [apply Rdiv_lt_0_compat; unfold c; lra|].
      exists e. split; [lra|]. intros a Ha. exists (w * (INR (fact m) - a * qp m (- ln a))). split.
      * apply (is_RInt_ext (V := R_NormedModule) (fun u => w * (- ln u) ^ m)).
        -- intros u Hu. rewrite Rmin_left, Rmax_right in Hu by lra. symmetry. apply (is_RInt_unique (V := R_CompleteNormedModule)). apply T. lra.
        -- apply (is_RInt_scal (V := R_NormedModule) (fun u => (- ln u) ^ m)). apply log_moment. lra.
      * replace (w * (INR (fact m) - a * qp m (- ln a)) - w * INR (fact m)) with (- (w * (a * qp m (- ln a)))) by ring. rewrite Rabs_Ropp, Rabs_mult.
        pose proof (qp_pos m (- ln a) (nlog_pos a ltac:(lra))). assert (0 <= a * qp m (- ln a)) by (apply Rmult_le_pos; lra). rewrite (Rabs_pos_eq (a * _)) by assumption.
        specialize (H a Ha). assert (C : eps = c * (eps / c)) by (field; unfold c; lra). rewrite C. apply Rle_lt_trans with (Rabs w * (eps / c)); [apply Rmult_le_compat_l; lra|].
        apply Rmult_lt_compat_r; [apply Rdiv_lt_0_compat; unfold c; lra|unfold c; lra].
  - intros t. eexists. unfold box_muller. apply (uniform_ext (fun u v => cos ((t * sqrt 2) * sqrt (- ln u) * gfun 1 0 v))); [|apply gauss_mean].
    intros u v _. f_equal. rewrite G. ring.
Qed.

(** ** C197: every set of parameters *)
(** The Fourier field on a line has another correlation length. *)
Theorem C197_line_covariance mean L r : normal_law mean -> 0 < L -> mean (fun g => cos (2 * PI * (gau_line L g * r))) (exp (- (r ^ 2 / (2 * PI ^ 2 * L ^ 4)))).
Proof.
  intros Law HL. destruct (gau_scale_sqr L HL) as [S0 S2]. pose proof PI_RGT_0 as P. set (t := 2 * PI * (PI / 2 / gau_scale L ^ 2) * r).
  replace (fun g => cos (2 * PI * (gau_line L g * r))) with (fun g => cos (t * g)).
  - replace (r ^ 2 / (2 * PI ^ 2 * L ^ 4)) with (t ^ 2 / 2); [apply law_gauss, Law|]. unfold t. rewrite S2. field. split; lra.
  - apply functional_extensionality. intros g. unfold gau_line, t. f_equal. ring.
Qed.
Theorem C197_line_refuted mean L f r : normal_law mean -> make_field Gauss 1 L None = Ok f -> r <> 0 -> 2 * PI ^ 2 * L ^ 2 <> 1 ->
  ~ mean (fun g => cos (2 * PI * (gau_line L g * r))) (cov_matrix f (fun i _ => INR i * r) 0 1).
Proof.
  intros Law E Hr HL C.
  assert (L0 : 0 < L). { unfold make_field in E. destruct (Rlt_dec float_eps L); [|discriminate]. assert (0 < float_eps) by (unfold float_eps; apply Rinv_0_lt_compat, pow_lt; lra). lra. }
  pose proof (law_unique mean Law _ _ _ C (C197_line_covariance mean L r Law L0)) as U. pose proof PI_RGT_0 as P.
  assert (V : cov_matrix f (fun i _ => INR i * r) 0 1 = exp (- (r ^ 2 / L ^ 2))).
  { unfold make_field in E. destruct (Rlt_dec float_eps L); [|discriminate]. injection E as <-. rewrite cov_form. cbn [f_exponent f_dim].
    match goal with |- exp (- power ?x _) = _ => assert (X : x = r ^ 2 / L ^ 2) end.
    { etransitivity; [apply (isotropic_form 1 L (fun k => INR 1 * r - INR 0 * r) L0)|]. cbn [CovarModel.rsum INR]. field. lra. }
    rewrite X. unfold power. assert (0 < r ^ 2 / L ^ 2) by (apply Rdiv_lt_0_compat; [nra|apply pow_lt, L0]).
    destruct (Req_EM_T (r ^ 2 / L ^ 2) 0); [lra|]. replace (2 / 2) with 1 by field. rewrite Rpower_1 by assumption. reflexivity. }
  rewrite V in U. apply exp_inv in U. apply HL.
  assert (W : r ^ 2 / L ^ 2 = r ^ 2 / (2 * PI ^ 2 * L ^ 4)) by lra. apply (f_equal (fun x => x * (2 * PI ^ 2 * L ^ 4) / r ^ 2)) in W.
  replace (r ^ 2 / L ^ 2 * (2 * PI ^ 2 * L ^ 4) / r ^ 2) with (2 * PI ^ 2 * L ^ 2) in W by (field; lra).
  replace (r ^ 2 / (2 * PI ^ 2 * L ^ 4) * (2 * PI ^ 2 * L ^ 4) / r ^ 2) with 1 in W by (field; repeat split; lra). exact W.
Qed.
Example C197_line_example : normal_law box_muller /\ (exists f, make_field Gauss 1 1 None = Ok f) /\ 2 * PI ^ 2 * 1 ^ 2 <> 1.
Proof. split; [apply box_muller_normal|]. split; [apply one_field|]. pose proof PI_RGT_0. pose proof PI2_1. assert (1 < PI) by lra. nra. Qed.

Lemma exponent_of x dim K f : make_field (Number x) dim 1 K = Ok f -> f_exponent f = x /\ f_dim f = dim.
Proof. unfold make_field. destruct K; [|destruct (Rlt_dec float_eps 1); [|discriminate]]; intros E; injection E as <-; auto. Qed.
Lemma number_cov x K f (p : nat -> nat -> R) (t r : R) : make_field (Number x) 2 1 K = Ok f -> 0 < t -> f_tensor f = (fun i j => (if (i =? j)%nat then 1 else 0) * t) -> 0 < r ->
  p = (fun i k => if (i =? 1)%nat then (if (k =? 0)%nat then r else 0) else 0) -> cov_matrix f p 0 1 = exp (- Rpower (t * (r * r)) (x / 2)).
Proof.
  intros E Ht T Hr ->. destruct (exponent_of _ _ _ _ E) as [X D]. rewrite cov_form, X, D, T. unfold form. cbn [CovarModel.rsum Nat.eqb].
  match goal with |- exp (- power ?x _) = _ => replace x with (t * (r * r)) by ring end.
  unfold power. destruct (Req_EM_T (t * (r * r)) 0); [|reflexivity]. exfalso. assert (0 < r * r) by nra. nra.
Qed.

(** All exponents except 2 give the same field: in the plane their covariances cannot all be right. *)
Theorem C197_exponent_refuted : ~ forall x f points i j, 1 <= x -> make_field (Number x) 2 1 None = Ok f ->
  uniform_mean (mode_cos (if Req_EM_T (f_exponent f) 2 then true else false) 1 (nth i points []) (nth j points [])) (cov_matrix f (coords points) i j).
Proof.
  intros H. destruct (one_field (Number 1) 2 None) as [f Ef]. destruct (one_field (Number 3) 2 None) as [g Eg].
  pose proof (H 1 f [[0; 0]; [2; 0]] 0%nat 1%nat ltac:(lra) Ef) as A. pose proof (H 3 g [[0; 0]; [2; 0]] 0%nat 1%nat ltac:(lra) Eg) as B.
  destruct (exponent_of _ _ _ _ Ef) as [Xf _]. destruct (exponent_of _ _ _ _ Eg) as [Xg _]. rewrite Xf in A. rewrite Xg in B.
  destruct (Req_EM_T 1 2); [lra|]. destruct (Req_EM_T 3 2); [lra|]. pose proof (uniform_unique _ _ _ A B) as U.
  assert (Q : coords [[0; 0]; [2; 0]] = (fun i k => if (i =? 1)%nat then (if (k =? 0)%nat then 2 else 0) else 0)).
  { apply functional_extensionality. intros [|[|[|i]]]; apply functional_extensionality; intros [|[|[|k]]]; reflexivity. }
  assert (T : forall x h, make_field (Number x) 2 1 None = Ok h -> f_tensor h = (fun i j => (if (i =? j)%nat then 1 else 0) * 1)).
  { intros x h E. unfold make_field in E. destruct (Rlt_dec float_eps 1); [|discriminate]. injection E as <-. cbn [f_tensor].
    apply functional_extensionality; intros i; apply functional_extensionality; intros j. f_equal. field. }
  rewrite (number_cov 1 None f _ 1 2 Ef ltac:(lra) (T _ _ Ef) ltac:(lra) Q), (number_cov 3 None g _ 1 2 Eg ltac:(lra) (T _ _ Eg) ltac:(lra) Q) in U.
  apply exp_inv in U. assert (V : Rpower (1 * (2 * 2)) (1 / 2) < Rpower (1 * (2 * 2)) (3 / 2)) by (apply Rpower_lt; lra). lra.
Qed.
(** The tensor is not used. *)
Theorem C197_tensor_refuted : exists K f points, make_field (Number 2) 2 1 (Some K) = Ok f /\ psd 2 K /\
  ~ uniform_mean (mode_cos (if Req_EM_T (f_exponent f) 2 then true else false) 1 (nth 0 points []) (nth 1 points [])) (cov_matrix f (coords points) 0 1).
Proof.
  set (K := fun i j : nat => (if (i =? j)%nat then 1 else 0) * 4). destruct (one_field (Number 2) 2 (Some K)) as [f E].
  exists K, f, [[0; 0]; [1; 0]]. split; [exact E|]. split.
  - intros c. unfold form, K. cbn [CovarModel.rsum Nat.eqb]. pose proof (pow2_ge_0 (c 0%nat)). pose proof (pow2_ge_0 (c 1%nat)). nra.
  - destruct (exponent_of _ _ _ _ E) as [X _]. rewrite X. destruct (Req_EM_T 2 2); [|lra]. intros A.
    pose proof (uniform_unique _ _ _ A (gauss_plane_mean 1 _ _ ltac:(lra))) as U.
    assert (Q : coords [[0; 0]; [1; 0]] = (fun i k => if (i =? 1)%nat then (if (k =? 0)%nat then 1 else 0) else 0)).
    { apply functional_extensionality. intros [|[|[|i]]]; apply functional_extensionality; intros [|[|[|k]]]; reflexivity. }
    rewrite (number_cov 2 (Some K) f _ 4 1 E ltac:(lra) ltac:(unfold make_field in E; injection E as <-; reflexivity) ltac:(lra) Q) in U.
    apply exp_inv in U. replace (2 / 2) with 1 in U by field. rewrite Rpower_1 in U by lra. cbn [nth] in U. lra.
Qed.

(** ** C198: sampling *)
(** C198: a Fourier field of a dimension from 1 to 3 can be sampled. Missing: dimension 3, and exponents other than 2 on a line. *)
Theorem C198_sampling_partial e dim L K f M z0 z1 a b points : make_field e dim L K = Ok f ->
  (dim = 1%nat /\ f_exponent f = 2) \/ dim = 2%nat -> length z0 = M -> length z1 = M -> length a = M -> length b = M ->
  Forall (fun p => length p = dim) points ->
  exists l, fourier_field (fun _ _ => false) (S M) M f L z0 z1 a b points = Ok (Some l) /\ length l = length points.
Proof.
  intros E D L0 L1 La Lb Lp.
  assert (Df : f_dim f = dim) by (unfold make_field in E; destruct K; [|destruct (Rlt_dec float_eps L); [|discriminate]]; injection E as <-; reflexivity).
  assert (Ek : exists k, modes (f_dim f) (if Req_EM_T (f_exponent f) 2 then true else false) L a b = Ok k).
  { rewrite Df. destruct D as [[-> ->]| ->]; [destruct (Req_EM_T 2 2); [|lra]|]; eexists; reflexivity. }
  destruct Ek as [k Ek]. eexists. split; [apply (field_ok M f L a b k points Ek La Lb) with (z := (z0, z1))|]; try assumption.
  - rewrite Df. exact Lp.
  - apply map_length.
Qed.
Theorem C198_line_refuted e L K f M z0 z1 a b points fails fuel : make_field e 1 L K = Ok f -> f_exponent f <> 2 ->
  fourier_field fails fuel M f L z0 z1 a b points = Err AttributeError.
Proof.
  intros E X. assert (Df : f_dim f = 1%nat) by (unfold make_field in E; destruct K; [|destruct (Rlt_dec float_eps L); [|discriminate]]; injection E as <-; reflexivity).
  unfold fourier_field. rewrite Df. destruct (Req_EM_T (f_exponent f) 2); [contradiction|]. reflexivity.
Qed.
Theorem C198_space_refuted e L K f M z0 z1 a b points fails fuel : make_field e 3 L K = Ok f ->
  fourier_field fails fuel M f L z0 z1 a b points = Err PyException.
Proof.
  intros E. assert (Df : f_dim f = 3%nat) by (unfold make_field in E; destruct K; [|destruct (Rlt_dec float_eps L); [|discriminate]]; injection E as <-; reflexivity).
  unfold fourier_field. rewrite Df. reflexivity.
Qed.
Example C198_example : (exists f, make_field Exponential 1 1 None = Ok f /\ f_exponent f <> 2) /\ (exists f, make_field Gauss 3 1 None = Ok f) /\
  exists f, make_field Exponential 2 1 None = Ok f.
Proof.
  split; [|split; apply one_field]. destruct (one_field Exponential 1 None) as [f E]. exists f. split; [exact E|].
  unfold make_field in E. destruct (Rlt_dec float_eps 1); [|discriminate]. injection E as <-. cbn. lra.
Qed.

Print Assumptions C197_line_covariance.
Print Assumptions C197_line_refuted.
Print Assumptions C197_exponent_refuted.
Print Assumptions C197_tensor_refuted.
Print Assumptions C198_sampling_partial.
Print Assumptions C198_line_refuted.
Print Assumptions C198_space_refuted.
