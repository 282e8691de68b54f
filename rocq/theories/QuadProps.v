(** Properties C173-C177: quadratures for moments of densities. *)
From Coq Require Import Reals Lra.
From Coquelicot Require Import Coquelicot.
From Verif Require Import Base BaseFacts QuantityModel NumModel NumFacts EstimateSpec MomentsModel MomentsSpec LegendreFacts MomentsProofs MomentsValues MomentsFacts MomentsProps
  QuadModel QuadSpec QuadFacts.
Local Open Scope R_scope.

(** What scipy's quad reports: the ends of the intervals [qs] first in the two arrays, then anything. *)
Definition reports (i : info) (qs : list (R * R)) : Prop :=
  i_last i = length qs /\ exists ra rb, i_alist i = map fst qs ++ ra /\ i_blist i = map snd qs ++ rb.
Definition tiled (a b : R) (i : info) : Prop := exists qs, reports i qs /\ tiles a b qs.
Lemma reported i qs : reports i qs -> panels i = qs.
Proof.
  intros (Hl & ra & rb & Ha & Hb). unfold panels. rewrite Hl, Ha, Hb. rewrite <- (map_length fst qs) at 1. rewrite <- (map_length snd qs).
  rewrite !firstn_app, !firstn_all, !Nat.sub_diag, !firstn_O, !app_nil_r. induction qs as [|[x y] qs IH]; [reflexivity|].
  cbn [map combine fst snd]. f_equal. clear - qs. induction qs as [|[x y] qs IH]; [reflexivity|]. cbn [map combine fst snd]. now rewrite IH.
Qed.
Lemma tiled_panels a b i : tiled a b i -> tiles a b (panels i).
Proof. intros (qs & H & Ht). now rewrite (reported i qs H). Qed.

(** * C173 *)
Theorem C173_composite : forall D pt w a b ps, exact_rule D pt w -> tiles a b ps ->
  (forall f, poly D f -> applied f (points pt ps) (weights w ps) = RInt f a b)
  /\ (sound_rule pt w -> (forall x, In x (points pt ps) -> a <= x <= b) /\ (forall v, In v (weights w ps) -> 0 < v))
  /\ (D <> O -> total (weights w ps) = b - a).
Proof.
  intros D pt w a b ps Hr Ht. split; [|split].
  - intros f Hf. now apply (composite_exact D).
  - intros Hs. split; [intros x; now apply (points_inside pt w)|intros v; now apply (weights_positive pt w a b)].
  - intros HD. rewrite <- (applied_one (points pt ps)) by (apply lengths, Hr).
    assert (H1 : poly D (fun _ => 1)) by (apply (poly_le 1); [lia|apply poly_const]).
    rewrite (composite_exact D pt w Hr (fun _ => 1) a b ps H1 Ht). rewrite RInt_const. unfold scal. cbn. unfold mult. cbn. ring.
Qed.

(** * Values of moment functions as polynomials *)
Lemma P_poly i : poly (S i) (P i) /\ poly (S (S i)) (P (S i)).
Proof.
  induction i as [|i [IH1 IH2]].
  - split; [exact (poly_const 1)|]. exists [0; 1]. split; [cbn; lia|]. intros x. rewrite P1. cbn. ring.
  - split; [exact IH2|]. apply (poly_ext _ (fun x => (2 * INR i + 3) / (INR i + 2) * (x * P (S i) x) + - ((INR i + 1) / (INR i + 2)) * P i x)).
    + intros x. rewrite P_rec. pose proof (pos2 i). field. lra.
    + apply poly_add; [apply poly_scal, poly_shift; exact IH2|]. apply (poly_le (S i)); [lia|]. now apply poly_scal.
Qed.
Lemma poly_sum {A} n (f : A -> R -> R) l : (forall a, In a l -> poly n (f a)) -> poly n (fun x => rsum (map (fun a => f a x) l)).
Proof.
  induction l as [|a l IH]; intros H; [apply poly_zero|]. apply (poly_ext _ (fun x => f a x + rsum (map (fun a => f a x) l))); [reflexivity|].
  apply poly_add; [apply H; now left|]. apply IH. intros b Hb. apply H. now right.
Qed.
Lemma mval_poly m : made m -> kind_of m <> Fourier -> forall i, (i < msize m)%nat -> poly (b_size (bottom_of m)) (mval m i).
Proof.
  intros Hm. induction Hm as [k s d r log safe b H|o mat m Ho IH Hne E]; intros Hk i Hi.
  - cbn in Hk, Hi |- *. apply (poly_le (S i)); [lia|]. unfold fval. destruct (b_kind b); [apply poly_pow|easy|apply P_poly].
  - apply mk_trans_ok in E as [-> Hr]. cbn [mval bottom_of kind_of] in *.
    apply (poly_sum _ (fun p t => mval o (fst p) t * snd p)). intros [j c] Hj. cbn [fst snd]. apply in_combine_l, in_seq in Hj.
    apply (poly_ext _ (fun t => c * mval o j t)); [intros; ring|]. apply poly_scal. apply IH; [exact Hk|lia].
Qed.
(** The value inside the domain. *)
Definition refx (m : mfn) (x : R) : R := match transform (bottom_of m) (Fin x) with Fin t => t | _ => 0 end.
Lemma made_bottom m : made m -> exists k s d r log safe, init k s d r log safe = Ok (bottom_of m).
Proof. induction 1 as [k s d r log safe b H|o mat m Ho IH Hne E]; [cbn; eauto 10|]. apply mk_trans_ok in E as [-> _]. exact IH. Qed.
Lemma domain_bottom m : domain_of m = b_domain (bottom_of m).
Proof. induction m; auto. Qed.
Lemma inside_eval m x : made m -> increasing (bottom_of m) -> fst (domain_of m) <= x <= snd (domain_of m) ->
  transform (bottom_of m) (Fin x) = Fin (refx m x) /\ eval_all m (Fin x) None = Ok (map (fun i => Fin (mval m i (refx m x))) (seq 0 (msize m))).
Proof.
  intros Hm Hi Hx. destruct (made_bottom m Hm) as (k & s & d & r & log & safe & HI).
  destruct (transform_inside k s d r log safe _ HI (Fin x) Hi) as (t & Et & _); [exists x; split; [reflexivity|now rewrite <- domain_bottom]|].
  assert (Er : refx m x = t) by (unfold refx; now rewrite Et). rewrite Er. split; [exact Et|]. now apply evals_fin.
Qed.
Lemma inside_affine m x : made m -> increasing (bottom_of m) -> b_log (bottom_of m) = false -> fst (domain_of m) <= x <= snd (domain_of m) ->
  refx m x = b_scale (bottom_of m) * x + (fst (b_ref (bottom_of m)) - b_shift (bottom_of m) * b_scale (bottom_of m)).
Proof.
  intros Hm Hi Hl Hx. destruct (made_bottom m Hm) as (k & s & d & r & log & safe & HI).
  destruct (transform_inside k s d r log safe _ HI (Fin x) Hi) as (t & Et & El & _); [exists x; split; [reflexivity|now rewrite <- domain_bottom]|].
  unfold refx. rewrite Et. unfold logv in El. rewrite Hl, linear_fin in El. injection El as <-. ring.
Qed.

(** * Sums over the points of a quadrature *)
Lemma mapM_ok {A B} (f : A -> res B) g l : (forall x, In x l -> f x = Ok (g x)) -> mapM f l = Ok (map g l).
Proof. induction l as [|x l IH]; intros H; [reflexivity|]. cbn. rewrite H by now left. cbn. rewrite IH by (intros y Hy; apply H; now right). reflexivity. Qed.
Lemma nth_values {A} (F : nat -> A) n i d : (i < n)%nat -> nth i (map F (seq 0 n)) d = F i.
Proof. intros H. rewrite (nth_indep _ d (F O)) by (now rewrite map_length, seq_length). now rewrite map_nth, seq_nth. Qed.
Section Semi.
Variables (pt w : list R) (density : R -> R) (m : mfn) (F : nat -> R -> R).
Hypothesis HF : forall x, fst (domain_of m) <= x <= snd (domain_of m) -> eval_all m (Fin x) None = Ok (map (fun i => Fin (F i x)) (seq 0 (msize m))).
Variable ps : list (R * R).
Hypothesis Hin : forall x, In x (points pt ps) -> fst (domain_of m) <= x <= snd (domain_of m).
Lemma rows_ok : rows pt m ps = Ok (map (fun x => map (fun i => Fin (F i x)) (seq 0 (msize m))) (points pt ps)).
Proof. apply mapM_ok. intros x Hx. apply HF, Hin, Hx. Qed.
Lemma combined (G : R * list num -> num) (H : R -> R -> R) (xs ws : list R) (g : R -> list num) :
  (forall x v, In x xs -> G (density x * v, g x) = Fin (H x v)) ->
  nsum (map G (combine (map (fun p => density (fst p) * snd p) (combine xs ws)) (map g xs))) = Fin (total (map (fun p => H (fst p) (snd p)) (combine xs ws))).
Proof.
  intros HG. change total with rsum. rewrite <- nsum_fin, map_map. f_equal. revert ws HG. induction xs as [|x xs IH]; intros [|v ws] HG; try reflexivity.
  cbn [combine map fst snd]. rewrite HG by now left. f_equal. apply IH. intros y u Hy. apply HG. now right.
Qed.
Lemma moment_sum i : (i < msize m)%nat ->
  nsum (map (fun p => nmul (Fin (fst p)) (nth i (snd p) NaN)) (combine (dens_weights pt w density ps) (map (fun x => map (fun i => Fin (F i x)) (seq 0 (msize m))) (points pt ps))))
  = Fin (applied (fun x => F i x * density x) (points pt ps) (weights w ps)).
Proof.
  intros Hi. unfold dens_weights. rewrite (combined _ (fun x v => F i x * density x * v)); [reflexivity|]. intros x v _. cbn [fst snd].
  rewrite nth_values by exact Hi. rewrite nmul_fin. f_equal. ring.
Qed.
Lemma cov_sum i j : (i < msize m)%nat -> (j < msize m)%nat ->
  nsum (map (fun p => nmul (nmul (nth i (snd p) NaN) (Fin (fst p))) (nth j (snd p) NaN)) (combine (dens_weights pt w density ps) (map (fun x => map (fun i => Fin (F i x)) (seq 0 (msize m))) (points pt ps))))
  = Fin (applied (fun x => F i x * F j x * density x) (points pt ps) (weights w ps)).
Proof.
  intros Hi Hj. unfold dens_weights. rewrite (combined _ (fun x v => F i x * F j x * density x * v)); [reflexivity|]. intros x v _. cbn [fst snd].
  rewrite !nth_values by assumption. rewrite !nmul_fin. f_equal. ring.
Qed.
End Semi.

(** * C174 *)
Theorem C174_semiexact : forall D pt w quad density d m, made m -> kind_of m <> Fourier -> b_log (bottom_of m) = false -> increasing (bottom_of m) ->
  exact_rule D pt w -> sound_rule pt w -> (forall f a b, a < b -> tiled a b (quad f a b)) ->
  poly d density -> (2 * (b_size (bottom_of m) - 1) + d <= D)%nat ->
  let (a, b) := domain_of m in
  exists F : nat -> R -> R,
    (forall x, a <= x <= b -> eval_all m (Fin x) None = Ok (map (fun i => Fin (F i x)) (seq 0 (msize m))))
    /\ semiexact_moments pt w quad density m = Ok (map (fun i => Fin (RInt (fun x => F i x * density x) a b)) (seq 0 (msize m)))
    /\ semiexact_cov pt w quad density m = Ok (map (fun i => map (fun j => Fin (RInt (fun x => F i x * F j x * density x) a b)) (seq 0 (msize m))) (seq 0 (msize m))).
Proof.
  intros D pt w quad density d m Hm Hk Hl Hi Hr Hs Hq Hd HD.
  assert (Hab : fst (domain_of m) < snd (domain_of m)).
  { destruct (made_bottom m Hm) as (k & s & dd & r & log & safe & HI). apply init_ok in HI as (_ & _ & _ & _ & _ & _ & H & _). unfold mapped in H. rewrite Hl in H. now rewrite domain_bottom. }
  assert (Hb : b_size (bottom_of m) <> O).
  { destruct (made_bottom m Hm) as (k & s & dd & r & log & safe & HI). apply init_ok in HI as (H & _ & E & _). now rewrite E. }
  destruct (domain_of m) as [a b] eqn:Ed. cbn [fst snd] in Hab.
  set (F := fun i x => mval m i (b_scale (bottom_of m) * x + (fst (b_ref (bottom_of m)) - b_shift (bottom_of m) * b_scale (bottom_of m)))).
  assert (HF : forall x, fst (domain_of m) <= x <= snd (domain_of m) -> eval_all m (Fin x) None = Ok (map (fun i => Fin (F i x)) (seq 0 (msize m)))).
  { intros x Hx. destruct (inside_eval m x Hm Hi Hx) as [_ ->]. f_equal. apply map_ext. intros i. unfold F. now rewrite (inside_affine m x Hm Hi Hl Hx). }
  assert (HP : forall i, (i < msize m)%nat -> poly (b_size (bottom_of m)) (F i)) by (intros i H; apply (poly_affine _ (mval m i)); now apply mval_poly).
  exists F. split; [intros x Hx; apply HF; rewrite Ed; exact Hx|]. split.
  - unfold semiexact_moments. rewrite Ed. cbn [fst snd]. set (ps := panels _). assert (Ht : tiles a b ps) by now apply tiled_panels, Hq.
    rewrite (rows_ok pt m F HF ps) by (rewrite Ed; intros x; now apply (points_inside pt w)). cbn [bind]. f_equal. apply map_ext_in. intros i Hii. apply in_seq in Hii.
    rewrite moment_sum by lia. f_equal. apply (composite_exact D); [exact Hr| |exact Ht]. apply (poly_le (pred (b_size (bottom_of m) + d))); [lia|]. apply poly_mul; [apply HP; lia|exact Hd].
  - unfold semiexact_cov. rewrite Ed. cbn [fst snd]. set (ps := panels _). assert (Ht : tiles a b ps) by now apply tiled_panels, Hq.
    rewrite (rows_ok pt m F HF ps) by (rewrite Ed; intros x; now apply (points_inside pt w)). cbn [bind]. f_equal. apply map_ext_in. intros i Hii. apply in_seq in Hii.
    apply map_ext_in. intros j Hjj. apply in_seq in Hjj.
    rewrite cov_sum by lia. f_equal. apply (composite_exact D); [exact Hr| |exact Ht].
    apply (poly_le (pred (pred (b_size (bottom_of m) + b_size (bottom_of m)) + d))); [lia|]. apply poly_mul; [apply poly_mul; apply HP; lia|exact Hd].
Qed.

(** * C175: symmetric and positive semidefinite for every nonnegative density *)
Theorem C175_semidefinite : forall pt w quad density m, made m -> increasing (bottom_of m) -> length pt = length w -> sound_rule pt w ->
  (forall f, tiled (fst (domain_of m)) (snd (domain_of m)) (quad f (fst (domain_of m)) (snd (domain_of m)))) ->
  (forall x, fst (domain_of m) <= x <= snd (domain_of m) -> 0 <= density x) ->
  exists c : nat -> nat -> R,
    semiexact_cov pt w quad density m = Ok (map (fun i => map (fun j => Fin (c i j)) (seq 0 (msize m))) (seq 0 (msize m)))
    /\ (forall i j, c i j = c j i)
    /\ forall y : nat -> R, 0 <= total (map (fun i => total (map (fun j => y i * c i j * y j) (seq 0 (msize m)))) (seq 0 (msize m))).
Proof.
  intros pt w quad density m Hm Hi Hlen Hs Hq Hd. set (F := fun i x => mval m i (refx m x)).
  assert (HF : forall x, fst (domain_of m) <= x <= snd (domain_of m) -> eval_all m (Fin x) None = Ok (map (fun i => Fin (F i x)) (seq 0 (msize m)))).
  { intros x Hx. now destruct (inside_eval m x Hm Hi Hx) as [_ ->]. }
  unfold semiexact_cov. set (ps := panels _).
  assert (Ht : tiles (fst (domain_of m)) (snd (domain_of m)) ps) by apply tiled_panels, Hq.
  exists (fun i j => applied (fun x => F i x * F j x * density x) (points pt ps) (weights w ps)). split; [|split].
  - rewrite (rows_ok pt m F HF ps) by (intros x; now apply (points_inside pt w)). cbn [bind]. f_equal. apply map_ext_in. intros i Hii. apply in_seq in Hii.
    apply map_ext_in. intros j Hjj. apply in_seq in Hjj. apply cov_sum; lia.
  - intros i j. apply applied_ext. intros x _. ring.
  - intros y.
    assert (E : total (map (fun i => total (map (fun j => y i * applied (fun x => F i x * F j x * density x) (points pt ps) (weights w ps) * y j) (seq 0 (msize m)))) (seq 0 (msize m)))
      = total (map (fun p => total (map (fun i => y i * F i (fst p)) (seq 0 (msize m))) ^ 2 * (density (fst p) * snd p)) (combine (points pt ps) (weights w ps)))).
    { unfold applied. generalize (combine (points pt ps) (weights w ps)) as l. intros l. generalize (seq 0 (msize m)) as I. intros I. change total with rsum in *.
      transitivity (rsum (map (fun i => rsum (map (fun j => rsum (map (fun p => y i * F i (fst p) * (y j * F j (fst p)) * (density (fst p) * snd p)) l)) I)) I)).
      - apply rsum_ext. intros i _. apply rsum_ext. intros j _. rewrite Rmult_assoc, (Rmult_comm _ (y j)), <- Rmult_assoc, <- rsum_map_mul. apply rsum_ext. intros p _. ring.
      - transitivity (rsum (map (fun i => rsum (map (fun p => rsum (map (fun j => y i * F i (fst p) * (y j * F j (fst p)) * (density (fst p) * snd p)) I)) l)) I)).
        + apply rsum_ext. intros i _. apply rsum_swap.
        + rewrite rsum_swap. apply rsum_ext. intros p _.
          transitivity (rsum (map (fun i => y i * F i (fst p) * (rsum (map (fun j => y j * F j (fst p)) I) * (density (fst p) * snd p))) I)).
          * apply rsum_ext. intros i _. rewrite (Rmult_comm (rsum _) (density (fst p) * snd p)), <- Rmult_assoc, <- rsum_map_mul. apply rsum_ext. intros j _. ring.
          * rewrite (rsum_ext _ (fun i => rsum (map (fun j => y j * F j (fst p)) I) * (density (fst p) * snd p) * (y i * F i (fst p)))) by (intros; ring). rewrite rsum_map_mul. ring. }
    rewrite E. change total with rsum. apply rsum_nonneg. intros z Hz. apply in_map_iff in Hz as ([x v] & <- & Hp). cbn [fst snd].
    apply Rmult_le_pos; [rewrite <- Rsqr_pow2; apply Rle_0_sqr|]. apply Rmult_le_pos.
    + apply Hd. eapply (points_inside pt w); eauto. apply in_combine_l in Hp. exact Hp.
    + apply Rlt_le. apply in_combine_r in Hp. eapply (weights_positive pt w); eauto.
Qed.

(** * C176: exact integration gives the covariance matrix *)
(** An integrator that is exact for integrable functions. *)
Definition exact_value (value : (R -> res num) -> R -> R -> num) : Prop := forall f g a b, a <= b ->
  (forall x, a <= x <= b -> f x = Ok (Fin (g x))) -> ex_RInt g a b -> value f a b = Fin (RInt g a b).
Lemma fill_row {A} (v : nat -> A) n : forall k l, length l = (k + n)%nat ->
  fold_left (fun acc i => upd acc i (fun _ => v i)) (seq k n) l = firstn k l ++ map v (seq k n).
Proof.
  induction n as [|n IH]; intros k l Hl.
  - cbn. rewrite app_nil_r, firstn_all2 by lia. reflexivity.
  - cbn [seq fold_left map]. rewrite IH by (rewrite upd_length; lia).
    assert (E : firstn (S k) (upd l k (fun _ => v k)) = firstn k l ++ [v k]).
    { apply nth_error_ext. intros i. destruct (lt_eq_lt_dec i k) as [[H|H]|H].
      - rewrite nth_error_prefix, nth_error_upd_neq by lia. rewrite nth_error_app1 by (rewrite firstn_length; lia). now rewrite nth_error_prefix.
      - subst i. rewrite nth_error_prefix by lia. rewrite nth_error_app2 by (rewrite firstn_length; lia). rewrite firstn_length, Nat.min_l, Nat.sub_diag by lia. cbn.
        destruct (nth_error l k) as [x|] eqn:Ex; [|apply nth_error_None in Ex; lia]. rewrite nth_error_upd_eq, Ex. reflexivity.
      - rewrite (proj2 (nth_error_None _ _)) by (rewrite firstn_length, upd_length; lia). symmetry. apply nth_error_None. rewrite app_length, firstn_length. cbn. lia. }
    rewrite E, <- app_assoc. reflexivity.
Qed.
Definition cellm (a : list (list num)) (i j : nat) : option num := match nth_error a i with Some row => nth_error row j | None => None end.
Definition square (n : nat) (a : list (list num)) : Prop := length a = n /\ forall row, In row a -> length row = n.
Lemma put_square n i j v a : square n a -> square n (put i j v a).
Proof.
  intros [H1 H2]. split; [unfold put; now rewrite upd_length|]. intros row Hr. apply In_nth_error in Hr as (k & Hk). unfold put in Hk.
  destruct (Nat.eq_dec i k) as [->|Hn].
  - rewrite nth_error_upd_eq in Hk. destruct (nth_error a k) as [r|] eqn:E; [|discriminate]. cbn in Hk. injection Hk as <-. rewrite upd_length. apply H2. now apply nth_error_In in E.
  - rewrite nth_error_upd_neq in Hk by exact Hn. apply H2. now apply nth_error_In in Hk.
Qed.
Lemma put_cell n i j v a x y : square n a -> (i < n)%nat -> (j < n)%nat -> cellm (put i j v a) x y = if (Nat.eqb x i && Nat.eqb y j)%bool then Some v else cellm a x y.
Proof.
  intros [H1 H2] Hi Hj. unfold cellm, put. destruct (Nat.eqb_spec x i) as [->|Hn]; cbn [andb].
  - rewrite nth_error_upd_eq. destruct (nth_error a i) as [row|] eqn:E; [|apply nth_error_None in E; lia]. cbn [option_map].
    assert (Hr : length row = n) by (apply H2; now apply nth_error_In in E). destruct (Nat.eqb_spec y j) as [->|Hy].
    + rewrite nth_error_upd_eq. destruct (nth_error row j) as [z|] eqn:Ez; [reflexivity|apply nth_error_None in Ez; lia].
    + now rewrite nth_error_upd_neq by auto.
  - now rewrite nth_error_upd_neq by auto.
Qed.
Definition both (V : nat -> nat -> num) (acc : list (list num)) (p : nat * nat) : list (list num) :=
  put (fst p) (snd p) (V (fst p) (snd p)) (put (snd p) (fst p) (V (fst p) (snd p)) acc).
Lemma fill_pairs V n L : (forall i j, In (i, j) L -> (i < n)%nat /\ (j <= i)%nat) -> forall a0, square n a0 ->
  square n (fold_left (both V) L a0) /\ forall x y, In (Nat.max x y, Nat.min x y) L -> cellm (fold_left (both V) L a0) x y = Some (V (Nat.max x y) (Nat.min x y)).
Proof.
  induction L as [|[i j] L IH] using rev_ind; intros HL a0 H0; [split; [exact H0|intros x y []]|].
  rewrite fold_left_app. cbn [fold_left]. destruct (IH ltac:(intros u v Hu; apply HL, in_or_app; now left) a0 H0) as [Hs Hc].
  destruct (HL i j) as [Hi Hj]; [apply in_or_app; right; now left|]. unfold both at 1 3. cbn [fst snd]. set (a := fold_left (both V) L a0) in *. split.
  - now apply put_square, put_square.
  - intros x y Hxy. rewrite (put_cell n) by (try lia; now apply put_square). rewrite (put_cell n) by (auto; lia).
    assert (Hold : (x = i /\ y = j \/ x = j /\ y = i) \/ cellm a x y = Some (V (Nat.max x y) (Nat.min x y))).
    { apply in_app_or in Hxy as [Hxy|[E|[]]]; [right; now apply Hc|]. injection E as E1 E2. left. lia. }
    destruct (Nat.eqb_spec x i) as [E1|E1]; destruct (Nat.eqb_spec y j) as [E2|E2]; destruct (Nat.eqb_spec x j) as [E3|E3]; destruct (Nat.eqb_spec y i) as [E4|E4]; cbn [andb];
      try (destruct Hold as [[Ho|Ho]|Ho]; [exfalso; lia|exfalso; lia|exact Ho]); do 2 f_equal; lia.
Qed.
Lemma fold_nested {A B C} (f : A -> B -> C -> A) (g : B -> list C) (L : list B) a :
  fold_left (fun acc i => fold_left (fun acc j => f acc i j) (g i) acc) L a = fold_left (fun acc p => f acc (fst p) (snd p)) (flat_map (fun i => map (pair i) (g i)) L) a.
Proof.
  revert a. induction L as [|i L IH]; intros a; [reflexivity|]. cbn [fold_left flat_map]. rewrite fold_left_app, IH. f_equal. generalize a. clear.
  induction (g i) as [|c l IH]; intros a; [reflexivity|]. cbn. apply IH.
Qed.
Lemma matrix_ext n a (c : nat -> nat -> num) : square n a -> (forall x y, (x < n)%nat -> (y < n)%nat -> cellm a x y = Some (c x y)) ->
  a = map (fun i => map (c i) (seq 0 n)) (seq 0 n).
Proof.
  intros [H1 H2] Hc. apply nth_error_ext. intros i. rewrite nth_error_map, nth_error_seq. destruct (Nat.ltb_spec i n) as [Hi|Hi].
  - cbn. destruct (nth_error a i) as [row|] eqn:E; [|apply nth_error_None in E; lia]. f_equal. assert (Hr : length row = n) by (apply H2; now apply nth_error_In in E).
    apply nth_error_ext. intros j. rewrite nth_error_map, nth_error_seq. destruct (Nat.ltb_spec j n) as [Hj|Hj].
    + specialize (Hc i j Hi Hj). unfold cellm in Hc. now rewrite E in Hc.
    + cbn. apply nth_error_None. lia.
  - cbn. apply nth_error_None. lia.
Qed.
Lemma entry_ok m i x (F : nat -> R -> R) : eval_all m (Fin x) None = Ok (map (fun i => Fin (F i x)) (seq 0 (msize m))) -> (i < msize m)%nat -> entry m i x = Ok (Fin (F i x)).
Proof. intros H Hi. unfold entry. rewrite H. cbn [bind]. rewrite nth_error_map, nth_error_seq. now apply Nat.ltb_lt in Hi as ->. Qed.
Theorem C176_exact : forall value density m, exact_value value -> made m -> increasing (bottom_of m) -> fst (domain_of m) <= snd (domain_of m) ->
  exists F : nat -> R -> R,
    (forall x, fst (domain_of m) <= x <= snd (domain_of m) -> eval_all m (Fin x) None = Ok (map (fun i => Fin (F i x)) (seq 0 (msize m))))
    /\ ((forall i j, (i < msize m)%nat -> (j < msize m)%nat -> ex_RInt (fun x => F i x * F j x * density x) (fst (domain_of m)) (snd (domain_of m))) ->
        exact_cov value density m = map (fun i => map (fun j => Fin (RInt (fun x => F i x * F j x * density x) (fst (domain_of m)) (snd (domain_of m)))) (seq 0 (msize m))) (seq 0 (msize m)))
    /\ (kind_of m <> Fourier -> (forall i, (i < msize m)%nat -> ex_RInt (fun x => F i x * density x) (fst (domain_of m)) (snd (domain_of m))) ->
        exact_moments value density m = map (fun i => Fin (RInt (fun x => F i x * density x) (fst (domain_of m)) (snd (domain_of m)))) (seq 0 (msize m))).
Proof.
  intros value density m Hv Hm Hi Hab. set (F := fun i x => mval m i (refx m x)).
  assert (HF : forall x, fst (domain_of m) <= x <= snd (domain_of m) -> eval_all m (Fin x) None = Ok (map (fun i => Fin (F i x)) (seq 0 (msize m)))).
  { intros x Hx. now destruct (inside_eval m x Hm Hi Hx) as [_ ->]. }
  exists F. split; [exact HF|]. set (a := fst (domain_of m)) in *. set (b := snd (domain_of m)) in *. split.
  - intros Hint. set (V := fun i j => value (fun x => bind (entry m i x) (fun u => bind (entry m j x) (fun v => Ok (nmul (nmul u v) (Fin (density x)))))) a b).
    set (L := flat_map (fun i => map (pair i) (seq 0 (S i))) (seq 0 (msize m))).
    assert (E : exact_cov value density m = fold_left (both V) L (repeat (repeat (Fin 0) (msize m)) (msize m))).
    { unfold exact_cov. fold a b. exact (fold_nested (fun acc i j => put i j (V i j) (put j i (V i j) acc)) (fun i => seq 0 (S i)) _ _). }
    rewrite E. assert (HL : forall i j, In (i, j) L <-> (i < msize m)%nat /\ (j <= i)%nat).
    { intros i j. unfold L. rewrite in_flat_map. split.
      - intros (k & Hk & Hj). apply in_map_iff in Hj as (u & Eu & Hu). injection Eu as -> ->. apply in_seq in Hk, Hu. lia.
      - intros [H1 H2]. exists i. split; [apply in_seq; lia|]. apply in_map, in_seq. lia. }
    destruct (fill_pairs V (msize m) L (fun i j => proj1 (HL i j)) (repeat (repeat (Fin 0) (msize m)) (msize m))) as [Hs Hc].
    { split; [apply repeat_length|]. intros row Hr. apply repeat_spec in Hr as ->. apply repeat_length. }
    rewrite (matrix_ext (msize m) _ (fun i j => Fin (RInt (fun x => F i x * F j x * density x) a b)) Hs); [reflexivity|].
    intros x y Hx Hy. rewrite Hc by (apply HL; lia). f_equal. unfold V.
    rewrite (Hv _ (fun z => F (Nat.max x y) z * F (Nat.min x y) z * density z) a b Hab).
    + f_equal. apply RInt_eq. intros z. destruct (Nat.le_ge_cases x y) as [H|H]; [rewrite (Nat.max_r x y H), (Nat.min_l x y H)|rewrite (Nat.max_l x y H), (Nat.min_r x y H)]; ring.
    + intros z Hz. rewrite (entry_ok m _ z F (HF z Hz)) by lia. cbn [bind]. rewrite (entry_ok m _ z F (HF z Hz)) by lia. cbn [bind]. now rewrite !nmul_fin.
    + apply Hint; lia.
  - intros Hk Hint. unfold exact_moments. fold a b. rewrite fill_row by (now rewrite repeat_length). cbn [firstn app]. apply map_ext_in. intros i Hii. apply in_seq in Hii.
    rewrite (Hv _ (fun z => F i z * density z) a b Hab); [reflexivity| |apply Hint; lia]. intros z Hz.
    destruct (C47_eval_partial m i (Fin z) Hm ltac:(lia)) as (l & v & E1 & E2 & E3).
    { destruct m as [bb|o mat]; [|exact I]. destruct (b_kind bb) eqn:Ekb; [right|exfalso; now apply Hk|now left]. split; [reflexivity|]. right.
      destruct (inside_eval (Basis bb) z Hm Hi Hz) as [Et _]. cbn [bottom_of] in Et. rewrite Et. now eexists. }
    rewrite (HF z Hz) in E1. assert (El : l = map (fun i => Fin (F i z)) (seq 0 (msize m))) by congruence. subst l. rewrite nth_error_map, nth_error_seq in E3.
    rewrite (proj2 (Nat.ltb_lt i (msize m))) in E3 by lia. cbn in E3. assert (Ev : v = Fin (F i z)) by congruence. subst v. rewrite E2. cbn [bind]. now rewrite nmul_fin.
Qed.

(** * C177: the quadrature kept by the density fit *)
Lemma fit_inv pt w size mom errs tol sub l0 ls : exists l, fit_run pt w size mom errs tol sub l0 ls = renew pt w size mom errs sub l.
Proof.
  unfold fit_run. assert (H : exists l, renew pt w size mom errs sub l0 = renew pt w size mom errs sub l) by eauto. revert H. generalize (renew pt w size mom errs sub l0) as s.
  induction ls as [|l ls IH]; intros s H; [exact H|]. cbn [fold_left]. apply IH. unfold update. destruct (Rlt_dec _ _); [exact H|]. destruct (Rlt_dec _ _); [exact H|]. eauto.
Qed.
Theorem C177_kept : forall D pt w size mom errs tol sub a b l0 ls, exact_rule D pt w -> sound_rule pt w -> (forall l, tiled a b (sub l)) ->
  let s := fit_run pt w size mom errs tol sub l0 ls in
  (forall f, poly D f -> applied f (q_points s) (q_weights s) = RInt f a b)
  /\ (forall x, In x (q_points s) -> a <= x <= b) /\ (forall v, In v (q_weights s) -> 0 < v)
  /\ length (q_points s) = length (q_weights s) /\ q_moments s = map mom (q_points s)
  /\ forall i, (i < size)%nat -> errs i <> 0 ->
     q_grad s i * errs i = applied (fun x => mom x i * density_simple size mom errs (q_last s) x) (q_points s) (q_weights s).
Proof.
  intros D pt w size mom errs tol sub a b l0 ls Hr Hs Ht. cbv zeta. destruct (fit_inv pt w size mom errs tol sub l0 ls) as (l & ->).
  destruct (C173_composite D pt w a b (panels (sub l)) Hr (tiled_panels _ _ _ (Ht l))) as (H1 & H2 & _). destruct (H2 Hs) as [H3 H4].
  unfold renew. cbn [q_points q_weights q_moments q_grad q_last]. split; [exact H1|]. split; [exact H3|]. split; [exact H4|]. split; [apply lengths, Hr|]. split; [reflexivity|].
  intros i _ He. replace (_ / errs i * errs i) with (fold_right Rplus 0 (map (fun p => fst p i * exp (clip200 (- sumv size (fun k => fst p k * (l k / errs k)))) * snd p)
     (combine (map mom (points pt (panels (sub l)))) (weights w (panels (sub l)))))) by (field; exact He).
  unfold applied. fold (total (map (fun p => fst p i * exp (clip200 (- sumv size (fun k => fst p k * (l k / errs k)))) * snd p) (combine (map mom (points pt (panels (sub l)))) (weights w (panels (sub l)))))).
  generalize (points pt (panels (sub l))) as xs, (weights w (panels (sub l))) as ws. induction xs as [|x xs IH]; intros [|v ws]; try reflexivity.
  cbn [map combine]. rewrite !total_cons, IH. cbn [fst snd]. f_equal. unfold density_simple.
  replace (sumv size (fun k => mom x k * (l k / errs k))) with (sumv size (fun k => mom x k * l k / errs k)); [reflexivity|].
  unfold sumv. f_equal. apply map_ext. intros k. unfold Rdiv. ring.
Qed.
(** The products of two vectors and their norms. *)
Lemma schwarz {A} (f g : A -> R) l : Rabs (total (map (fun i => f i * g i) l)) <= sqrt (total (map (fun i => f i * f i) l)) * sqrt (total (map (fun i => g i * g i) l)).
Proof.
  assert (P : forall h : A -> R, 0 <= total (map (fun i => h i * h i) l)).
  { intros h. induction l as [|x l IH]; cbn [map]; [cbn; lra|]. rewrite total_cons. pose proof (Rle_0_sqr (h x)). unfold Rsqr in *. lra. }
  set (a := total (map (fun i => f i * f i) l)). set (b := total (map (fun i => g i * g i) l)). set (c := total (map (fun i => f i * g i) l)).
  assert (Ha : 0 <= a) by apply P. assert (Hb : 0 <= b) by apply P.
  assert (H : 0 <= b * (a * b - c * c)).
  { pose proof (P (fun i => b * f i - c * g i)) as H. erewrite total_ext in H; [|intros x _; instantiate (1 := fun x => b * b * (f x * f x) + ((- 2 * b * c) * (f x * g x) + c * c * (g x * g x))); cbn beta; ring].
    rewrite total_add, total_scal, total_add, !total_scal in H. fold a b c in H. replace (b * (a * b - c * c)) with (b * b * a + (-2 * b * c * c + c * c * b)) by ring. exact H. }
  rewrite <- sqrt_mult by assumption. rewrite <- sqrt_Rsqr_abs. apply sqrt_le_1_alt. unfold Rsqr.
  destruct (Rle_lt_or_eq_dec 0 b Hb) as [Hp|Hz].
  - assert (0 <= a * b - c * c); [|lra]. apply (Rmult_le_reg_l b); [exact Hp|]. now rewrite Rmult_0_r.
  - assert (c = 0) as ->; [|rewrite Rmult_0_r; nra]. assert (Z : forall x, In x l -> g x = 0).
    { clear - Hz. unfold b in Hz. clear b. induction l as [|x l IH]; [easy|]. cbn [map] in Hz. rewrite total_cons in Hz.
      assert (0 <= total (map (fun i => g i * g i) l)). { clear. induction l as [|x l IH]; cbn [map]; [cbn; lra|]. rewrite total_cons. pose proof (Rle_0_sqr (g x)). unfold Rsqr in *. lra. }
      pose proof (Rle_0_sqr (g x)) as Hs. unfold Rsqr in Hs. intros y [<-|Hy]; [apply Rsqr_0_uniq; unfold Rsqr; lra|apply IH; [lra|exact Hy]]. }
    unfold c. rewrite (total_ext _ (fun _ => 0)); [|intros x Hx; rewrite (Z x Hx); ring]. clear. induction l as [|x l IH]; [reflexivity|]. cbn [map]. rewrite total_cons, IH. ring.
Qed.
(** The quadrature in use at multipliers l was made for l, or for multipliers where the first order change of the integral of
    the density up to l is below the tolerance. *)
Theorem C177_close : forall pt w size mom errs tol sub l0 ls l, let s := fit_run pt w size mom errs tol sub l0 (ls ++ [l]) in
  (q_last s = l /\ q_points s = points pt (panels (sub l)) /\ q_weights s = weights w (panels (sub l)))
  \/ Rabs (total (map (fun i => q_grad s i * (l i - q_last s i)) (seq 0 size))) < tol.
Proof.
  intros pt w size mom errs tol sub l0 ls l. cbv zeta. unfold fit_run. rewrite fold_left_app. cbn [fold_left]. generalize (fold_left (fun s l1 => update pt w size mom errs tol sub l1 s) ls (renew pt w size mom errs sub l0)) as s. intros s.
  unfold update. destruct (Rlt_dec _ _) as [H1|H1]; [|destruct (Rlt_dec _ _) as [H2|H2]].
  - right. eapply Rle_lt_trans; [apply schwarz|]. exact H1.
  - right. exact H2.
  - left. repeat split.
Qed.

(** * C178: the first density *)
Lemma sumv_first n f : n <> O -> (forall i, f (S i) = 0) -> sumv n f = f O.
Proof.
  intros Hn Hf. unfold sumv. destruct n as [|n]; [easy|]. cbn [seq map fold_right].
  assert (E : forall k, fold_right Rplus 0 (map f (seq (S k) n)) = 0).
  { clear Hn. induction n as [|n IH]; intros k; [reflexivity|]. cbn [seq map fold_right]. rewrite IH, Hf. ring. }
  rewrite E. ring.
Qed.
Lemma exp_start a b : a < b -> exp (- - ln (1 / (b - a))) = 1 / (b - a).
Proof. intros H. rewrite Ropp_involutive. apply exp_ln. apply Rdiv_lt_0_compat; lra. Qed.
(** Full statement: both classes start from the uniform density. Proved for [Distribution], and for [SimpleDistribution] when the
    error of the first moment is 1 and the domain is not extremely short or long. *)
Theorem C178_start_partial : forall size mom errs a b x, size <> O -> mom x O = 1 -> a < b ->
  (errs O <> 0 -> density_dist size mom errs (start_dist a b errs) x = 1 / (b - a))
  /\ (errs O = 1 -> exp (-200) <= 1 / (b - a) <= exp 200 -> density_simple size mom errs (start_simple a b errs) x = 1 / (b - a)).
Proof.
  intros size mom errs a b x Hs Hm Hab. split.
  - intros He. unfold density_dist. rewrite sumv_first; [|exact Hs|intros i; unfold start_dist, Rdiv; ring]. cbn [start_dist]. rewrite Hm.
    replace (1 * (- ln (1 / (b - a)) * errs O) / errs O) with (- ln (1 / (b - a))) by (field; exact He). now apply exp_start.
  - intros He Hb. unfold density_simple. rewrite sumv_first; [|exact Hs|intros i; unfold start_simple, Rdiv; ring]. cbn [start_simple]. rewrite Hm, He.
    replace (1 * - ln (1 / (b - a)) / 1) with (- ln (1 / (b - a))) by field. rewrite Ropp_involutive.
    assert (H0 : 0 < 1 / (b - a)) by (apply Rdiv_lt_0_compat; lra).
    assert (H1 : -200 <= ln (1 / (b - a))) by (rewrite <- (ln_exp (-200)); apply Rcomplements.ln_le; [apply exp_pos|apply Hb]).
    assert (H2 : ln (1 / (b - a)) <= 200) by (rewrite <- (ln_exp 200); apply Rcomplements.ln_le; [exact H0|apply Hb]).
    unfold clip200. rewrite Rmax_left by lra. rewrite Rmin_left by lra. now apply exp_ln.
Qed.
(** An error 2 of the first moment on a domain of length 4: the density of [SimpleDistribution] is 1/2, not 1/4. *)
Theorem C178_simple_refuted : exists size mom errs a b x, size <> O /\ mom x O = 1 /\ a < b /\ (forall i, 0 < errs i) /\ a <= x <= b
  /\ density_simple size mom errs (start_simple a b errs) x <> 1 / (b - a).
Proof.
  exists 1%nat, (fun _ _ => 1), (fun _ => 2), 0, 4, 1. split; [discriminate|]. split; [reflexivity|]. split; [lra|]. split; [intros; lra|]. split; [lra|].
  unfold density_simple, sumv. cbn [seq map fold_right start_simple].
  assert (E : ln (1 / (4 - 0)) = - (2 * ln 2)).
  { replace (1 / (4 - 0)) with (/ (2 * 2)) by lra. rewrite ln_Rinv by lra. rewrite ln_mult by lra. ring. }
  rewrite E. replace (- (1 * - - (2 * ln 2) / 2 + 0)) with (- ln 2) by field.
  assert (L : 0 < ln 2 < 1) by (split; [rewrite <- ln_1; apply ln_increasing; lra|]; rewrite <- (ln_exp 1); apply ln_increasing; [lra|]; pose proof (exp_ineq1 1 ltac:(lra)); lra).
  unfold clip200. rewrite Rmax_left by lra. rewrite Rmin_left by lra. rewrite exp_Ropp, exp_ln by lra. lra.
Qed.

(** * Examples: the midpoint rule on the intervals [1/2, 1] and [0, 1/2] *)
Lemma mid_exact : exact_rule 2 [0] [2].
Proof.
  split; [reflexivity|]. intros k Hk. destruct k as [|[|k]]; [| |lia]; unfold applied; cbn [combine map fst snd].
  - rewrite (RInt_eq _ (fun _ => 1)) by reflexivity. rewrite RInt_const. unfold scal. cbn. unfold mult. cbn. ring.
  - assert (H : is_RInt (fun x : R => x ^ 1) (-1) 1 (minus ((fun x => x ^ 2 / 2) 1) ((fun x => x ^ 2 / 2) (-1)))).
    { apply (is_RInt_derive (fun x => x ^ 2 / 2) (fun x => x ^ 1)).
      - intros x _. auto_derive; [exact I|]. field.
      - intros x _. apply (poly_continuous 2), (poly_pow 1). }
    rewrite (is_RInt_unique _ _ _ _ H). unfold minus, plus, opp. cbn. field.
Qed.
Lemma mid_sound : sound_rule [0] [2].
Proof. split; intros t [<-|[]]; lra. Qed.
Definition halves : list (R * R) := [(1/2, 1); (0, 1/2)].
Lemma halves_tile : tiles 0 1 halves.
Proof. exists [(0, 1/2); (1/2, 1)]. split; [apply perm_swap|]. cbn. lra.
Qed.
Example C173_ex : applied (fun x => 3 + 4 * x) (points [0] halves) (weights [2] halves) = 5 /\ RInt (fun x => 3 + 4 * x) 0 1 = 5.
Proof.
  destruct (C173_composite 2 [0] [2] 0 1 halves mid_exact halves_tile) as (H & _ & _). rewrite <- (H (fun x => 3 + 4 * x)).
  - split; unfold applied; cbn; field.
  - exists [3; 4]. split; [cbn; lia|]. intros x. cbn. ring.
Qed.
(** Bisection of the interval, as scipy's quad would report it: the arrays are longer than the number of intervals. *)
Definition bisect (f : R -> res num) (a b : R) : info := mkInfo 2 [(a + b) / 2; a; 7] [b; (a + b) / 2; 7].
Lemma bisect_tiles f a b : a < b -> tiled a b (bisect f a b).
Proof.
  intros H. exists [((a + b) / 2, b); (a, (a + b) / 2)]. split; [split; [reflexivity|]; exists [7], [7]; split; reflexivity|]. exists [(a, (a + b) / 2); ((a + b) / 2, b)]. split; [apply perm_swap|]. cbn. lra.
Qed.
Definition one_mono : mfn := Basis (mkBasis Monomial 1 (0, 1)%R (0, 1)%R false true ((1 - 0) / Rmax (1 - 0) tiny) 0).
Lemma one_mono_made : made one_mono.
Proof. apply (made_basis Monomial 1 (0, 1)%R RNone false true). unfold init. cbn. destruct (Rlt_dec 0 (1 - 0)); [reflexivity|lra]. Qed.
(** Density 2 x on [0, 1]: its integral is the only moment and the only covariance. *)
Example C174_ex : exists F : nat -> R -> R, (forall x, 0 <= x <= 1 -> eval_all one_mono (Fin x) None = Ok [Fin (F O x)])
  /\ semiexact_moments [0] [2] bisect (fun x => 2 * x) one_mono = Ok [Fin (RInt (fun x => F O x * (2 * x)) 0 1)]
  /\ semiexact_cov [0] [2] bisect (fun x => 2 * x) one_mono = Ok [[Fin (RInt (fun x => F O x * F O x * (2 * x)) 0 1)]].
Proof.
  apply (C174_semiexact 2 [0] [2] bisect (fun x => 2 * x) 2 one_mono one_mono_made); [discriminate|reflexivity|unfold increasing; cbn; lra|exact mid_exact|exact mid_sound|exact bisect_tiles| |cbn; lia].
  exists [0; 2]. split; [cbn; lia|]. intros x. cbn. ring.
Qed.
Example C175_ex : exists c : nat -> nat -> R, semiexact_cov [0] [2] bisect (fun x => x * x) mono2 = Ok [[Fin (c 0 0)%nat; Fin (c 0 1)%nat]; [Fin (c 1 0)%nat; Fin (c 1 1)%nat]]
  /\ c 0%nat 1%nat = c 1%nat 0%nat.
Proof.
  destruct (C175_semidefinite [0] [2] bisect (fun x => x * x) mono2 mono2_made) as (c & E & Hs & _); [unfold increasing; cbn; lra|reflexivity|exact mid_sound| | |].
  - intros f. apply bisect_tiles. cbn. lra.
  - intros x Hx. apply Rle_0_sqr.
  - exists c. split; [exact E|apply Hs].
Qed.
Definition integral_of (f : R -> res num) (a b : R) : num := Fin (RInt (fun x => match f x with Ok (Fin r) => r | _ => 0 end) a b).
Lemma integral_of_exact : exact_value integral_of.
Proof.
  intros f g a b Hab H _. unfold integral_of. f_equal. apply RInt_ext. intros x Hx. rewrite Rmin_left, Rmax_right in Hx by exact Hab. rewrite H by lra. reflexivity.
Qed.
Example C176_ex : exact_value integral_of /\ made mono2 /\ increasing (bottom_of mono2) /\ fst (domain_of mono2) <= snd (domain_of mono2).
Proof. split; [exact integral_of_exact|]. split; [exact mono2_made|]. unfold increasing. cbn. lra. Qed.
Example C177_ex : let s := fit_run [0] [2] 1 (fun _ _ => 1) (fun _ => 1) (/ 10) (fun _ => bisect (fun _ => Ok NaN) 0 1) (fun _ => 0) [fun _ => 5; fun _ => 7] in
  applied (fun x => x) (q_points s) (q_weights s) = RInt (fun x => x) 0 1.
Proof.
  cbv zeta. destruct (C177_kept 2 [0] [2] 1 (fun _ _ => 1) (fun _ => 1) (/ 10) (fun _ => bisect (fun _ => Ok NaN) 0 1) 0 1 (fun _ => 0) [fun _ => 5; fun _ => 7] mid_exact mid_sound) as (H & _).
  - intros l. apply bisect_tiles. lra.
  - apply H. exists [0; 1]. split; [cbn; lia|]. intros x. cbn. ring.
Qed.
Example C177_close_ex : let s := fit_run [0] [2] 1 (fun _ _ => 1) (fun _ => 1) (/ 10) (fun _ => bisect (fun _ => Ok NaN) 0 1) (fun _ => 0) ([] ++ [fun _ => / 20]) in
  q_last s O = 0 /\ q_grad s O = 1.
Proof.
  cbv zeta. cbn [app fit_run fold_left]. unfold fit_run. cbn [fold_left]. unfold update.
  assert (G : q_grad (renew [0] [2] 1 (fun _ _ => 1) (fun _ => 1) (fun _ => bisect (fun _ => Ok NaN) 0 1) (fun _ => 0)) O = 1).
  { unfold renew. cbn. unfold clip200. replace (- (1 * (0 / 1) + 0)) with 0 by field. rewrite Rmax_left by lra. rewrite Rmin_left by lra. rewrite exp_0. field. }
  destruct (Rlt_dec _ _) as [H1|H1]; [split; [reflexivity|exact G]|].
  destruct (Rlt_dec _ _) as [H2|H2]; [split; [reflexivity|exact G]|]. exfalso. apply H2. unfold sumv. cbn [seq map fold_right]. rewrite G. cbn [q_last renew]. rewrite Rabs_right; lra.
Qed.
Example C178_ex : density_dist 2 (fun x i => x ^ i) (fun _ => 3) (start_dist 1 5 (fun _ => 3)) 2 = 1 / 4.
Proof. destruct (C178_start_partial 2 (fun x i => x ^ i) (fun _ => 3) 1 5 2) as [H _]; [discriminate|reflexivity|lra|]. rewrite H by lra. lra. Qed.

Print Assumptions C173_composite.
Print Assumptions C174_semiexact.
Print Assumptions C175_semidefinite.
Print Assumptions C176_exact.
Print Assumptions C177_kept.
Print Assumptions C177_close.
Print Assumptions C178_start_partial.
Print Assumptions C178_simple_refuted.
