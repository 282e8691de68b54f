(** C152: derivatives of Legendre moments of any degree. *)
From Coq Require Import Lra.
From Coquelicot Require Import Coquelicot.
From Verif Require Import Base BaseFacts QTypeModel QuantityModel QuantitySpec NumModel NumFacts EstimateModel EstimateSpec
  EstimateLinear EstimateFacts MomentsModel MomentsSpec LegendreFacts MomentsProofs MomentsValues MomentsProps LegDerModel.
Local Open Scope R_scope.

(** Sums of Legendre polynomials, coefficients from the highest one. *)
Fixpoint ser (f : nat -> R -> R) (rc : list R) (t : R) : R :=
  match rc with [] => 0 | c :: rest => c * f (length rest) t + ser f rest t end.

Lemma ser_der rc t : is_derive (ser P rc) t (ser D rc t).
Proof.
  induction rc as [|c rc IH].
  - apply (is_derive_ext (fun _ => 0)); [reflexivity|]. apply (is_derive_const (V := R_NormedModule) 0 t).
  - cbn [ser]. apply (is_derive_ext (fun x => plus (scal c (P (length rc) x)) (ser P rc x))); [intros; reflexivity|].
    change (c * D (length rc) t + ser D rc t) with (plus (scal c (D (length rc) t)) (ser D rc t)).
    apply (is_derive_plus (V := R_NormedModule)); [|exact IH]. apply (is_derive_scal (P (length rc))). apply P_der. Qed.

Lemma pass_cons fuel a b c d rest : legder_pass (S fuel) (a :: b :: c :: d :: rest)
  = INR (2 * S (S (S (length rest))) - 1) * a :: legder_pass fuel (b :: c + a :: d :: rest).
Proof. cbn [legder_pass length]. replace (S (S (S (S (length rest)))) - 1)%nat with (S (S (S (length rest)))) by lia. reflexivity. Qed.
Lemma pass_len fuel : forall rc, (length rc <= fuel)%nat -> length (legder_pass fuel rc) = (length rc - 1)%nat.
Proof.
  induction fuel as [|fuel IH]; intros rc H; [destruct rc; [reflexivity|cbn in H; lia]|].
  destruct rc as [|a [|b [|c [|d rest]]]]; try reflexivity. rewrite pass_cons. cbn [length].
  rewrite IH by (cbn [length] in *; lia). cbn [length]. lia. Qed.
(** One pass gives the derivative. *)
Lemma pass_ser fuel t : forall rc, (length rc <= fuel)%nat -> ser P (legder_pass fuel rc) t = ser D rc t.
Proof.
  induction fuel as [|fuel IH]; intros rc H; [destruct rc; [reflexivity|cbn in H; lia]|].
  destruct rc as [|a [|b [|c [|d rest]]]].
  - reflexivity.
  - cbn [legder_pass ser length]. change (D 0 t) with 0. ring.
  - cbn [legder_pass ser length]. change (D 0 t) with 0. change (D 1 t) with 1. rewrite P0. ring.
  - cbn [legder_pass ser length]. rewrite D_step. change (D 0 t) with 0. change (D 1 t) with 1. rewrite P0. cbn [INR]. ring.
  - rewrite pass_cons. cbn [ser]. rewrite pass_len by (cbn [length] in *; lia). rewrite IH by (cbn [length] in *; lia).
    cbn [ser length]. replace (S (S (S (length rest))) - 1)%nat with (S (S (length rest))) by lia. rewrite (D_step (S (length rest))).
    replace (2 * S (S (S (length rest))) - 1)%nat with (2 * length rest + 5)%nat by lia.
    rewrite plus_INR, mult_INR, (S_INR (length rest)). cbn [INR]. ring. Qed.

Definition pass (rc : list R) : list R := legder_pass (length rc) rc.
Lemma pass_derive rc t : is_derive (ser P rc) t (ser P (pass rc) t).
Proof. unfold pass. rewrite pass_ser by lia. apply ser_der. Qed.
Lemma iter_derive k rc : forall t, Derive_n (ser P rc) k t = ser P (Nat.iter k pass rc) t /\ ex_derive_n (ser P rc) k t.
Proof.
  induction k as [|k IH]; intros t; [split; [reflexivity|exact I]|]. split.
  - cbn [Derive_n Nat.iter nat_rect]. rewrite (Derive_ext _ (ser P (Nat.iter k pass rc))) by (intros y; apply IH).
    apply is_derive_unique. apply (pass_derive (Nat.iter k pass rc)).
  - cbn [ex_derive_n]. apply (ex_derive_ext (ser P (Nat.iter k pass rc))); [intros y; symmetry; apply IH|]. eexists. apply pass_derive. Qed.
Lemma pass_len' rc : length (pass rc) = (length rc - 1)%nat.
Proof. apply pass_len. lia. Qed.
Lemma iter_len k rc : length (Nat.iter k pass rc) = (length rc - k)%nat.
Proof. induction k as [|k IH]; [cbn; lia|]. change (Nat.iter (S k) pass rc) with (pass (Nat.iter k pass rc)). rewrite pass_len', IH. lia. Qed.

(** Evaluation of a sum. *)
Lemma loop_value t rc : forall c0 c1 nd, nd = S (S (length rc)) ->
  legval_loop (Fin t) (Fin c0) (Fin c1) nd rc = Fin (c1 * P (S (length rc)) t + (c0 * P (length rc) t + ser P rc t)).
Proof.
  induction rc as [|c rc IH]; intros c0 c1 nd ->.
  - cbn [legval_loop nmul nadd length ser]. rewrite P0, P1. f_equal. ring.
  - cbn [legval_loop]. replace (S (S (length (c :: rc))) - 1)%nat with (S (S (length rc))) by (cbn [length]; lia).
    cbn [nmul ndivn nsub nneg nadd]. rewrite IH by reflexivity. f_equal. cbn [ser length]. rewrite (P_rec (length rc)).
    replace (S (S (length rc)) - 1)%nat with (S (length rc)) by lia. replace (2 * S (S (length rc)) - 1)%nat with (2 * length rc + 3)%nat by lia.
    rewrite plus_INR, mult_INR, !S_INR. cbn [INR]. pose proof (pos2 (length rc)). field. lra. Qed.
Lemma legval_value t c : c <> [] -> legval (Fin t) c = Fin (ser P (rev c) t).
Proof.
  intros N. unfold legval. destruct (rev c) as [|a [|b rest]] eqn:E.
  - apply (f_equal (@length _)) in E. rewrite rev_length in E. destruct c; [congruence|discriminate].
  - cbn [nmul nadd ser length]. rewrite P0. f_equal. ring.
  - rewrite loop_value; [cbn [ser length]; reflexivity|]. rewrite <- rev_length, E. reflexivity. Qed.
Lemma loop_nan rc : forall c0 c1 nd, legval_loop NaN c0 c1 nd rc = NaN.
Proof.
  induction rc as [|c rc IH]; intros c0 c1 nd; cbn [legval_loop]; [|apply IH].
  destruct c0, c1; reflexivity. Qed.
Lemma legval_nan c : legval NaN c = NaN.
Proof. unfold legval. destruct (rev c) as [|a [|b rest]]; [reflexivity|reflexivity|apply loop_nan]. Qed.

Lemma ser_zeros k t : ser P (repeat 0 k) t = 0.
Proof. induction k as [|k IH]; [reflexivity|]. cbn [repeat ser]. rewrite IH. ring. Qed.
Lemma rev_repeat {A} (x : A) k : rev (repeat x k) = repeat x k.
Proof. induction k as [|k IH]; [reflexivity|]. cbn [repeat rev]. rewrite IH. symmetry. apply repeat_cons. Qed.
Lemma unit_ser s t : ser P (rev (unit_coef s)) t = P s t.
Proof.
  destruct s as [|s]; [cbn [unit_coef rev app ser length]; ring|]. unfold unit_coef. rewrite rev_app_distr, rev_repeat. cbn [rev app ser].
  rewrite repeat_length, ser_zeros. ring. Qed.
Lemma unit_len s : length (unit_coef s) = S s.
Proof. destruct s; [reflexivity|]. unfold unit_coef. rewrite app_length, repeat_length. cbn [length]. lia. Qed.
(** The derivative of one polynomial. *)
Lemma unit_value s k t : legval (Fin t) (legder (unit_coef s) k) = Fin (Derive_n (P s) k t).
Proof.
  assert (E : Derive_n (P s) k t = ser P (Nat.iter k pass (rev (unit_coef s))) t).
  { rewrite <- (proj1 (iter_derive k (rev (unit_coef s)) t)). apply Derive_n_ext. intros y. symmetry. apply unit_ser. }
  rewrite E. unfold legder. destruct (Nat.eqb_spec k 0) as [->|Hk].
  - rewrite legval_value; [reflexivity|]. intros H. apply (f_equal (@length _)) in H. rewrite unit_len in H. discriminate.
  - destruct (Nat.leb_spec (length (unit_coef s)) k) as [H|H].
    + assert (L : Nat.iter k pass (rev (unit_coef s)) = []).
      { apply length_zero_iff_nil. rewrite iter_len, rev_length. lia. }
      rewrite L. pose proof (unit_len s) as U. destruct (unit_coef s) as [|a c]; [discriminate|]. cbn [firstn map].
      rewrite legval_value by discriminate. cbn [rev app ser length]. f_equal. ring.
    + change (fun rc => legder_pass (length rc) rc) with pass. rewrite legval_value.
      * rewrite rev_involutive. reflexivity.
      * intros N. apply (f_equal (@length _)) in N. rewrite rev_length, iter_len, rev_length in N. cbn [length] in N. lia. Qed.
Lemma P_ex_derive_n s k t : ex_derive_n (P s) k t.
Proof.
  apply (ex_derive_n_ext (ser P (rev (unit_coef s)))); [intros y; apply unit_ser|]. apply (proj2 (iter_derive k _ t)). Qed.

(** Sums of functions. *)
Lemma sum_derive_n {A} (f : A -> R -> R) (c : A -> R) l k : (forall a t, In a l -> ex_derive_n (f a) k t) -> (forall a j t, In a l -> (j <= k)%nat -> ex_derive_n (f a) j t) ->
  forall t, Derive_n (fun x => rsum (map (fun a => f a x * c a) l)) k t = rsum (map (fun a => Derive_n (f a) k t * c a) l)
    /\ ex_derive_n (fun x => rsum (map (fun a => f a x * c a) l)) k t.
Proof.
  intros _. induction k as [|k IH]; intros H t; [split; [reflexivity|exact I]|].
  assert (IH' : forall y, Derive_n (fun x => rsum (map (fun a => f a x * c a) l)) k y = rsum (map (fun a => Derive_n (f a) k y * c a) l))
    by (intros y; apply IH; intros a j u Ha Hj; apply H; [exact Ha|lia]).
  assert (S : is_derive (fun x => rsum (map (fun a => Derive_n (f a) k x * c a) l)) t (rsum (map (fun a => Derive_n (f a) (S k) t * c a) l))).
  { apply (sum_derive (fun a => Derive_n (f a) k) (fun a => Derive_n (f a) (Datatypes.S k)) c l t).
    intros a Ha. apply Derive_correct. exact (H a (Datatypes.S k) t Ha (le_n _)). }
  split.
  - cbn [Derive_n]. rewrite (Derive_ext _ _ t IH'). apply is_derive_unique, S.
  - cbn [ex_derive_n]. eapply ex_derive_ext; [intros y; symmetry; apply IH'|]. eexists. exact S. Qed.

Lemma mval_derive_n m : made m -> kind_of m = Legendre -> forall i k t, (i < msize m)%nat -> ex_derive_n (mval m i) k t.
Proof.
  intros Hm. induction Hm as [k0 s d r log safe b H|o tr m Ho IH Hm E]; intros Hk i k t Hi.
  - cbn in Hk. apply (ex_derive_n_ext (P i)); [intros y; cbn; rewrite Hk; reflexivity|]. apply P_ex_derive_n.
  - apply mk_trans_ok in E as [-> Hr]. cbn [kind_of] in Hk.
    assert (Q : forall (p : nat * R) j u, In p (combine (seq 0 (msize o)) (nth i tr [])) -> (j <= k)%nat -> ex_derive_n (mval o (fst p)) j u).
    { intros [p c] j u Hp _. apply in_combine_l in Hp. apply in_seq in Hp. apply (IH Hk). cbn [fst]. lia. }
    exact (proj2 (sum_derive_n (fun p => mval o (fst p)) snd _ k (fun a u Ha => Q a k u Ha (le_n _)) Q t)). Qed.
Lemma der_value m v t k : made m -> kind_of m = Legendre -> transform (bottom_of m) v = Fin t ->
  eval_all_der_ m v (msize m) k = Ok (map (fun i => Fin (Derive_n (mval m i) k t)) (seq 0 (msize m))).
Proof.
  intros Hm. induction Hm as [k0 s d r log safe b H|o tr m Ho IH Hm E]; intros Hk Ht.
  - cbn in Hk, Ht. cbn [eval_all_der_ msize]. rewrite Hk, Ht. f_equal. apply map_ext. intros i. rewrite unit_value. f_equal.
    apply Derive_n_ext. intros y. cbn. rewrite Hk. reflexivity.
  - apply mk_trans_ok in E as [-> Hr]. cbn [eval_all_der_ msize]. cbn [kind_of bottom_of] in *. rewrite IH by auto. cbn [bind]. f_equal.
    rewrite firstn_all2 by (rewrite map_length; lia).
    apply nth_ext with (d := NaN) (d' := NaN); [now rewrite !map_length, seq_length|].
    intros i Hi. rewrite map_length in Hi. rewrite (nth_map0 _ tr [] NaN) by auto. rewrite seq_cell by auto. rewrite dot_fin. f_equal.
    assert (Q : forall (p : nat * R) j u, In p (combine (seq 0 (msize o)) (nth i tr [])) -> (j <= k)%nat -> ex_derive_n (mval o (fst p)) j u).
    { intros [p c] j u Hp _. apply in_combine_l in Hp. apply in_seq in Hp. apply (mval_derive_n o Ho Hk). cbn [fst]. lia. }
    symmetry. exact (proj1 (sum_derive_n (fun p => mval o (fst p)) snd _ k (fun a u Ha => Q a k u Ha (le_n _)) Q t)). Qed.

(** C152. eval_all_der of any degree gives the derivatives of that degree, with respect to the reference variable, of the functions
    that eval_all gives; also for transformed moments; all derivatives exist. *)
Theorem C152_derivatives m : made m -> kind_of m = Legendre -> exists F : nat -> R -> R,
  (forall v t, transform (bottom_of m) v = Fin t ->
     eval_all m v None = Ok (map (fun i => Fin (F i t)) (seq 0 (msize m)))
     /\ forall degree, eval_all_der m v None degree = Ok (map (fun i => Fin (Derive_n (F i) degree t)) (seq 0 (msize m))))
  /\ forall i degree t, (i < msize m)%nat -> ex_derive_n (F i) degree t.
Proof.
  intros Hm Hk. exists (mval m). split; [|intros; now apply mval_derive_n].
  intros v t Ht. split; [now apply evals_fin|]. intros degree. now apply der_value. Qed.

(** Degrees 1 and 2 agree with eval_diff and eval_diff2, which multiply by matrices. *)
Theorem C152_agree m v t : made m -> kind_of m = Legendre -> transform (bottom_of m) v = Fin t ->
  eval_all_der m v None 1 = eval_diff m v None /\ eval_all_der m v None 2 = eval_diff2 m v None.
Proof.
  intros Hm Hk Ht. unfold eval_all_der. rewrite !(der_value m v t) by assumption.
  unfold eval_diff, eval_diff2. rewrite (eval_der_value D diff_mat m v t) by (auto; intros; apply diff_value; auto).
  rewrite (eval_der_value DD diff2_mat m v t) by (auto; intros; apply diff2_value; auto).
  assert (E : forall i u, (i < msize m)%nat -> Derive (mval m i) u = dval D m i u) by (intros i u Hi; apply is_derive_unique, mval_dval; auto).
  split; f_equal; apply map_ext_in; intros i Hi; apply in_seq in Hi; f_equal; cbn [Derive_n].
  - rewrite <- (E i t) by lia. apply Derive_ext. reflexivity.
  - rewrite (Derive_ext _ (dval D m i)) by (intros u; rewrite <- (E i u) by lia; apply Derive_ext; reflexivity).
    apply is_derive_unique, mval_dval; auto; lia. Qed.

(** Outside of the domain everything is NaN. *)
Theorem C152_outside b v size degree : b_kind b = Legendre -> transform b v = NaN ->
  eval_all_der (Basis b) v (Some size) degree = Ok (repeat NaN size).
Proof.
  intros Hk Ht. unfold eval_all_der. cbn [eval_all_der_]. rewrite Hk, Ht. f_equal.
  transitivity (map (fun _ : nat => NaN) (seq 0 size)); [apply map_ext; intros; apply legval_nan|].
  generalize 0%nat. induction size as [|n IH]; intros a; [reflexivity|]. cbn [seq map repeat]. f_equal. apply IH. Qed.

(** The third Legendre polynomial (3 t^2 - 1) / 2 on [0, 2] at 1.5: derivatives 1.5, 3, 0. *)
Example C152_ex : made leg3 /\ kind_of leg3 = Legendre /\ transform (bottom_of leg3) (Fin (3 / 2)) = Fin (1 / 2)
  /\ eval_all_der leg3 (Fin (3 / 2)) None 1 = Ok [Fin 0; Fin 1; Fin (3 / 2)]
  /\ eval_all_der leg3 (Fin (3 / 2)) None 2 = Ok [Fin 0; Fin 0; Fin 3]
  /\ eval_all_der leg3 (Fin (3 / 2)) None 3 = Ok [Fin 0; Fin 0; Fin 0].
Proof.
  assert (T : transform (bottom_of leg3) (Fin (3 / 2)) = Fin (1 / 2)) by (rewrite leg3_transform by lra; f_equal; lra).
  split; [apply leg3_made|]. split; [reflexivity|]. split; [exact T|].
  unfold eval_all_der, leg3. cbn [eval_all_der_ b_kind msize b_size seq map]. fold leg3. change (bottom_of leg3) with (match leg3 with Basis b => b | _ => bottom_of leg3 end) in T.
  cbn [leg3] in T. unfold leg3 in T. rewrite !T.
  unfold legval, legder, unit_coef. cbn [Nat.eqb length repeat app Nat.leb firstn map rev Nat.iter nat_rect legder_pass legval_loop Nat.sub Nat.mul nadd nmul nsub nneg ndivn].
  ands; (apply (f_equal Ok); repeat (apply (f_equal2 cons); [apply (f_equal Fin); lra|]); reflexivity). Qed.
Example C152_outside_ex : exists b v, b_kind b = Legendre /\ transform b v = NaN.
Proof.
  exists (bottom_of leg3), (Fin 5). split; [reflexivity|]. pose proof tiny_small. unfold transform, leg3, clip, linear.
  cbn [bottom_of b_log b_safe b_shift b_scale b_ref fst snd nsub nneg nadd nmul nlt_r ngt_r].
  rewrite (Rmax_left (2 - 0) tiny), Rmin_left, Rmax_right by lra.
  replace ((5 + - 0) * ((1 - -1) / (2 - 0)) + -1)%R with 4%R by field.
  cbn. destruct (Rlt_dec 4 (-1)); [lra|]. destruct (Rlt_dec 1 4); [reflexivity|lra]. Qed.

Print Assumptions C152_derivatives.
Print Assumptions C152_agree.
Print Assumptions C152_outside.
