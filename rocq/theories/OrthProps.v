(** Orthogonalised moments: C55. *)
From mathcomp Require Import all_ssreflect all_algebra.
From Verif Require Import OrthModel.
Import Order.Theory GRing.Theory Num.Theory.
Open Scope ring_scope.
Set Implicit Arguments.
Unset Strict Implicit.
Unset Printing Implicit Defensive.

(** ** Specification *)
Section Spec.
Variable F : realFieldType.
Definition positive_definite n (A : 'M[F]_n) : Prop := A^T = A /\ forall v : 'rV[F]_n, v != 0 -> 0 < (v *m A *m v^T) 0 0.
(** Decompositions without rounding. *)
Definition exact_eigh n (A : 'M[F]_n) (ev : 'rV[F]_n) (V : 'M[F]_n) : Prop := V^T *m V = 1%:M /\ A = V *m diag_mx ev *m V^T.
Definition exact_rq n m (A R : 'M[F]_(n, m)) (Q : 'M[F]_m) : Prop := Q *m Q^T = 1%:M /\ A = R *m Q.
(** Second moments of vectors [phi k] with weights [p k]. *)
Definition second_moments n (N : nat) (p : 'I_N -> F) (phi : 'I_N -> 'rV[F]_n) : 'M[F]_n := \sum_k p k *: ((phi k)^T *m phi k).
End Spec.

Section Proofs.
Variable F : realFieldType.
Variable sqrt : F -> F.
Variable n' : nat.
Notation n := n'.+1.
Variable rq : forall m, 'M[F]_(n, m) -> 'M[F]_(n, m) * 'M[F]_m.
Implicit Types (cov V : 'M[F]_n) (ev : 'rV[F]_n).

(** M^T is injective: rows other than the first one are those of the identity. *)
Lemma centering_inj cov (v : 'rV[F]_n) : cov 0 0 != 0 -> v *m centering cov = 0 -> v = 0.
Proof.
move=> c0 /rowP H.
have H1 j : j != 0 -> v 0 j = 0.
  move=> jn0; move: (H j); rewrite !mxE (bigD1 j) //= mxE (negbTE jn0) eqxx mulr1 big1 ?addr0 // => i inj.
  by rewrite mxE (negbTE jn0) (negbTE inj) mulr0.
have H0 : v 0 0 = 0.
  move: (H 0); rewrite !mxE (bigD1 0) //= big1 ?addr0; last first.
    by move=> i /H1 ->; rewrite mul0r.
  rewrite mxE eqxx mulrN => /eqP; rewrite oppr_eq0 mulf_eq0 (negbTE c0) orbF => /eqP //.
by apply/rowP => j; rewrite [RHS]mxE; case: (eqVneq j 0) => [->|/H1].
Qed.

(** Eigenvalues of the centred covariance matrix are positive. *)
Lemma eigen_positive cov ev V : positive_definite cov -> exact_eigh (cov_center cov) ev V -> forall i, 0 < ev 0 i.
Proof.
move=> [symC posC] [orth E] i.
have c0 : cov 0 0 != 0.
  have d0 : (delta_mx 0 0 : 'rV[F]_n) != 0 by apply/eqP => /matrixP /(_ 0 0) /eqP; rewrite !mxE !eqxx oner_eq0.
  by have := posC _ d0; rewrite -rowE trmx_delta -colE !mxE => H; rewrite gt_eqF.
pose v : 'rV[F]_n := (col i V)^T.
have vV : v *m V = delta_mx 0 i.
  rewrite /v tr_col -row_mul orth; apply/rowP=> j; rewrite !mxE eqxx /=. by rewrite eq_sym.
have vn0 : v *m centering cov != 0.
  apply/eqP => /(centering_inj c0) v0; move: vV; rewrite v0 mul0mx => /rowP /(_ i); rewrite !mxE !eqxx => /esym /eqP; by rewrite oner_eq0.
have := posC _ vn0; rewrite trmx_mul -!mulmxA.
have -> : v *m (centering cov *m (cov *m ((centering cov)^T *m v^T))) = v *m cov_center cov *m v^T by rewrite /cov_center !mulmxA.
have -> : v *m cov_center cov *m v^T = v *m V *m diag_mx ev *m (v *m V)^T by rewrite E trmx_mul !mulmxA.
by rewrite vV -rowE trmx_delta -colE !mxE eqxx.
Qed.

Section Cut.
Variable th : nat.
Notation m := (n' - th).+1.
Definition select : 'M[F]_(n, m) := \matrix_(i, j) (i == flipped j)%:R.
Lemma flipped_inj : injective (@flipped n' th).
Proof.
move=> j k /(congr1 (@nat_of_ord _)); rewrite !inordK ?ltnS ?leq_subr // => E; apply: val_inj => /=.
have J : (j <= n')%N by apply: leq_trans (leq_subr th n'); rewrite -ltnS.
have K : (k <= n')%N by apply: leq_trans (leq_subr th n'); rewrite -ltnS.
by rewrite -(subKn J) E subKn.
Qed.
Lemma select_diag ev : select^T *m diag_mx ev *m select = diag_mx (\row_j ev 0 (flipped j)).
Proof.
apply/matrixP=> i j; rewrite mul_mx_diag !mxE (bigD1 (flipped i)) //= !mxE eqxx mul1r big1 ?addr0; last first.
  by move=> k kn; rewrite !mxE (negbTE kn) mul0r mul0r.
by rewrite (inj_eq flipped_inj) -[RHS]mulr_natr.
Qed.
Lemma icov_eq cov ev V : icov_sqrt_t sqrt th cov ev V
  = (centering cov)^T *m V *m select *m diag_mx (\row_j (1 / sqrt (ev 0 (flipped j)))).
Proof.
rewrite mul_mx_diag; apply/matrixP=> i j; rewrite [LHS]mxE [RHS]mxE -mulmxA; congr (_ * _); last by rewrite mxE.
rewrite !mxE; apply: eq_bigr => k _; congr (_ * _); rewrite !mxE (bigD1 (flipped j)) //= !mxE eqxx mulr1 big1 ?addr0 //.
by move=> a an; rewrite !mxE (negbTE an) mulr0.
Qed.
Lemma icov_orth cov ev V : positive_definite cov -> exact_eigh (cov_center cov) ev V -> (forall i, sqrt (ev 0 i) * sqrt (ev 0 i) = ev 0 i) ->
  let A := icov_sqrt_t sqrt th cov ev V in A^T *m cov *m A = 1%:M.
Proof.
move=> PD EE sq A; have pos := eigen_positive PD EE; case: EE => orth E; rewrite /A icov_eq !trmx_mul trmxK tr_diag_mx.
set D := diag_mx _; set P := select.
have -> : D *m (P^T *m (V^T *m centering cov)) *m cov *m ((centering cov)^T *m V *m P *m D)
        = D *m (P^T *m (V^T *m cov_center cov *m V) *m P) *m D by rewrite /cov_center !mulmxA.
have -> : V^T *m cov_center cov *m V = diag_mx ev.
  by rewrite E !mulmxA orth mul1mx -mulmxA orth mulmx1.
rewrite /P select_diag /D !mulmx_diag -[RHS]diag_const_mx; congr diag_mx; apply/rowP=> j; rewrite !mxE.
have p := pos (flipped j); have s := sq (flipped j).
have sn : sqrt (ev 0 (flipped j)) != 0.
  by apply/eqP => z; move: s p; rewrite z mul0r => <-; rewrite ltxx.
by rewrite -{2}s mul1r mulrA mulVf // mul1r mulfV.
Qed.
Lemma transform_orth cov ev V : positive_definite cov -> exact_eigh (cov_center cov) ev V -> (forall i, sqrt (ev 0 i) * sqrt (ev 0 i) = ev 0 i) ->
  (let A := icov_sqrt_t sqrt th cov ev V in exact_rq A (rq A).1 (rq A).2) ->
  let L := transform sqrt rq th cov ev V in L *m cov *m L^T = 1%:M.
Proof.
move=> PD EE sq; have := icov_orth PD EE sq; rewrite /transform; set A := icov_sqrt_t _ _ _ _ _; cbv zeta.
move=> O [QQ ARQ]; set R := (rq A).1 in ARQ *; set Q := (rq A).2 in QQ ARQ.
have RA : R = A *m Q^T by rewrite {1}ARQ -mulmxA QQ mulmx1.
have H : R^T *m cov *m R = 1%:M.
  rewrite RA trmx_mul trmxK.
  have -> : Q *m A^T *m cov *m (A *m Q^T) = Q *m (A^T *m cov *m A) *m Q^T by rewrite !mulmxA.
  by rewrite O mulmx1 QQ.
by case: ifP => _; rewrite ?linearN /= ?trmxK ?mulNmx ?mulmxN ?opprK.
Qed.
End Cut.
End Proofs.

(** C55: for a positive definite covariance matrix and decompositions and square roots without rounding, whatever the
    threshold: if the matrix is that of second moments of moment functions over weighted samples, the transformed moment
    functions have the identity as matrix of second moments over the same samples. *)
Theorem C55_orthogonal (F : realFieldType) sqrt n' eigh rq slope_fixed tol (cov : 'M[F]_n'.+1) N (p : 'I_N -> F) (phi : 'I_N -> 'rV[F]_n'.+1) :
  positive_definite cov ->
  exact_eigh (cov_center cov) (eigh (cov_center cov)).1 (eigh (cov_center cov)).2 ->
  (forall m (A : 'M[F]_(n'.+1, m)), exact_rq A (rq m A).1 (rq m A).2) ->
  (forall i, sqrt ((eigh (cov_center cov)).1 0 i) * sqrt ((eigh (cov_center cov)).1 0 i) = (eigh (cov_center cov)).1 0 i) ->
  second_moments p phi = cov ->
  let L := projT2 (orthogonal_moments sqrt eigh rq slope_fixed tol cov) in
  second_moments p (fun k => transformed_eval L (phi k)) = 1%:M.
Proof.
move=> PD EE RQ sq SM; rewrite /orthogonal_moments; case: (eigh (cov_center cov)) EE sq => ev V /= EE sq.
set L := transform _ _ _ _ _ _; rewrite -[RHS](@transform_orth F sqrt n' rq (threshold slope_fixed tol ev) cov ev V) //.
rewrite -/L -SM /second_moments mulmx_sumr mulmx_suml; apply: eq_bigr => k _.
by rewrite /transformed_eval -scalemxAr -scalemxAl trmx_mul trmxK !mulmxA.
Qed.
Print Assumptions C55_orthogonal.

(** Their number: the eigenvalues above the tolerance, when these are in increasing order and there is one. *)
Theorem C55_size (F : realFieldType) sqrt n' (eigh : 'M[F]_n'.+1 -> 'rV[F]_n'.+1 * 'M[F]_n'.+1) rq slope_fixed t (cov : 'M[F]_n'.+1) :
  let ev := (eigh (cov_center cov)).1 in
  (forall i j : 'I_n'.+1, (i <= j)%N -> ev 0 i <= ev 0 j) -> (exists i, t < ev 0 i) ->
  projT1 (orthogonal_moments sqrt eigh rq slope_fixed (Some t) cov) = #|[set i | t < ev 0 i]|.
Proof.
rewrite /orthogonal_moments; case: (eigh (cov_center cov)) => ev V /= mono [i0 Hi0].
rewrite /argmax_above; set a := fun i => _; set k := find a _.
have hasA : has a (enum 'I_n'.+1) by apply/hasP; exists i0; rewrite ?mem_enum.
have kn : (k < n'.+1)%N by move: hasA; rewrite has_find size_enum_ord.
rewrite kn; have -> : [set i | t < ev 0 i] = [set i : 'I_n'.+1 | (k <= i)%N].
  apply/setP=> i; rewrite !inE; apply/idP/idP => H.
    rewrite leqNgt; apply/negP => /(before_find i0); rewrite nth_ord_enum /a H. by [].
  have := nth_find i0 hasA; rewrite -/k /a => K; apply: (lt_le_trans K); apply: mono.
  by rewrite nth_enum_ord.
rewrite cardsE cardE /= -(size_map val) /=.
have -> : [seq val i | i <- enum [pred i : 'I_n'.+1 | (k <= i)%N]] = iota k (n'.+1 - k); last by rewrite size_iota subSn.
rewrite /enum_mem -enumT -(filter_map val (fun j => k <= j)%N) val_enum_ord.
rewrite -{1}(subnKC (ltnW kn)) iotaD filter_cat add0n.
rewrite (@eq_in_filter _ _ pred0) ?filter_pred0; last by move=> j; rewrite mem_iota add0n => /andP[_ H] /=; rewrite leqNgt H.
by rewrite (@eq_in_filter _ _ predT) ?filter_predT // => j; rewrite mem_iota => /andP[-> _].
Qed.
Print Assumptions C55_size.

(** Two samples of weight a half with moments (1, 0) and (1, 2). *)
Definition ex_phi : 'I_2 -> 'rV[rat]_2 := fun k => \row_j (if j == 0 then 1 else if k == 0 then 0 else 2%:R).
Definition ex_cov : 'M[rat]_2 := \matrix_(i, j) (if (i == 1) && (j == 1) then 2%:R else 1).
Definition ex_eigh (A : 'M[rat]_2) : 'rV[rat]_2 * 'M[rat]_2 := (const_mx 1, 1%:M).
Definition ex_rq m (A : 'M[rat]_(2, m)) : 'M[rat]_(2, m) * 'M[rat]_m := (A, 1%:M).
Lemma ex_moments : second_moments (fun _ => 2%:R^-1) ex_phi = ex_cov.
Proof.
apply/matrixP=> i j; rewrite /second_moments summxE !big_ord_recl big_ord0 !mxE !big_ord1 !mxE.
by case: i => [[|[|i]] Hi]; case: j => [[|[|j]] Hj] //=; apply/eqP; vm_compute.
Qed.
Lemma ex_center : cov_center ex_cov = 1%:M.
Proof.
apply/matrixP=> i j; rewrite /cov_center !mxE !big_ord_recl big_ord0 !mxE !big_ord_recl !big_ord0 !mxE.
by case: i => [[|[|i]] Hi]; case: j => [[|[|j]] Hj] //=; apply/eqP; vm_compute.
Qed.
Lemma ex_pd : positive_definite ex_cov.
Proof.
split; first by apply/matrixP=> i j; rewrite !mxE andbC.
move=> v vn0.
have -> : (v *m ex_cov *m v^T) 0 0 = (v 0 0 + v 0 1) ^+ 2 + (v 0 1) ^+ 2.
  rewrite !mxE !big_ord_recl big_ord0 !mxE !big_ord_recl !big_ord0 !mxE /=.
  have -> : lift ord0 ord0 = 1 :> 'I_2 by apply: val_inj.
  have -> : ord0 = 0 :> 'I_2 by []. move: (v 0 0) (v 0 1) => a b.
  rewrite !addr0 !mulr1 sqrrD mulr_natr mulr2n !mulrDl !expr2 !addrA [b * a]mulrC.
  by rewrite -!addrA; congr (_ + _); rewrite !addrA.
rewrite lt_neqAle addr_ge0 ?sqr_ge0 // andbT eq_sym paddr_eq0 ?sqr_ge0 // !sqrf_eq0.
apply: contra vn0 => /andP[/eqP H1 /eqP H2]; apply/eqP/rowP => j; rewrite [RHS]mxE.
move: H1; rewrite H2 addr0 => H1.
by case: j => [[|[|j]] Hj] //; [rewrite -H1 | rewrite -H2]; congr (v _ _); apply: val_inj.
Qed.
Example C55_example :
  let L := projT2 (orthogonal_moments id ex_eigh ex_rq (fun _ => 0) (Some 2%:R^-1) ex_cov) in
  second_moments (fun _ => 2%:R^-1) (fun k => transformed_eval L (ex_phi k)) = 1%:M.
Proof.
apply: C55_orthogonal; last exact: ex_moments.
- exact: ex_pd.
- split; rewrite /= ?trmx1 ?mulmx1 //. by rewrite ex_center mul1mx diag_const_mx.
- by move=> m A; split; rewrite /= ?trmx1 ?mulmx1.
- by move=> i; rewrite /= !mxE mulr1.
Qed.
