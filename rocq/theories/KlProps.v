(** Covariance of samples of correlated fields: C101 and C102. *)
From mathcomp Require Import all_ssreflect all_algebra.
From Verif Require Import KlModel.
Import Order.Theory GRing.Theory Num.Theory.
Open Scope ring_scope.
Set Implicit Arguments.
Unset Strict Implicit.
Unset Printing Implicit Defensive.

(** ** Specification *)
Section Spec.
Variable F : realFieldType.
(** Symmetric, no negative values of the quadratic form. *)
Definition psd n (A : 'M[F]_n) : Prop := A^T = A /\ forall v : 'cV[F]_n, 0 <= (v^T *m A *m v) 0 0.
(** A singular value decomposition without rounding: A = U diag(ev) W. *)
Definition exact_svd n (A U W : 'M[F]_n) (ev : 'rV[F]_n) : Prop :=
  [/\ U^T *m U = 1%:M, W *m W^T = 1%:M, (forall i, 0 <= ev 0 i) & A = U *m diag_mx ev *m W].
(** Vectors [xi k] with weights [p k]: sum one, means zero and second moments those of independent standard normal numbers. *)
Definition standard m N (p : 'I_N -> F) (xi : 'I_N -> 'cV[F]_m) : Prop :=
  [/\ \sum_k p k = 1, \sum_k p k *: xi k = 0 & \sum_k p k *: (xi k *m (xi k)^T) = 1%:M].
Definition mean n N (p : 'I_N -> F) (y : 'I_N -> 'cV[F]_n) (i : 'I_n) : F := \sum_k p k * y k i 0.
Definition covariance n N (p : 'I_N -> F) (y : 'I_N -> 'cV[F]_n) (i j : 'I_n) : F :=
  \sum_k p k * ((y k i 0 - mean p y i) * (y k j 0 - mean p y j)).
End Spec.

Section Cov.
Variable F : realFieldType.
Variables (exp pow : F -> F) (n d : nat) (points : 'M[F]_(n, d)) (tensor : 'M[F]_d).
Lemma len_sqrE i j : len_sqr points tensor i j = ((row j points - row i points) *m tensor *m (row j points - row i points)^T) 0 0.
Proof. by rewrite /len_sqr [RHS]mxE; apply: eq_bigr => b _; congr (_ * _); rewrite [RHS]mxE. Qed.
Lemma len_sqr_sym i j : len_sqr points tensor i j = len_sqr points tensor j i.
Proof. by rewrite !len_sqrE -[row j points - _]opprB linearN /= !mulNmx mulmxN opprK. Qed.
Lemma len_sqr_diag i : len_sqr points tensor i i = 0.
Proof. by rewrite len_sqrE subrr mul0mx mul0mx mxE. Qed.
End Cov.

(** C101: the covariance matrix is symmetric, with ones on the diagonal; entries depend on the difference of the points only. *)
Theorem C101_covariance (F : realFieldType) (exp pow : F -> F) n d (points : 'M[F]_(n, d)) (tensor : 'M[F]_d) :
  exp 0 = 1 -> pow 0 = 0 ->
  let C := cov_matrix exp pow points tensor in
  [/\ C^T = C, (forall i, C i i = 1)
    & forall (shift : 'rV[F]_d), cov_matrix exp pow (\matrix_(i, b) (points i b + shift 0 b)) tensor = C].
Proof.
move=> e0 p0 C; split.
- by apply/matrixP => i j; rewrite !mxE len_sqr_sym.
- by move=> i; rewrite mxE len_sqr_diag p0 oppr0 e0.
move=> shift; apply/matrixP => i j; rewrite !mxE /len_sqr.
have -> : row j (\matrix_(i0, b) (points i0 b + shift 0 b)) - row i (\matrix_(i0, b) (points i0 b + shift 0 b)) = row j points - row i points.
  by apply/rowP => b; rewrite !mxE opprD addrACA subrr addr0.
by [].
Qed.
Print Assumptions C101_covariance.

Section Kl.
Variable F : realFieldType.
Variable sqrt : F -> F.

Lemma norm0 n (w : 'cV[F]_n) : (w^T *m w) 0 0 = 0 -> w = 0.
Proof.
rewrite mxE => /eqP; rewrite psumr_eq0; last by move=> i _; rewrite mxE -expr2 sqr_ge0.
move=> /allP H; apply/colP => i; rewrite [RHS]mxE; have /= := H i (mem_index_enum i); by rewrite mxE -expr2 sqrf_eq0 => /eqP.
Qed.

Lemma diag_delta n (ev : 'rV[F]_n) j : diag_mx ev *m delta_mx j 0 = ev 0 j *: (delta_mx j 0 : 'cV[F]_n).
Proof. by apply/colP => i; rewrite mul_diag_mx !mxE; case: eqVneq => [->|_] //=; rewrite ?mulr0. Qed.

(** Left singular vectors of a symmetric positive semidefinite matrix are eigenvectors. *)
Lemma svd_eigen n (A U W : 'M[F]_n) ev : psd A -> exact_svd A U W ev -> A = U *m diag_mx ev *m U^T.
Proof.
move=> [symA posA] [orthU orthW ev0 E].
have UU : U *m U^T = 1%:M by apply: mulmx1C.
have AA : A *m A *m U = U *m (diag_mx ev *m diag_mx ev).
  rewrite -{2}symA E !trmx_mul tr_diag_mx -!mulmxA (mulmxA W) orthW mul1mx orthU mulmx1. by rewrite !mulmxA.
have H j : A *m col j U = ev 0 j *: col j U.
  pose u := col j U; pose w := A *m u - ev 0 j *: u.
  have AAu : A *m (A *m u) = (ev 0 j * ev 0 j) *: u.
    by rewrite /u colE !mulmxA AA -!mulmxA diag_delta -!scalemxAr diag_delta -scalemxAr scalerA.
  have Aw : A *m w = - (ev 0 j *: w).
    by rewrite /w mulmxBr -scalemxAr AAu scalerBr opprB scalerA.
  have w0 : w = 0.
    have [e0|en0] := eqVneq (ev 0 j) 0.
      have wE : w = A *m u by rewrite /w e0 scale0r subr0.
      apply: norm0; have -> : w^T *m w = u^T *m (A *m (A *m u)) by rewrite wE trmx_mul symA !mulmxA.
      by rewrite AAu e0 mul0r scale0r mulmx0 mxE.
    have ep : 0 < ev 0 j by rewrite lt_neqAle eq_sym en0 ev0.
    apply: norm0; apply/eqP; have := posA w; rewrite -mulmxA Aw mulmxN -scalemxAr !mxE oppr_ge0 pmulr_rle0 // => le0.
    rewrite eq_le le0 /=; apply: sumr_ge0 => i _; by rewrite mxE -expr2 sqr_ge0.
  by move/eqP: w0; rewrite subr_eq0 => /eqP.
rewrite -[LHS]mulmx1 -UU mulmxA; congr (_ *m _); apply/matrixP => i j.
have := congr1 (fun v : 'cV[F]_n => v i 0) (H j); rewrite colE mulmxA -colE mxE => ->.
by rewrite -colE -/(U *m diag_mx ev) mul_mx_diag !mxE mulrC.
Qed.

(** The factor of all terms and of the first [m] of them. *)
Lemma factor_sum n m (le : (m <= n)%N) U (ev : 'rV[F]_n) : (forall i, sqrt (ev 0 i) * sqrt (ev 0 i) = ev 0 i) ->
  l_factor sqrt le U ev *m (l_factor sqrt le U ev)^T = \sum_(k < n | (k < m)%N) ev 0 k *: (col k U *m (col k U)^T).
Proof.
move=> sqrtK; apply/matrixP => i j; rewrite summxE mxE.
rewrite (big_ord_narrow le) /=.
apply: eq_bigr => k _; rewrite /l_factor mul_mx_diag !mxE big_ord1 !mxE mulrACA sqrtK // mulrC.
by congr (_ * _).
Qed.
Lemma svd_sum n (A U W : 'M[F]_n) ev : psd A -> exact_svd A U W ev -> A = \sum_(k < n) ev 0 k *: (col k U *m (col k U)^T).
Proof.
move=> P E; rewrite {1}(svd_eigen P E); apply/matrixP => i j; rewrite summxE mul_mx_diag mxE.
by apply: eq_bigr => k _; rewrite !mxE big_ord1 !mxE [U i k * ev 0 k]mulrC mulrA.
Qed.
Lemma rank1_psd n (u v : 'cV[F]_n) (c : F) : 0 <= c -> 0 <= (v^T *m (c *: (u *m u^T)) *m v) 0 0.
Proof.
move=> c0; rewrite -scalemxAr -scalemxAl mxE mulr_ge0 //.
have -> : v^T *m (u *m u^T) *m v = (u^T *m v)^T *m (u^T *m v) by rewrite trmx_mul trmxK !mulmxA.
by rewrite mxE sumr_ge0 // => k _; rewrite mxE -expr2 sqr_ge0.
Qed.

Lemma mean_sample n m (L : 'M[F]_(n, m)) (mu sigma : 'cV[F]_n) N (p : 'I_N -> F) xi : standard p xi ->
  forall i, mean p (fun k => sample L mu sigma (xi k)) i = mu i 0.
Proof.
move=> [p1 m0 _] i; rewrite /mean.
have -> : \sum_k p k * sample L mu sigma (xi k) i 0 = sigma i 0 * (L *m (\sum_k p k *: xi k)) i 0 + (\sum_k p k) * mu i 0.
  rewrite mulmx_sumr summxE mulr_sumr mulr_suml -big_split /=; apply: eq_bigr => k _.
  by rewrite -scalemxAr /sample; set z := L *m xi k; rewrite !mxE mulrDr mulrCA.
by rewrite m0 mulmx0 mxE mulr0 add0r p1 mul1r.
Qed.
Lemma covariance_sample n m (L : 'M[F]_(n, m)) (mu sigma : 'cV[F]_n) N (p : 'I_N -> F) xi : standard p xi ->
  forall i j, covariance p (fun k => sample L mu sigma (xi k)) i j = sigma i 0 * sigma j 0 * (L *m L^T) i j.
Proof.
move=> H i j; have M := mean_sample L mu sigma H; case: H => [p1 m0 m1]; rewrite /covariance.
have -> : L *m L^T = \sum_k p k *: ((L *m xi k) *m (L *m xi k)^T).
  rewrite -[X in X *m _]mulmx1 -m1 mulmx_sumr mulmx_suml; apply: eq_bigr => k _.
  by rewrite -scalemxAr -scalemxAl trmx_mul !mulmxA.
rewrite summxE mulr_sumr; apply: eq_bigr => k _; rewrite !M /sample; set z := L *m xi k.
by rewrite !mxE big_ord1 !mxE !addrK [RHS]mulrCA; congr (_ * _); rewrite mulrACA.
Qed.
End Kl.

(** C102: with an exact singular value decomposition of a covariance matrix [C] that is positive semidefinite and normal numbers, samples have
    mean mu and covariances sigma_i sigma_j C_ij if all terms are kept; with the first [m] terms the covariances are those of a matrix [B] with C - B
    positive semidefinite, whose trace misses the dropped singular values, so that no variance is larger than sigma_i^2 C_ii. *)
Theorem C102_full (F : realFieldType) (sqrt : F -> F) n (C U W : 'M[F]_n) (ev : 'rV[F]_n) (mu sigma : 'cV[F]_n) N (p : 'I_N -> F) xi :
  (forall i, sqrt (ev 0 i) * sqrt (ev 0 i) = ev 0 i) -> psd C -> exact_svd C U W ev -> standard p xi ->
  let y k := sample (l_factor sqrt (leqnn n) U ev) mu sigma (xi k) in
  forall i j, mean p y i = mu i 0 /\ covariance p y i j = sigma i 0 * sigma j 0 * C i j.
Proof.
move=> sqrtK psdC svdC std y i j; split; first exact: mean_sample.
rewrite covariance_sample // factor_sum //.
rewrite (svd_sum psdC svdC); congr (_ * _); congr ((_ : 'M[F]_n) i j); apply: eq_bigl => k; exact: ltn_ord.
Qed.
Print Assumptions C102_full.
Theorem C102_truncated (F : realFieldType) (sqrt : F -> F) n m (le : (m <= n)%N) (C U W : 'M[F]_n) (ev : 'rV[F]_n) (mu sigma : 'cV[F]_n)
    N (p : 'I_N -> F) xi :
  (forall i, sqrt (ev 0 i) * sqrt (ev 0 i) = ev 0 i) -> psd C -> exact_svd C U W ev -> standard p xi ->
  let y k := sample (l_factor sqrt le U ev) mu sigma (xi k) in
  exists B : 'M[F]_n,
  [/\ forall i j, mean p y i = mu i 0 /\ covariance p y i j = sigma i 0 * sigma j 0 * B i j,
      psd (C - B), \tr (C - B) = \sum_(k < n | (m <= k)%N) ev 0 k
    & forall i, covariance p y i i <= sigma i 0 ^+ 2 * C i i].
Proof.
move=> sqrtK psdC svdC std y; case: (svdC) => [orthU _ ev0 _].
exists (l_factor sqrt le U ev *m (l_factor sqrt le U ev)^T).
have D : C - l_factor sqrt le U ev *m (l_factor sqrt le U ev)^T = \sum_(k < n | (m <= k)%N) ev 0 k *: (col k U *m (col k U)^T).
  rewrite {1}(svd_sum psdC svdC) factor_sum // (bigID (fun k : 'I_n => (k < m)%N)) /= [X in X - _]addrC addrK.
  by apply: eq_bigl => k; rewrite -leqNgt.
have P : psd (C - l_factor sqrt le U ev *m (l_factor sqrt le U ev)^T).
  split; first by rewrite linearB /= trmx_mul trmxK; case: psdC => ->.
  move=> v; rewrite D mulmx_sumr mulmx_suml summxE sumr_ge0 // => k _; exact: rank1_psd.
split=> //.
- move=> i j; split; [exact: mean_sample|exact: covariance_sample].
- rewrite D raddf_sum /=; apply: eq_bigr => k _; rewrite mxtraceZ mxtrace_mulC.
  have -> : (col k U)^T *m col k U = 1%:M; last by rewrite mxtrace1 mulr1.
  apply/matrixP => a b; rewrite !ord1 -[RHS](_ : (U^T *m U) k k = _); last by rewrite orthU !mxE !eqxx.
  by rewrite !mxE; apply: eq_bigr => c _; rewrite !mxE.
move=> i; rewrite covariance_sample // -expr2 ler_wpmul2l ?sqr_ge0 // -subr_ge0.
have := (proj2 P) (delta_mx i 0); rewrite trmx_delta -rowE -colE !mxE. by [].
Qed.
Print Assumptions C102_truncated.

(** Two points with the covariance matrix of a rotation by 3/5, 4/5 of diag(4, 1), and four vectors of weight a quarter. *)
Definition ex_U : 'M[rat]_2 := \matrix_(i, j) (if i == j then 3%:R / 5%:R else if i == 0 then - (4%:R / 5%:R) else 4%:R / 5%:R).
Definition ex_ev : 'rV[rat]_2 := \row_j (if j == 0 then 4%:R else 1).
Definition ex_C : 'M[rat]_2 := ex_U *m diag_mx ex_ev *m ex_U^T.
Definition ex_sqrt (x : rat) : rat := if x == 4%:R then 2%:R else x.
Definition ex_xi (k : 'I_4) : 'cV[rat]_2 := \col_i (if (if i == 0 then (k < 2)%N else odd k) then 1 else -1).
Lemma ex_orth : ex_U^T *m ex_U = 1%:M.
Proof.
apply/matrixP=> i j; rewrite !mxE !big_ord_recl big_ord0 !mxE.
by case: i => [[|[|i]] Hi]; case: j => [[|[|j]] Hj] //=; apply/eqP; vm_compute.
Qed.
Lemma ex_psd : psd ex_C.
Proof.
split; first by rewrite /ex_C !trmx_mul trmxK tr_diag_mx mulmxA.
move=> v; have -> : v^T *m ex_C *m v = (ex_U^T *m v)^T *m diag_mx ex_ev *m (ex_U^T *m v) by rewrite /ex_C trmx_mul trmxK !mulmxA.
rewrite mul_mx_diag mxE sumr_ge0 // => k _; rewrite !mxE mulrAC -expr2 mulr_ge0 ?sqr_ge0 //; by case: ifP.
Qed.
Lemma ex_svd : exact_svd ex_C ex_U ex_U^T ex_ev.
Proof. split; rewrite ?trmxK ?ex_orth //. by move=> i; rewrite mxE; case: ifP. Qed.
Lemma ex_standard : standard (fun _ => 4%:R^-1) ex_xi.
Proof.
split.
- by rewrite !big_ord_recl big_ord0; apply/eqP; vm_compute.
- apply/colP => i; rewrite summxE !big_ord_recl big_ord0 !mxE. by case: i => [[|[|i]] Hi] //=; apply/eqP; vm_compute.
apply/matrixP => i j; rewrite summxE !big_ord_recl big_ord0 !mxE !big_ord1 !mxE.
by case: i => [[|[|i]] Hi]; case: j => [[|[|j]] Hj] //=; apply/eqP; vm_compute.
Qed.
Lemma ex_sqrtK i : ex_sqrt (ex_ev 0 i) * ex_sqrt (ex_ev 0 i) = ex_ev 0 i.
Proof. by rewrite mxE; case: i => [[|[|i]] Hi] //=; apply/eqP; vm_compute. Qed.
Example C102_example :
  (forall mu sigma i j, covariance (fun _ => 4%:R^-1) (fun k => sample (l_factor ex_sqrt (leqnn 2) ex_U ex_ev) mu sigma (ex_xi k)) i j
    = sigma i 0 * sigma j 0 * ex_C i j)
  /\ ex_C 0 1 = 36%:R / 25%:R
  /\ (l_factor ex_sqrt (leqnSn 1) ex_U ex_ev *m (l_factor ex_sqrt (leqnSn 1) ex_U ex_ev)^T) 0 1 = 48%:R / 25%:R.
Proof.
split; [move=> mu sigma i j; exact: (C102_full mu sigma ex_sqrtK ex_psd ex_svd ex_standard i j).2|].
split.
  by rewrite /ex_C mul_mx_diag mxE !big_ord_recl big_ord0 !mxE /=; apply/eqP; vm_compute.
by rewrite mxE big_ord1 /l_factor mul_mx_diag !mxE; apply/eqP; vm_compute.
Qed.
Example C101_example : cov_matrix (fun x : rat => 1 + x) id (\matrix_(i < 2, b < 1) (i : nat)%:R) 1%:M 0 1 = 0.
Proof. rewrite mxE /len_sqr big_ord1 mulmx1 !mxE. by apply/eqP; vm_compute. Qed.
