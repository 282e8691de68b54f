(** The first of the orthogonalised moments and the data given to the density fit: C185, C186. The fit is the one of
    Estimate.construct_density, mlmc/estimator.py:304-331, which takes the moment functions made by
    construct_ortogonal_moments from the estimated covariance matrix and estimates their means from the same samples. *)
From mathcomp Require Import all_ssreflect all_algebra.
From Verif Require Import OrthModel OrthProps.
Import Order.Theory GRing.Theory Num.Theory.
Open Scope ring_scope.
Set Implicit Arguments.
Unset Strict Implicit.
Unset Printing Implicit Defensive.

(** ** Specification *)
(** The first factor of an RQ decomposition ends with an upper triangular block. *)
Definition upper (F : realFieldType) n m (R : 'M[F]_(n, m)) : Prop := forall (i : 'I_n) (j : 'I_m), (j + (n - m) < i)%N -> R i j = 0.
(** Weighted mean of vectors. *)
Definition mean_of (F : realFieldType) n N (p : 'I_N -> F) (phi : 'I_N -> 'rV[F]_n) : 'rV[F]_n := \sum_k p k *: phi k.

Section Proofs.
Variable F : realFieldType.
Variable sqrt : F -> F.
Variable n' : nat.
Notation n := n'.+1.
Variable rq : forall m, 'M[F]_(n, m) -> 'M[F]_(n, m) * 'M[F]_m.
Implicit Types (cov V : 'M[F]_n) (ev : 'rV[F]_n).

Lemma first_row cov ev V : positive_definite cov -> exact_eigh (cov_center cov) ev V -> (forall i, sqrt (ev 0 i) * sqrt (ev 0 i) = ev 0 i) ->
  (let A := icov_sqrt_t sqrt 0 cov ev V in exact_rq A (rq A).1 (rq A).2 /\ upper (rq A).1) -> cov 0 0 = 1 ->
  let L := transform sqrt rq 0 cov ev V in forall j, L 0 j = (j == 0)%:R.
Proof.
move=> PD EE sq; cbv zeta => [[RQ UP]] c0; have O := transform_orth PD EE sq RQ; cbv zeta in O.
set L := transform _ _ _ _ _ _ in O *.
have Z j : j != 0 -> L 0 j = 0.
  move=> jn; rewrite /L /transform; set R := (rq _).1 in UP *.
  have R0 : R j 0 = 0 by apply: UP; rewrite /= subn0 subnn add0n lt0n.
  by case: ifP => _; rewrite !mxE R0 ?oppr0.
have S : L 0 0 * L 0 0 = 1.
  have := congr1 (fun M : 'M_(_) => M 0 0) O; rewrite !mxE (bigD1 0) //= big1 ?addr0; last by move=> k kn; rewrite [X in _ * X]mxE Z // mulr0.
  rewrite [X in _ * X]mxE mxE (bigD1 0) //= big1 ?addr0; last by move=> k kn; rewrite Z // mul0r.
  by rewrite c0 mulr1.
have P : 0 <= L 0 0.
  rewrite /L /transform; set R := (rq _).1; case: ifP => [H|/negbT]; last by rewrite -leNgt.
  by rewrite mxE oppr_ge0 ltW.
have L1 : L 0 0 = 1.
  have : (L 0 0 - 1) * (L 0 0 + 1) = 0 by rewrite mulrBl !mulrDr S mul1r mulr1 mul1r opprD addrA addrK subrr.
  move/eqP; rewrite mulf_eq0 subr_eq0 addr_eq0 => /orP[/eqP //|/eqP H].
  by move: P; rewrite H oppr_ge0 leNgt ltr01.
by move=> j; case: (eqVneq j 0) => [->|/Z].
Qed.
End Proofs.

(** What the library functions return for one call of construct_ortogonal_moments: decompositions and square roots without
    rounding. *)
Definition exact_calls (F : realFieldType) sqrt n' (eigh : 'M[F]_n'.+1 -> 'rV[F]_n'.+1 * 'M[F]_n'.+1) (rq : forall m, 'M[F]_(n'.+1, m) -> 'M[F]_(n'.+1, m) * 'M[F]_m)
  slope_fixed tol (cov : 'M[F]_n'.+1) : Prop :=
  let (ev, V) := eigh (cov_center cov) in
  [/\ exact_eigh (cov_center cov) ev V, (forall i j : 'I_n'.+1, (i <= j)%N -> ev 0 i <= ev 0 j),
      (forall i, 0 <= sqrt (ev 0 i) /\ sqrt (ev 0 i) * sqrt (ev 0 i) = ev 0 i)
    & let A := icov_sqrt_t sqrt (threshold slope_fixed tol ev) cov ev V in exact_rq A (rq _ A).1 (rq _ A).2 /\ upper (rq _ A).1].

(** C185, partial: if no eigenvalue is dropped, the first of the new moment functions is the constant one. Missing: dropped
    eigenvalues. *)
Theorem C185_first_moment_partial (F : realFieldType) sqrt n' eigh rq slope_fixed tol (cov : 'M[F]_n'.+1) :
  positive_definite cov -> cov 0 0 = 1 -> exact_calls sqrt eigh rq slope_fixed tol cov ->
  let L := projT2 (orthogonal_moments sqrt eigh rq slope_fixed tol cov) in
  projT1 (orthogonal_moments sqrt eigh rq slope_fixed tol cov) = n'.+1 ->
  forall (phi : 'rV[F]_n'.+1) (i : 'I_(projT1 (orthogonal_moments sqrt eigh rq slope_fixed tol cov))),
  phi 0 0 = 1 -> i = 0%N :> nat -> transformed_eval L phi 0 i = 1.
Proof.
move=> PD c0; rewrite /orthogonal_moments /exact_calls; case: (eigh (cov_center cov)) => ev V /= [EE _ sq RQ].
have lt : (threshold slope_fixed tol ev < n'.+1)%N by case: tol {RQ} => [t|] /=; rewrite /argmax_above; case: ifP.
move: (threshold slope_fixed tol ev) lt RQ => th lt RQ /= Hth phi i p0 i0.
have th0 : th = 0%N by case: Hth => H; apply/eqP; rewrite -(eqn_add2l (n' - th)) subnK // H addn0.
subst th; have -> : i = 0 by apply: val_inj.
have R := first_row PD EE (fun i => proj2 (sq i)) RQ c0.
rewrite /transformed_eval mxE (bigD1 0) //= big1 ?addr0; last by move=> j jn; rewrite mxE R (negbTE jn) mulr0.
by rewrite mxE R eqxx p0 mulr1.
Qed.
Print Assumptions C185_first_moment_partial.

(** C186: then the means of the new moment functions over the same samples, the data of the density fit, are 1, 0, ..., 0: the
    same for all samples. The weights may be negative, as those of coarse values in a multilevel estimate. *)
Theorem C186_data_of_fit (F : realFieldType) sqrt n' eigh rq slope_fixed tol (cov : 'M[F]_n'.+1) N (p : 'I_N -> F) (phi : 'I_N -> 'rV[F]_n'.+1) :
  positive_definite cov -> exact_calls sqrt eigh rq slope_fixed tol cov ->
  second_moments p phi = cov -> (forall k, phi k 0 0 = 1) -> \sum_k p k = 1 ->
  let L := projT2 (orthogonal_moments sqrt eigh rq slope_fixed tol cov) in
  projT1 (orthogonal_moments sqrt eigh rq slope_fixed tol cov) = n'.+1 ->
  forall i, mean_of p (fun k => transformed_eval L (phi k)) 0 i = (i == 0%N :> nat)%:R.
Proof.
move=> PD EC SM P1 W L HL i.
have c0 : cov 0 0 = 1.
  rewrite -SM /second_moments summxE -[RHS]W; apply: eq_bigr => k _; by rewrite !mxE big_ord1 !mxE P1 !mulr1.
have F1 := C185_first_moment_partial PD c0 EC HL.
have := EC; rewrite /exact_calls; move: (erefl (eigh (cov_center cov))); case: {2 3}(eigh (cov_center cov)) => ev V E [EE _ sq [RQ _]].
have O : second_moments p (fun k => transformed_eval L (phi k)) = 1%:M.
  rewrite /L /orthogonal_moments E /=; set T := transform _ _ _ _ _ _.
  rewrite -[RHS](@transform_orth F sqrt n' rq (threshold slope_fixed tol ev) cov ev V) //; last by move=> j; case: (sq j).
  rewrite -/T -SM /second_moments mulmx_sumr mulmx_suml; apply: eq_bigr => k _.
  by rewrite /transformed_eval -scalemxAr -scalemxAl trmx_mul trmxK !mulmxA.
have lt : (0 < projT1 (orthogonal_moments sqrt eigh rq slope_fixed tol cov))%N by rewrite HL.
pose z := Ordinal lt.
have := congr1 (fun M : 'M_(_) => M z i) O; rewrite mxE /second_moments summxE.
have -> : (z == i) = (i == 0%N :> nat) by rewrite eq_sym -val_eqE.
move=> <-; rewrite /mean_of summxE; apply: eq_bigr => k _; rewrite !mxE big_ord1 !mxE; congr (_ * _).
by have := F1 (phi k) z (P1 k) erefl; rewrite /transformed_eval mxE => ->; rewrite mul1r.
Qed.
Print Assumptions C186_data_of_fit.

(** C185 fails if an eigenvalue is dropped: three moment functions with means 1, 0, 0 and variances 4 and 1/4 of the last two, so that
    the eigenvalues are 1/4, 1, 4. With the tolerance 1/2 the first is dropped, the matrix given to rq is upper triangular already,
    and the first new moment function is half of the second old one. *)
Definition cut_cov : 'M[rat]_3 := \matrix_(i, j) (if i == j then [:: 1; 4%:R; 4%:R^-1]`_i else 0).
Definition cut_ev : 'rV[rat]_3 := \row_j [:: 4%:R^-1; 1; 4%:R]`_j.
Definition cut_V : 'M[rat]_3 := \matrix_(i, j) ((nat_of_ord i, nat_of_ord j) \in [:: (2, 0); (0, 1); (1, 2)]%N)%:R.
Definition cut_sqrt (x : rat) : rat := if x == 4%:R then 2%:R else if x == 4%:R^-1 then 2%:R^-1 else x.
Definition cut_eigh (A : 'M[rat]_3) : 'rV[rat]_3 * 'M[rat]_3 := (cut_ev, cut_V).
Definition cut_rq m (A : 'M[rat]_(3, m)) : 'M[rat]_(3, m) * 'M[rat]_m := (A, 1%:M).
Ltac entries := let i := fresh "i" in let j := fresh "j" in apply/matrixP=> i j; rewrite ?mxE ?big_ord_recl ?big_ord0 ?mxE ?big_ord_recl ?big_ord0 ?mxE;
  case: i => [[|[|[|i]]] ?] //; case: j => [[|[|[|j]]] ?] //; apply/eqP; vm_compute.
Lemma cut_center : cov_center cut_cov = cut_cov.
Proof. by rewrite /cov_center; entries. Qed.
Lemma cut_exact : exact_eigh (cov_center cut_cov) cut_ev cut_V.
Proof. by rewrite cut_center; split; entries. Qed.

Lemma cut_pd : positive_definite cut_cov.
Proof.
split; first by entries.
move=> v vn0.
have -> : (v *m cut_cov *m v^T) 0 0 = v 0 0 ^+ 2 + 4%:R * v 0 1 ^+ 2 + 4%:R^-1 * v 0 2%:R ^+ 2.
  rewrite !mxE !big_ord_recl big_ord0 !mxE !big_ord_recl !big_ord0 !mxE /=.
  have -> : lift ord0 ord0 = 1 :> 'I_3 by apply: val_inj.
  have -> : lift ord0 (lift ord0 ord0) = 2%:R :> 'I_3 by apply: val_inj.
  have -> : ord0 = 0 :> 'I_3 by []. move: (v 0 0) (v 0 1) (v 0 2%:R) => a b c.
  by rewrite !mulr0 !addr0 !add0r !mulr1 -!expr2 [b * _]mulrC [c * _]mulrC -!mulrA -!expr2 addrA.
have P0 := sqr_ge0 (v 0 0). have P1 : 0 <= 4%:R * v 0 1 ^+ 2 by rewrite mulr_ge0 ?sqr_ge0 ?ler0n.
have P2 : 0 <= 4%:R^-1 * v 0 2%:R ^+ 2 by rewrite mulr_ge0 ?sqr_ge0 ?invr_ge0 ?ler0n.
rewrite lt_neqAle !addr_ge0 // andbT eq_sym paddr_eq0 ?addr_ge0 // paddr_eq0 //.
apply: contra vn0 => /andP[/andP[H0 H1] H2]; apply/eqP/rowP => j; rewrite [RHS]mxE.
have n4 : (4%:R == 0 :> rat) = false by rewrite pnatr_eq0.
have n4' : (4%:R^-1 == 0 :> rat) = false by rewrite invr_eq0.
move: H0 H1 H2; rewrite sqrf_eq0 => /eqP H0; rewrite mulf_eq0 n4 sqrf_eq0 => /eqP H1; rewrite mulf_eq0 n4' sqrf_eq0 => /eqP H2.
by case: j => [[|[|[|j]]] Hj] //; [rewrite -H0 | rewrite -H1 | rewrite -H2]; congr (v _ _); apply: val_inj.
Qed.
Lemma cut_threshold : threshold (fun _ => 0) (Some 2%:R^-1) cut_ev = 1%N.
Proof. by rewrite /threshold /argmax_above enum_ordSl enum_ordSl /= !mxE /=. Qed.

Definition cut_A : 'M[rat]_(3, 2) := \matrix_(i, j) (if (nat_of_ord i == 1%N) && (nat_of_ord j == 0%N) then 2%:R^-1 else if (nat_of_ord i == 0%N) && (nat_of_ord j == 1%N) then - 1 else 0).
Lemma cut_icov : icov_sqrt_t cut_sqrt 1 cut_cov cut_ev cut_V = cut_A.
Proof.
have f0 : flipped (ord0 : 'I_(2 - 1).+1) = 2%:R :> 'I_3 by apply: val_inj; rewrite /flipped /= inordK.
have f1 : flipped (lift ord0 ord0 : 'I_(2 - 1).+1) = 1 :> 'I_3 by apply: val_inj; rewrite /flipped /= inordK.
apply/matrixP => i j; rewrite !mxE !big_ord_recl big_ord0 !mxE.
have [->|->] : j = ord0 \/ j = lift ord0 ord0 by case: j => [[|[|j]] Hj] //; [left|right]; apply: val_inj.
- by rewrite f0; case: i => [[|[|[|i]]] Hi] //; apply/eqP; vm_compute.
- by rewrite f1; case: i => [[|[|[|i]]] Hi] //; apply/eqP; vm_compute.
Qed.
Theorem C185_first_moment_refuted : exists (F : realFieldType) sqrt n' eigh rq slope_fixed tol (cov : 'M[F]_n'.+1),
  [/\ positive_definite cov, cov 0 0 = 1, exact_calls sqrt eigh rq slope_fixed tol cov
    & let L := projT2 (orthogonal_moments sqrt eigh rq slope_fixed tol cov) in
      exists (phi : 'rV[F]_n'.+1) (i : 'I_(projT1 (orthogonal_moments sqrt eigh rq slope_fixed tol cov))),
      [/\ phi 0 0 = 1, i = 0%N :> nat & transformed_eval L phi 0 i <> 1]].
Proof.
exists [realFieldType of rat], cut_sqrt, 2%N, cut_eigh, cut_rq, (fun _ => 0), (Some 2%:R^-1), cut_cov; split.
- exact: cut_pd.
- by rewrite mxE.
- rewrite /exact_calls /=; split; first exact: cut_exact.
  + by move=> [[|[|[|i]]] Hi] // [[|[|[|j]]] Hj] //; rewrite !mxE.
  + by move=> [[|[|[|i]]] Hi] //; rewrite !mxE; (split; last apply/eqP); vm_compute.
  + have -> : argmax_above 2%:R^-1 cut_ev = 1%N by exact: cut_threshold.
    rewrite cut_icov; split; first by split; rewrite /= ?trmx1 ?mulmx1.
    by move=> [[|[|[|i]]] Hi] // [[|[|j]] Hj] //= _; rewrite mxE.
- rewrite /orthogonal_moments /=; have -> : argmax_above 2%:R^-1 cut_ev = 1%N by exact: cut_threshold.
  exists (const_mx 1), 0; split=> //; first by rewrite mxE.
  rewrite /transformed_eval /transform /= cut_icov. rewrite !mxE /= !big_ord_recl big_ord0 !mxE /= => /eqP; by vm_compute.
Qed.
Print Assumptions C185_first_moment_refuted.

(** Both hypotheses: the two samples with moments (1, 0) and (1, 2) of C55_example, nothing dropped, and an RQ decomposition with an
    upper triangular factor. *)
Definition turn m : 'M[rat]_m := \matrix_(i, j) (j == rev_ord i)%:R.
Definition turn_rq m (A : 'M[rat]_(2, m)) : 'M[rat]_(2, m) * 'M[rat]_m := (A *m (turn m)^T, turn m).
Lemma turn_orth m : turn m *m (turn m)^T = 1%:M.
Proof.
apply/matrixP=> i j; rewrite !mxE (bigD1 (rev_ord i)) //= big1 ?addr0; last by move=> k kn; rewrite !mxE (negbTE kn) mul0r.
by rewrite !mxE eqxx mul1r (inj_eq rev_ord_inj).
Qed.
Lemma turn_orth' m : (turn m)^T *m turn m = 1%:M.
Proof. exact: (mulmx1C (turn_orth m)). Qed.
Lemma ex_threshold : threshold (fun _ => 0) (Some 2%:R^-1) (const_mx 1 : 'rV[rat]_2) = 0%N.
Proof. by rewrite /threshold /argmax_above enum_ordSl /= !mxE /=. Qed.
Lemma ex_calls : exact_calls id ex_eigh turn_rq (fun _ => 0) (Some 2%:R^-1) ex_cov.
Proof.
rewrite /exact_calls /=; split.
- by split; rewrite ?trmx1 ?mulmx1 // ex_center mul1mx diag_const_mx.
- by move=> i j _; rewrite !mxE.
- by move=> i; rewrite !mxE mulr1.
- have -> : argmax_above 2%:R^-1 (const_mx 1 : 'rV[rat]_2) = 0%N by exact: ex_threshold.
  split; first by split; [exact: turn_orth|rewrite /= -mulmxA turn_orth' mulmx1].
  move=> i j H.
  have i1 : i = lift ord0 ord0 by case: i H => [[|[|i]] Hi] //= _; apply: val_inj.
  have j0 : j = ord0 by move: H; rewrite i1 /= addn0 ltnS leqn0 => /eqP H; apply: val_inj.
  have f0 : flipped (ord0 : 'I_(1 - 0).+1) = lift ord0 ord0 :> 'I_2 by apply: val_inj; rewrite /flipped /= inordK.
  have f1 : flipped (lift ord0 ord0 : 'I_(1 - 0).+1) = ord0 :> 'I_2 by apply: val_inj; rewrite /flipped /= inordK.
  by rewrite i1 j0 /= !mxE !big_ord_recl big_ord0 !mxE !big_ord_recl !big_ord0 !mxE !f0 !f1; apply/eqP; vm_compute.
Qed.
Example C186_example :
  let L := projT2 (orthogonal_moments id ex_eigh turn_rq (fun _ => 0) (Some 2%:R^-1) ex_cov) in
  (forall k (i : 'I_(projT1 (orthogonal_moments id ex_eigh turn_rq (fun _ => 0) (Some 2%:R^-1) ex_cov))), i = 0%N :> nat -> transformed_eval L (ex_phi k) 0 i = 1)
  /\ forall i, mean_of (fun _ => 2%:R^-1) (fun k => transformed_eval L (ex_phi k)) 0 i = (i == 0%N :> nat)%:R.
Proof.
have H1 : projT1 (orthogonal_moments id ex_eigh turn_rq (fun _ => 0) (Some 2%:R^-1) ex_cov) = 2%N.
  by rewrite /orthogonal_moments /=; have -> : argmax_above 2%:R^-1 (const_mx 1 : 'rV[rat]_2) = 0%N by exact: ex_threshold.
split.
- by move=> k i i0; apply: (C185_first_moment_partial ex_pd _ ex_calls H1) => //; rewrite mxE.
- apply: (C186_data_of_fit ex_pd ex_calls ex_moments _ _ H1); first by move=> k; rewrite mxE.
  by rewrite !big_ord_recl big_ord0; apply/eqP; vm_compute.
Qed.
