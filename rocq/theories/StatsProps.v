(** Statistical tests: C212, C213. *)
From Coq Require Import Reals Lra Psatz.
From Coquelicot Require Import Coquelicot.
From Verif Require Import Base StatsModel.
Local Open Scope R_scope.

(** * Specification *)
(** Probability that a test fails, when the value of its distribution function is uniform on [0, 1] (as it is for samples that satisfy the
    hypothesis, if the statistic has a continuous distribution). *)
Definition failure_probability (test : R -> res unit) : R := RInt (fun u => match test u with Ok _ => 0 | Err _ => 1 end) 0 1.
(** Sum of squared deviations from the mean. *)
Definition deviations (l : list R) : R := total (map (fun x => (x - amean l) ^ 2) l).

(** * Facts *)
Lemma const_piece (f : R -> R) c a b : a <= b -> (forall u, a < u < b -> f u = c) -> is_RInt f a b ((b - a) * c).
Proof.
  intros H E. apply (is_RInt_ext (fun _ => c)).
  - intros x Hx. rewrite Rmin_left, Rmax_right in Hx by lra. symmetry. apply E. lra.
  - apply (is_RInt_const a b c).
Qed.
Lemma three_pieces (f : R -> R) x y z p q : 0 <= p -> p <= q -> q <= 1 -> (forall u, 0 < u < p -> f u = x) -> (forall u, p < u < q -> f u = y) -> (forall u, q < u < 1 -> f u = z) ->
  RInt f 0 1 = p * x + (q - p) * y + (1 - q) * z.
Proof.
  intros A B C X Y Z. apply is_RInt_unique.
  pose proof (const_piece f x 0 p A X) as I1. pose proof (const_piece f y p q B Y) as I2. pose proof (const_piece f z q 1 C Z) as I3.
  pose proof (is_RInt_Chasles f 0 p q _ _ I1 I2) as I. pose proof (is_RInt_Chasles f 0 q 1 _ _ I I3) as J.
  replace (p * x + (q - p) * y + (1 - q) * z) with (plus (plus ((p - 0) * x) ((q - p) * y)) ((1 - q) * z)); [exact J|]. unfold plus; cbn. ring.
Qed.
Lemma total_affine c d l : total (map (fun x => c * x + d) l) = c * total l + INR (length l) * d.
Proof. unfold total. induction l as [|x l IH]; [cbn; ring|]. cbn [map fold_right]. rewrite IH. change (length (x :: l)) with (S (length l)). rewrite S_INR. ring. Qed.
Lemma len_pos {A} (l : list A) : l <> [] -> 0 < INR (length l). Proof. intros H. apply lt_0_INR. destruct l; [contradiction|cbn; lia]. Qed.
Lemma mean_affine c d l : l <> [] -> amean (map (fun x => c * x + d) l) = c * amean l + d.
Proof. intros H. unfold amean. rewrite map_length, total_affine. pose proof (len_pos l H). field. lra. Qed.
Lemma total_scal c l : total (map (fun x => c * x) l) = c * total l.
Proof. unfold total. induction l as [|x l IH]; [cbn; ring|]. cbn [map fold_right]. rewrite IH. ring. Qed.
Lemma deviations_affine c d l : l <> [] -> deviations (map (fun x => c * x + d) l) = c ^ 2 * deviations l.
Proof.
  intros H. unfold deviations. rewrite mean_affine, <- total_scal by exact H. f_equal. rewrite !map_map. apply map_ext. intros x. ring.
Qed.
Lemma var_deviations l : l <> [] -> np_var l * INR (length l) = deviations l.
Proof. intros H. unfold np_var, deviations. pose proof (len_pos l H). field. lra. Qed.

(** ** C212: chi2_test and anova fail with the given probability *)
Theorem C212_chi2 : forall cdf var_0 samples max_p, samples <> [] -> var_0 <> 0 -> 0 <= max_p <= 1 ->
  (let u := cdf (length samples - 1)%nat (deviations samples / var_0) in
   chi2_test cdf var_0 samples max_p = Ok tt <-> max_p / 2 < u < 1 - max_p / 2)
  /\ (forall c d, c <> 0 -> chi2_test cdf (c ^ 2 * var_0) (map (fun x => c * x + d) samples) max_p = chi2_test cdf var_0 samples max_p)
  /\ failure_probability (fun u => chi2_test (fun _ _ => u) var_0 samples max_p) = max_p.
Proof.
  intros cdf var_0 samples max_p Hs Hv Hp. split; [|split].
  - cbv zeta. unfold chi2_test. cbv zeta. rewrite var_deviations by exact Hs. set (u := cdf _ _).
    unfold Rmin. destruct (Rle_dec u (1 - u)); destruct (Rlt_dec max_p _); split; intros H; try discriminate; try reflexivity; try lra.
  - intros c d Hc. unfold chi2_test. cbv zeta. rewrite (var_deviations (map (fun x => c * x + d) samples)) by (destruct samples; [contradiction|discriminate]). rewrite (var_deviations samples) by exact Hs. rewrite map_length, deviations_affine by exact Hs.
    replace (c ^ 2 * deviations samples / (c ^ 2 * var_0)) with (deviations samples / var_0) by (field; auto). reflexivity.
  - unfold failure_probability. rewrite (three_pieces _ 1 0 1 (max_p / 2) (1 - max_p / 2)); try lra;
      intros u Hu; unfold chi2_test; cbv zeta; unfold Rmin; destruct (Rle_dec u (1 - u)); destruct (Rlt_dec max_p _); try reflexivity; lra.
Qed.
Print Assumptions C212_chi2.
Theorem C212_anova : forall levels, RInt (fun p => if anova (fun _ => p) levels then 0 else 1) 0 1 = 5 / 100.
Proof.
  intros levels. rewrite (three_pieces _ 1 0 0 (5 / 100) (5 / 100)); try lra; intros u Hu; unfold anova; destruct (Rlt_dec (5 / 100) u); try reflexivity; lra.
Qed.
Print Assumptions C212_anova.
Example C212_ex : [1; 2; 4] <> [] /\ (2 : R) <> 0 /\ 0 <= 1 / 100 <= 1 /\ deviations [1; 2; 4] / 2 = 7 / 3
  /\ chi2_test (fun _ _ => 1 / 3) 2 [1; 2; 4] (1 / 100) = Ok tt /\ chi2_test (fun _ _ => 1 / 1000) 2 [1; 2; 4] (1 / 100) = Err AssertionError.
Proof.
  split; [discriminate|]. split; [lra|]. split; [lra|]. split; [unfold deviations, amean, total; cbn; field|].
  split; unfold chi2_test; cbv zeta; unfold Rmin; destruct (Rle_dec _ _); destruct (Rlt_dec _ _); try reflexivity; lra.
Qed.

(** ** C213: t_test fails with the given probability *)
(** In full (false failures with probability max_p_val) false; proved: they have the probability 1 - max_p_val. *)
Theorem C213_t_test_partial : forall mu_0 samples max_p, 0 <= max_p <= 1 ->
  failure_probability (fun u => t_test (fun _ _ => u) mu_0 samples max_p) = 1 - max_p.
Proof.
  intros mu_0 samples max_p Hp. unfold failure_probability. rewrite (three_pieces _ 0 1 0 (max_p / 2) (1 - max_p / 2)); try lra;
    intros u Hu; unfold t_test, ttest_1samp; cbv zeta; cbn [snd]; unfold Rmin; destruct (Rle_dec u (1 - u)); destruct (Rlt_dec _ max_p); try reflexivity; lra.
Qed.
Print Assumptions C213_t_test_partial.
(** Samples whose mean is exactly mu_0 are refused, for every level; samples far away are accepted. *)
Theorem C213_t_test_refuted :
  (exists mu_0 samples max_p, 0 <= max_p <= 1 /\ failure_probability (fun u => t_test (fun _ _ => u) mu_0 samples max_p) <> max_p)
  /\ (forall cdf mu_0 samples max_p, (forall df, cdf df 0 = 1 / 2) -> amean samples = mu_0 -> max_p <= 1 -> t_test cdf mu_0 samples max_p = Err AssertionError)
  /\ (forall cdf mu_0 samples max_p, 1 - max_p / 2 < cdf (length samples - 1)%nat (fst (ttest_1samp cdf samples mu_0)) -> t_test cdf mu_0 samples max_p = Ok tt).
Proof.
  split; [|split].
  - exists 0, [1], (1 / 100). split; [lra|]. rewrite C213_t_test_partial; lra.
  - intros cdf mu_0 samples max_p H E Hp. unfold t_test, ttest_1samp. cbv zeta. cbn [snd]. rewrite E. replace (mu_0 - mu_0) with 0 by ring. replace (0 / sqrt (total (map (fun x => (x - mu_0) ^ 2) samples) / INR (length samples - 1) / INR (length samples))) with 0 by (unfold Rdiv; ring). rewrite H.
    unfold Rmin. destruct (Rle_dec _ _); destruct (Rlt_dec _ _); try reflexivity; lra.
  - intros cdf mu_0 samples max_p H. unfold t_test. cbv zeta. unfold ttest_1samp in *. cbv zeta in *. cbn [fst snd] in *. set (u := cdf _ _) in *.
    destruct (Rlt_dec _ max_p) as [L|L]; [reflexivity|]. exfalso. apply L. pose proof (Rmin_r u (1 - u)). lra.
Qed.
Print Assumptions C213_t_test_refuted.
Example C213_ex : 0 <= 1 / 100 <= 1 /\ amean [1; 3] = 2.
Proof. split; [lra|]. unfold amean, total. cbn. lra. Qed.
