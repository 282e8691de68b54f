(** Statistical tests: mlmc/tool/stats_tests.py. Floats are real numbers; samples are not empty. *)
From Coq Require Import Reals.
From Verif Require Import Base.
Local Open Scope R_scope.

Definition total (l : list R) : R := fold_right Rplus 0 l.
(** np.mean, and the sum of squares np.var(l) * len(l). *)
Definition amean (l : list R) : R := total l / INR (length l).
(** np.var (ddof = 0). *)
Definition np_var (l : list R) : R := total (map (fun x => (x - amean l) ^ 2) l) / INR (length l).

(** scipy's ttest_1samp (two-sided): statistic and p-value; [t_cdf df]: distribution function of Student's distribution. scipy takes twice
    the upper tail of |t|, the same by symmetry of the distribution. *)
Definition ttest_1samp (t_cdf : nat -> R -> R) (samples : list R) (mu_0 : R) : R * R :=
  let n := length samples in
  let s2 := total (map (fun x => (x - amean samples) ^ 2) samples) / INR (n - 1) in
  let t := (amean samples - mu_0) / sqrt (s2 / INR n) in
  let u := t_cdf (n - 1)%nat t in
  (t, 2 * Rmin u (1 - u)).
(** [t_test], stats_tests.py:5-17. *)
Definition t_test (t_cdf : nat -> R -> R) (mu_0 : R) (samples : list R) (max_p_val : R) : res unit :=
  let p_val := snd (ttest_1samp t_cdf samples mu_0) in
  if Rlt_dec p_val max_p_val then Ok tt else Err AssertionError.
(** [chi2_test], stats_tests.py:20-34; [chi2_cdf df]: scipy.stats.chi2.cdf. The message is left out. *)
Definition chi2_test (chi2_cdf : nat -> R -> R) (var_0 : R) (samples : list R) (max_p_val : R) : res unit :=
  let N := length samples in
  let var := np_var samples in
  let T := var * INR N / var_0 in
  let pst := chi2_cdf (length samples - 1)%nat T in
  let p_val := 2 * Rmin pst (1 - pst) in
  if Rlt_dec max_p_val p_val then Ok tt else Err AssertionError.
(** [anova], stats_tests.py:37-54; [f_oneway]: p-value of scipy's f_oneway. *)
Definition anova (f_oneway : list (list R) -> R) (level_moments : list (list R)) : bool :=
  if Rlt_dec (5 / 100) (f_oneway level_moments) then true else false.
