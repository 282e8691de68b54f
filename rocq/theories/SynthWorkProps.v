(** The synthetic simulation with a workspace and the estimates of the work: C214, C215. *)
From Coq Require Import Reals Lra.
From Verif Require Import Base SynthModel SynthProps SynthWorkModel.
Local Open Scope R_scope.

(** ** C214: both simulations give the same results *)
(** Specification: calls of SynthSimulation.calculate one after another with the distribution norm(1, 2). *)
Fixpoint synth_run (rvs : nat -> nat -> list R) (nanf : Q) (s : synth_st) (calls : list (R * R * nat)) (fmt : list qfmt) : list (res (list R * list R)) :=
  match calls with
  | [] => []
  | (fs, cs, seed) :: calls' => let '(s1, r) := calculate rvs nanf s fmt fs cs seed in r :: synth_run rvs nanf s1 calls' fmt
  end.
Definition forget (s : work_st) : synth_st := mkSt (w_nans s) (w_len s).

Lemma work_step rvs s f fmt fs cs seed :
  let w := work_calculate rvs s (Some (mkCfg true f)) fmt fs cs seed in
  calculate rvs f (forget s) fmt fs cs seed = (forget (fst w), snd w) /\ w_fraction (fst w) = f.
Proof.
  cbv zeta. unfold work_calculate, calculate. cbn [cf_nan cf_norm w_nans w_len]. destruct fmt as [|q0 fmt]; [split; reflexivity|].
  unfold work_generate, generate, forget. cbn [w_nans w_len w_fraction n_nans len_results]. cbv zeta.
  destruct (negb _); cbn [w_nans w_len w_fraction fst snd]; split; reflexivity.
Qed.
(** A run in a process where the file has always "norm" and the same fraction of failures gives exactly the results of the simulation
    without a workspace, whatever the fraction in the constructor; without a file nothing is counted; with another distribution every call
    fails and is counted. *)
Theorem C214_workspace : forall rvs fmt,
  (forall f f0 calls, work_run rvs (work_init f0) (map (fun c => (Some (mkCfg true f), c)) calls) fmt = synth_run rvs f (mkSt 0 0) calls fmt)
  /\ (forall s fs cs seed, work_calculate rvs s None fmt fs cs seed = (s, Err PyException))
  /\ (forall s f fs cs seed, fmt <> [] -> work_calculate rvs s (Some (mkCfg false f)) fmt fs cs seed = (mkWork (w_nans s) f (S (w_len s)), Err PyException)).
Proof.
  intros rvs fmt. split; [|split].
  - intros f f0 calls. change (mkSt 0 0) with (forget (work_init f0)). generalize (work_init f0) as s. induction calls as [|[[fs cs] seed] calls IH]; intros s; [reflexivity|].
    cbn [map work_run synth_run]. destruct (work_step rvs s f fmt fs cs seed) as [E _]. rewrite E. destruct (work_calculate rvs s (Some (mkCfg true f)) fmt fs cs seed) as [s1 r]. cbn [fst snd].
    f_equal. apply IH.
  - reflexivity.
  - intros s f fs cs seed H. destruct fmt; [contradiction|]. reflexivity.
Qed.
Print Assumptions C214_workspace.
Example C214_ex : result_format <> [] /\ exists f c,
  work_run ex_rvs (work_init 0) (map (fun c => (Some (mkCfg true (1 # 3)), c)) [(1, 0, 3%nat); (1, 0, 4%nat)]) result_format = [Err PyException; Ok (f, c)] /\ length f = 24%nat.
Proof.
  split; [discriminate|]. destruct (C214_workspace ex_rvs result_format) as (A & _). rewrite A.
  assert (U : uniform result_format) by (intros p q [<-|[<-|[]]] [<-|[<-|[]]]; auto).
  destruct (C85_shape ex_rvs (1 # 3) (mkSt 1 1) result_format 1%R 0%R 4) as (s1 & [[E N]|(f & c & E & N & L & _)]); [discriminate|exact U|exact ex_rvs_len| |].
  - exfalso. unfold calculate in E. cbn -[Req_EM_T pack] in E. injection E as <- _. discriminate.
  - exists f, c. split; [|exact L]. cbn [synth_run].
    assert (E0 : calculate ex_rvs (1 # 3) (mkSt 0 0) result_format 1 0 3 = (mkSt 1 1, Err PyException)) by reflexivity. rewrite E0, E. reflexivity.
Qed.

(** ** C215: finer levels have more work *)
Lemma ops_pos c h : 0 < h -> 0 < n_ops_estimate c h.
Proof.
  intros H. unfold n_ops_estimate. apply Rmult_lt_0_compat; [apply exp_pos|]. rewrite <- ln_1. apply ln_increasing; [lra|]. pose proof (Rmax_r (1 / h) 2). lra.
Qed.
Lemma ops_mono c h k : 0 <= c -> 0 < h -> h <= k -> n_ops_estimate c k <= n_ops_estimate c h.
Proof.
  intros Hc Hh Hk. unfold n_ops_estimate. assert (I : 1 / k <= 1 / h) by (apply Rmult_le_compat_l; [lra|apply Rinv_le_contravar; lra]).
  assert (P : 0 < 1 / k) by (apply Rdiv_lt_0_compat; lra).
  apply Rmult_le_compat; [left; apply exp_pos| | |].
  - left. rewrite <- ln_1. apply ln_increasing; [lra|]. pose proof (Rmax_r (1 / k) 2). lra.
  - apply Rle_Rpower_l; [exact Hc|lra].
  - assert (M : Rmax (1 / k) 2 <= Rmax (1 / h) 2) by (apply Rmax_lub; [eapply Rle_trans; [exact I|apply Rmax_l]|apply Rmax_r]).
    destruct M as [M|M]; [left; apply ln_increasing; [pose proof (Rmax_r (1 / k) 2); lra|exact M]|rewrite M; lra].
Qed.
Lemma ops_strict c h k : 0 < c -> 0 < h -> h < k -> n_ops_estimate c k < n_ops_estimate c h.
Proof.
  intros Hc Hh Hk. unfold n_ops_estimate. assert (I : 1 / k < 1 / h) by (apply Rmult_lt_compat_l; [lra|apply Rinv_lt_contravar; [apply Rmult_lt_0_compat; lra|lra]]).
  assert (P : 0 < 1 / k) by (apply Rdiv_lt_0_compat; lra).
  assert (L0 : 0 < ln (Rmax (1 / k) 2)) by (rewrite <- ln_1; apply ln_increasing; [lra|]; pose proof (Rmax_r (1 / k) 2); lra).
  apply Rlt_le_trans with (Rpower (1 / h) c * ln (Rmax (1 / k) 2)).
  - apply Rmult_lt_compat_r; [exact L0|]. unfold Rpower. apply exp_increasing, Rmult_lt_compat_l; [exact Hc|]. apply ln_increasing; assumption.
  - apply Rmult_le_compat_l; [left; apply exp_pos|].
    assert (M : Rmax (1 / k) 2 <= Rmax (1 / h) 2) by (apply Rmax_lub; [eapply Rle_trans; [left; exact I|apply Rmax_l]|apply Rmax_r]).
    destruct M as [M|M]; [left; apply ln_increasing; [pose proof (Rmax_r (1 / k) 2); lra|exact M]|rewrite M; lra].
Qed.
(** In full (of both simulations: the task size grows with finer steps) false; proved for SynthSimulation. *)
Theorem C215_work_partial : forall c h k, 0 < c -> 0 < h -> h < k ->
  0 < task_size c k < task_size c h /\ (1 / 2 <= k -> task_size c k = Rpower (1 / k) c * ln 2).
Proof.
  intros c h k Hc Hh Hk. split; [split; [apply ops_pos; lra|apply ops_strict; assumption]|]. intros H2. unfold task_size, n_ops_estimate. rewrite Rmax_right; [reflexivity|].
  apply Rmult_le_reg_r with k; [lra|]. unfold Rdiv. rewrite Rmult_1_l, Rinv_l by lra. lra.
Qed.
Print Assumptions C215_work_partial.
Theorem C215_work_refuted : exists h k, 0 < h /\ h < k /\ work_task_size h = work_task_size k.
Proof. exists (1 / 2), 1. unfold work_task_size. repeat split; lra. Qed.
Print Assumptions C215_work_refuted.
Example C215_ex : 0 < 2 /\ 0 < 1 / 4 /\ 1 / 4 < 1 / 2 /\ task_size 2 (1 / 2) = 4 * ln 2.
Proof.
  split; [lra|]. split; [lra|]. split; [lra|]. destruct (C215_work_partial 2 (1 / 4) (1 / 2) ltac:(lra) ltac:(lra) ltac:(lra)) as [_ ->]; [|lra].
  replace (1 / (1 / 2)) with 2 by field. f_equal. change 2 with (INR 2) at 2. rewrite Rpower_pow by lra. ring.
Qed.
