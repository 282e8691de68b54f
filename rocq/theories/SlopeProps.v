(** Properties of the detection of the change of slope: C116-C119. *)
From Verif Require Import Base SlopeModel SlopeSpec SlopeProofs.
From Coq Require Import Reals Lra Lia List.
Import ListNotations.
Local Open Scope R_scope.

(** ** C116: the search for the best window. *)
Theorem C116_window : forall v ra rb a b f, best_fit_all v ra rb = Some (a, b, f) ->
  optimal (fun a b => inner v a b /\ In (Z.of_nat a) ra /\ In (Z.of_nat b) rb) v a b f.
Proof. intros v ra rb a b f H. apply best_fit_all_some in H as [_ H]. exact H. Qed.
Print Assumptions C116_window.
Theorem C116_none : forall v ra rb, best_fit_all v ra rb = None <-> ~ exists a b, inner v a b /\ In (Z.of_nat a) ra /\ In (Z.of_nat b) rb.
Proof.
  intros v ra rb. rewrite best_fit_all_none. unfold candidates. split.
  - intros H (a & b & C). apply (H a b C).
  - intros H a b C. apply H. eauto.
Qed.
Print Assumptions C116_none.

(** ** C117: the best part of a list by a line.
    In full: the part returned is the best among all parts with at least three values. *)
Definition finds_best : Prop := forall v, (4 <= length v)%nat -> exists a b f, best_p1_fit v = Ok (Some (a, b, f)) /\ optimal (any_part v) v a b f.
(** Proved: for at least four values a part is found, never containing the last value, with its least squares line; for at most
    twelve values it is the best of all parts without the last value. Missing: parts with the last value, more than twelve values. *)
Theorem C117_partial : forall v,
  ((4 <= length v)%nat -> exists a b f, best_p1_fit v = Ok (Some (a, b, f)) /\ inner v a b /\ best_line v a b f
     /\ ((length v <= 12)%nat -> optimal (inner v) v a b f))
  /\ ((length v < 4)%nat -> best_p1_fit v = Ok None).
Proof.
  intros v. split; [|apply best_p1_short]. intros L. destruct (best_p1_some (length v) v ltac:(lia) L) as (a & b & E & I & O).
  exists a, b, (fit_of v a b). split; [exact E|]. split; [exact I|]. split; [|exact O]. apply fit_of_best. unfold inner in I. lia.
Qed.
Print Assumptions C117_partial.
(** The last three values lie on a line, the part returned does not. *)
Theorem C117_refuted : exists v, (4 <= length v)%nat /\ forall a b f, best_p1_fit v = Ok (Some (a, b, f)) ->
  exists a' b' g, any_part v a' b' /\ score v a' b' g < score v a b f.
Proof.
  exists [5; 0; 1; 2]. split; [cbn; lia|]. intros a b f H.
  destruct (best_p1_some 4 [5; 0; 1; 2]) as (a1 & b1 & E & I & _); [cbn; lia|cbn; lia|]. unfold best_p1_fit in H. cbn [length] in H.
  rewrite E in H. injection H as -> -> <-. unfold inner in I. cbn [length] in I. assert (a = 0%nat /\ b = 3%nat) as [-> ->] by lia. clear E I.
  exists 1%nat, 4%nat, (1, -1). split; [unfold any_part; cbn; lia|].
  replace (score [5; 0; 1; 2] 1 4 (1, -1)) with 0 by (unfold score, distance; cbn; field).
  unfold score. apply Rdiv_lt_0_compat; [|cbn; lra]. unfold distance. cbn. generalize (fst (fit_of [5; 0; 1; 2] 0 3)) (snd (fit_of [5; 0; 1; 2] 0 3)).
  intros s c. assert (G : 0 <= (c - 5) ^ 2 /\ 0 <= (s + c) ^ 2 /\ 0 <= (1 - 2 * s - c) ^ 2) by (repeat split; apply pow2_ge_0). nra.
Qed.
Print Assumptions C117_refuted.
Corollary C117_refuted_full : ~ finds_best.
Proof.
  intros H. destruct C117_refuted as (v & L & K). destruct (H v L) as (a & b & f & E & _ & _ & O).
  destruct (K a b f E) as (a' & b' & g & P & Lt). specialize (O a' b' g P). lra.
Qed.

(** ** C118: the repaired values. *)
Lemma skip_nth {A} (l : list A) t i d : nth i (skipn t l) d = nth (t + i) l d.
Proof. revert l. induction t as [|t IH]; intros [|x l]; cbn [skipn nth Nat.add]; auto. now destruct i. Qed.
Theorem C118_values : forall z p, Forall (fun x => x <= 0) z -> Forall (fun x => 0 < x) p -> (4 <= length p)%nat ->
  exists t w b f, detect (z ++ p) = Ok (t, w)
  /\ (length z <= t)%nat /\ (t + 3 < length (z ++ p))%nat /\ length w = length (z ++ p)
  /\ (forall i, (t <= i)%nat -> nth i w 0 = nth i (z ++ p) 0)
  /\ best_line (map ln p) (t - length z) b f /\ (t - length z + 2 < b < length p)%nat
  /\ (forall i, (i < t)%nat -> nth i w 0 = exp (fst f * (INR i - INR (length z)) + snd f))
  /\ Forall (fun x => 0 < x) w.
Proof.
  intros z p Hz Hp L. destruct (best_p1_some (length (map ln p)) (map ln p)) as (a & b & E & I & _); [lia|rewrite map_length; lia|].
  unfold inner in I. rewrite map_length in I. set (f := fit_of (map ln p) a b) in *.
  rewrite detect_eq; [|assumption|assumption|destruct p; cbn in L; [lia|discriminate]]. unfold best_p1_fit. rewrite E. cbn [bind]. cbv zeta.
  set (t := (a + length z)%nat). set (left := map (fun i => line f (INR i - INR (length z))) (seq 0 t)).
  assert (Lw : length (left ++ skipn t (z ++ map ln p)) = length (z ++ p)).
  { rewrite app_length, skipn_length, !app_length. unfold left. rewrite !map_length, seq_length. unfold t. lia. }
  assert (Ll : length left = t) by (unfold left; rewrite map_length, seq_length; reflexivity).
  exists t, (map exp (left ++ skipn t (z ++ map ln p))), b, f. split; [reflexivity|]. split; [unfold t; lia|]. rewrite app_length.
  split; [unfold t; lia|]. split; [rewrite map_length, Lw, app_length; reflexivity|]. split.
  { intros i Hi. destruct (Nat.lt_ge_cases i (length (z ++ p))) as [Hlt|Hge].
    2:{ rewrite !nth_overflow; [reflexivity|exact Hge|rewrite map_length, Lw; exact Hge]. }
    rewrite (nth_indep _ 0 (exp 0)) by (rewrite map_length, Lw; exact Hlt). rewrite map_nth, app_nth2 by lia. rewrite Ll.
    rewrite skip_nth. replace (t + (i - t))%nat with i by lia. rewrite !app_nth2 by (unfold t in *; lia).
    rewrite app_length in Hlt. unfold t in Hi.
    rewrite (nth_indep _ 0 (ln 0)) by (rewrite map_length; lia). rewrite map_nth. apply exp_ln.
    rewrite Forall_forall in Hp. apply Hp. apply nth_In. lia. }
  replace (t - length z)%nat with a by (unfold t; lia).
  split; [apply fit_of_best; rewrite map_length; lia|]. split; [lia|]. split.
  { intros i Hi. rewrite (nth_indep _ 0 (exp 0)) by (rewrite map_length, app_length; lia). rewrite map_nth, app_nth1 by lia. unfold left.
    rewrite (nth_indep _ 0 (line f (INR 0 - INR (length z)))) by (rewrite map_length, seq_length; lia).
    rewrite (map_nth (fun i => line f (INR i - INR (length z)))), seq_nth by lia. reflexivity. }
  apply Forall_forall. intros x Hx. apply in_map_iff in Hx as [y [<- _]]. apply exp_pos.
Qed.
Print Assumptions C118_values.
(** Fewer than four positive values: no window, the unpacking of None raises. *)
Theorem C118_short : forall z p, Forall (fun x => x <= 0) z -> Forall (fun x => 0 < x) p -> (0 < length p < 4)%nat ->
  detect (z ++ p) = Err TypeError.
Proof.
  intros z p Hz Hp L. rewrite detect_eq; [|assumption|assumption|destruct p; cbn in L; [lia|discriminate]].
  rewrite best_p1_short by (rewrite map_length; lia). reflexivity.
Qed.
Print Assumptions C118_short.

(** ** C119: values that already decay with one slope. *)
Theorem C119_geometric : forall z x q n, Forall (fun x => x <= 0) z -> 0 < x -> 0 < q -> (4 <= n)%nat ->
  exists w, detect (z ++ map (fun i => x * q ^ i) (seq 0 n)) = Ok (length z, w) /\ length w = (length z + n)%nat
  /\ (forall i, (i < n)%nat -> nth (length z + i) w 0 = x * q ^ i)
  /\ (forall i, (S i < length w)%nat -> nth (S i) w 0 = q * nth i w 0).
Proof.
  intros z x q n Hz Hx Hq Hn. set (p := map (fun i => x * q ^ i) (seq 0 n)).
  assert (Lp : length p = n) by (unfold p; rewrite map_length, seq_length; reflexivity).
  assert (Np : forall i, (i < n)%nat -> nth i p 0 = x * q ^ i).
  { intros i Hi. unfold p. rewrite (nth_indep _ 0 (x * q ^ 0)) by (rewrite map_length, seq_length; lia).
    rewrite (map_nth (fun i => x * q ^ i)), seq_nth by lia. reflexivity. }
  assert (Hp : Forall (fun x => 0 < x) p).
  { apply Forall_forall. intros y Hy. apply in_map_iff in Hy as [i [<- _]]. apply Rmult_lt_0_compat; [exact Hx|]. now apply pow_lt. }
  assert (Lnl : forall i, ln (x * q ^ i) = ln q * INR i + ln x).
  { intros i. rewrite ln_mult by (try apply pow_lt; assumption). rewrite ln_pow by exact Hq. lra. }
  assert (HL : is_line (map ln p) (ln q) (ln x)).
  { intros i Hi. rewrite map_length in Hi. rewrite (nth_indep _ 0 (ln 0)) by (rewrite map_length; lia). rewrite map_nth, Np by lia. apply Lnl. }
  destruct (best_p1_line (length (map ln p)) (map ln p) _ _ ltac:(lia) ltac:(rewrite map_length; lia) HL) as [b E].
  rewrite detect_eq; [|assumption|assumption|destruct p; cbn in Lp; [lia|discriminate]]. unfold best_p1_fit. rewrite E. cbn [bind Nat.add]. cbv zeta.
  set (k := length z) in *. set (w := map exp _).
  assert (Lw : length w = (k + n)%nat).
  { unfold w. rewrite map_length, app_length, map_length, seq_length, skipn_length, app_length, map_length. fold k. lia. }
  assert (W : forall i, (i < k + n)%nat -> nth i w 0 = exp (ln q * (INR i - INR k) + ln x)).
  { intros i Hi. rewrite (nth_indep _ 0 (exp 0)) by lia. unfold w. rewrite map_nth. f_equal. destruct (Nat.lt_ge_cases i k) as [H|H].
    - rewrite app_nth1 by (rewrite map_length, seq_length; exact H).
      rewrite (nth_indep _ 0 (line (ln q, ln x) (INR 0 - INR k))) by (rewrite map_length, seq_length; exact H).
      rewrite (map_nth (fun i => line (ln q, ln x) (INR i - INR k))), seq_nth by exact H. reflexivity.
    - rewrite app_nth2 by (rewrite map_length, seq_length; exact H). rewrite map_length, seq_length, skipn_app, Nat.sub_diag.
      unfold k at 2. rewrite skipn_all. cbn [skipn app]. rewrite HL by (rewrite map_length; lia). rewrite minus_INR by exact H. reflexivity. }
  exists w. split; [reflexivity|]. split; [exact Lw|]. split.
  - intros i Hi. rewrite W by lia. rewrite plus_INR. replace (INR k + INR i - INR k) with (INR i) by ring. rewrite <- Lnl. apply exp_ln.
    apply Rmult_lt_0_compat; [exact Hx|]. now apply pow_lt.
  - intros i Hi. rewrite !W by lia. rewrite S_INR. replace (ln q * (INR i + 1 - INR k) + ln x) with (ln q + (ln q * (INR i - INR k) + ln x)) by ring.
    rewrite exp_plus, exp_ln by exact Hq. reflexivity.
Qed.
Print Assumptions C119_geometric.

(** ** Examples. *)
(** The window of the first three values is found in the list [5; 0; 1; 2]. *)
Example C116_example : best_fit_all [5; 0; 1; 2] [0; 1; 2; 3]%Z [0; 1; 2; 3]%Z <> None /\ best_fit_all [5; 0; 1; 2] [1]%Z [3]%Z = None.
Proof.
  split.
  - intros H. apply C116_none in H. apply H. exists 0%nat, 3%nat. unfold inner. cbn. split; [lia|]. split; auto 6.
  - apply C116_none. intros (a & b & I & [Ha|[]] & [Hb|[]]). unfold inner in I. lia.
Qed.
Example C118_example : exists t w, detect ([-1; 0] ++ [1; 2; 5; 7; 8]) = Ok (t, w) /\ (2 <= t <= 3)%nat /\ nth 6 w 0 = 8.
Proof.
  destruct (C118_values [-1; 0] [1; 2; 5; 7; 8]) as (t & w & b & f & E & A & B & _ & C & _).
  - repeat constructor; lra.
  - repeat constructor; lra.
  - cbn. lia.
  - exists t, w. split; [exact E|]. cbn in A, B. split; [lia|]. rewrite C by lia. reflexivity.
Qed.
(** Zeros before 1, 2, 4, 8, 16 are replaced by 1/4 and 1/2. *)
Example C119_example : exists w, detect ([0; 0] ++ [1 * 2 ^ 0; 1 * 2 ^ 1; 1 * 2 ^ 2; 1 * 2 ^ 3; 1 * 2 ^ 4]) = Ok (2%nat, w) /\ nth 0 w 0 = 1 / 4 /\ nth 1 w 0 = 1 / 2.
Proof.
  destruct (C119_geometric [0; 0] 1 2 5) as (w & E & Lw & A & B); [repeat constructor; lra|lra|lra|lia|]. exists w. split; [exact E|].
  pose proof (A 0%nat ltac:(lia)) as A0. pose proof (B 0%nat ltac:(rewrite Lw; cbn; lia)) as B0. pose proof (B 1%nat ltac:(rewrite Lw; cbn; lia)) as B1.
  cbn [length Nat.add] in A0. cbn [pow] in A0. lra.
Qed.
