From Verif Require Import Base BaseFacts PoolModel PoolProofs PoolSpec.

Section Facts.
Context (E : env).
Notation V := (value E).
Notation pairv := (arr V * arr V)%type.
Notation pool := (pool E).

Lemma hands_app a b : hands E (a ++ b) = hands E a ++ hands E b.
Proof. induction a as [|[id ls|] a IH]; cbn; congruence. Qed.
Lemma successes_app l xs ys : forall k, successes E l k (xs ++ ys) = successes E l k xs ++ successes E l (k + length xs) ys.
Proof.
  induction xs as [|x xs IH]; intros k; cbn [successes app length]; [now rewrite Nat.add_0_r|].
  rewrite IH, <- app_assoc. do 3 f_equal. lia.
Qed.
Lemma failures_app l xs ys : forall k, failures E l k (xs ++ ys) = failures E l k xs ++ failures E l (k + length xs) ys.
Proof.
  induction xs as [|x xs IH]; intros k; cbn [failures app length]; [now rewrite Nat.add_0_r|].
  rewrite IH, <- app_assoc. do 3 f_equal. lia.
Qed.
Lemma run_times_app l xs ys : forall k, run_times E l k (xs ++ ys) = run_times E l k xs ++ run_times E l (k + length xs) ys.
Proof.
  induction xs as [|x xs IH]; intros k; cbn [run_times app length]; [now rewrite Nat.add_0_r|].
  rewrite IH, <- app_assoc. do 3 f_equal. lia.
Qed.

Lemma success_calc k id ls t :
  success E k (id, ls) = match fst (calculate_sample k id ls t) with SOk f c => Some (f, c) | SErr _ => None end.
Proof.
  unfold success, calculate_sample. cbn [fst snd].
  destruct (calculate E k (ls_config ls) (seed_of E id)) as [[f|f] [c|c]|m]; auto.
  replace (Nat.eqb (length f) (expected_len E) && Nat.eqb (length c) (expected_len E))%bool
    with (Nat.eqb (length f) (length c) && Nat.eqb (length c) (expected_len E))%bool.
  - destruct (_ && _)%bool; auto.
  - destruct (Nat.eqb_spec (length c) (expected_len E)), (Nat.eqb_spec (length f) (length c)),
        (Nat.eqb_spec (length f) (expected_len E)); cbn; auto; lia.
Qed.

Lemma time_calc k id ls t :
  snd (calculate_sample k id ls t)
  = match calculate E k (ls_config ls) (seed_of E id) with Raised _ => 0%Q | Returned _ _ => t end.
Proof.
  unfold calculate_sample.
  destruct (calculate E k (ls_config ls) (seed_of E id)) as [[f|f] [c|c]|m]; auto.
  destruct (_ && _)%bool; auto.
Qed.

Definition time_of (ts : dict (Q * nat)) (l : nat) : Q * nat :=
  match dget ts l with Some x => x | None => (0%Q, 0) end.
Definition Qsum (l : list Q) : Q := fold_left Qplus l 0%Q.

Lemma save_running_time_of ts l t l' : time_of (save_running_time ts l t) l' =
  if Nat.eqb l l' then (if Qeq_bool t 0 then time_of ts l' else ((fst (time_of ts l') + t)%Q, S (snd (time_of ts l'))))
  else time_of ts l'.
Proof.
  unfold save_running_time, time_of. destruct (Nat.eqb_spec l l') as [<-|N].
  - destruct (dget ts l) as [[a b]|] eqn:Eg.
    + destruct (Qeq_bool t 0); [now rewrite Eg|]. rewrite Eg, dget_dset_eq. reflexivity.
    + destruct (Qeq_bool t 0); [now rewrite dget_dset_eq|]. rewrite dget_dset_eq, dget_dset_eq. reflexivity.
  - destruct (dget ts l) as [[a b]|] eqn:Eg.
    + destruct (Qeq_bool t 0); auto. rewrite Eg. now rewrite dget_dset_neq.
    + destruct (Qeq_bool t 0); [now rewrite dget_dset_neq|].
      rewrite dget_dset_eq. now rewrite !dget_dset_neq.
Qed.

Record PInv (xs : list (pystr * level_sim E)) (rs : list (finished E)) (p : pool) : Prop := {
  pi_calls : n_calls p = length xs;
  pi_q : NoDup (dkeys (queues p));
  pi_fq : NoDup (dkeys (failed_queues p));
  pi_ok : forall l, reported_ok E l rs ++ dlist (queues p) l = successes E l 0 xs;
  pi_bad : forall l, reported_failed E l rs ++ map fst (dlist (failed_queues p) l) = failures E l 0 xs;
  pi_run : n_running p = (Z.of_nat (length xs) - Z.of_nat (n_reported E rs))%Z;
  pi_tot : n_reported E rs + qtotal (queues p) + qtotal (failed_queues p) = length xs;
  pi_time : forall l, time_of (times p) l
     = (Qsum (filter (fun t => negb (Qeq_bool t 0)) (run_times E l 0 xs)),
        length (filter (fun t => negb (Qeq_bool t 0)) (run_times E l 0 xs))) }.

Lemma hand_PInv xs rs p id ls : PInv xs rs p -> PInv (xs ++ [(id, ls)]) rs (pool_schedule p id ls).
Proof.
  intros [H1 H2 H3 H4 H5 H6 H7 H8]. unfold pool_schedule.
  pose proof (success_calc (n_calls p) id ls (duration E (n_calls p))) as Hs.
  pose proof (time_calc (n_calls p) id ls (duration E (n_calls p))) as Ht.
  destruct (calculate_sample (n_calls p) id ls (duration E (n_calls p))) as [o t]. cbn [fst snd] in Hs, Ht.
  rewrite H1 in *. cbn [plus].
  assert (HT : forall l, time_of (save_running_time (times p) (ls_level ls) t) l
     = (Qsum (filter (fun t => negb (Qeq_bool t 0)) (run_times E l 0 (xs ++ [(id, ls)]))),
        length (filter (fun t => negb (Qeq_bool t 0)) (run_times E l 0 (xs ++ [(id, ls)]))))).
  { intros l. rewrite save_running_time_of, run_times_app, filter_app, app_length. cbn [run_times plus fst snd].
    rewrite app_nil_r. destruct (Nat.eqb_spec (ls_level ls) l) as [El|El].
    - rewrite H8. destruct (calculate E (length xs) (ls_config ls) (seed_of E id)); subst t.
      + cbn [filter]. destruct (Qeq_bool (duration E (length xs)) 0); cbn [negb filter length fst snd];
          rewrite ?app_nil_r, ?Nat.add_0_r, ?Nat.add_1_r; auto.
        f_equal. unfold Qsum. rewrite fold_left_app. reflexivity.
      + cbn. rewrite app_nil_r, Nat.add_0_r. reflexivity.
    - rewrite H8. cbn. now rewrite app_nil_r, Nat.add_0_r. }
  destruct o as [f c|m]; cbn [process_result queues failed_queues n_running times n_calls].
  - split; cbn [queues failed_queues n_running times n_calls]; auto.
    + now rewrite app_length, Nat.add_1_r.
    + now apply NoDup_put.
    + intros l. rewrite successes_app. cbn [successes plus fst snd]. rewrite Hs, app_nil_r, <- H4.
      destruct (Nat.eqb_spec (ls_level ls) l) as [<-|N].
      * now rewrite dlist_put_eq, app_assoc.
      * now rewrite dlist_put_neq, app_nil_r.
    + intros l. rewrite failures_app. cbn [failures plus fst snd]. rewrite Hs, H5.
      destruct (Nat.eqb (ls_level ls) l); now rewrite app_nil_r.
    + rewrite app_length. cbn [length]. lia.
    + rewrite qtotal_put, app_length. cbn [length]. lia.
  - split; cbn [queues failed_queues n_running times n_calls]; auto.
    + now rewrite app_length, Nat.add_1_r.
    + now apply NoDup_put.
    + intros l. rewrite successes_app. cbn [successes plus fst snd]. rewrite Hs, H4.
      destruct (Nat.eqb (ls_level ls) l); now rewrite app_nil_r.
    + intros l. rewrite failures_app. cbn [failures plus fst snd]. rewrite Hs, app_nil_r, <- H5.
      destruct (Nat.eqb_spec (ls_level ls) l) as [<-|N].
      * now rewrite dlist_put_eq, map_app, app_assoc.
      * now rewrite dlist_put_neq, app_nil_r.
    + rewrite app_length. cbn [length]. lia.
    + rewrite qtotal_put, app_length. cbn [length]. lia.
Qed.

Lemma queues_to_list_total {A} (qs : dict (list A)) :
  list_sum (map (fun x => length (snd x)) (fst (fst (queues_to_list qs)))) = qtotal qs.
Proof.
  induction qs as [|[k q] qs IH]; cbn [queues_to_list qtotal]; auto.
  destruct (queues_to_list qs) as [[r c] n]. cbn [fst] in *. destruct q as [|x q]; cbn [fst map list_sum fold_right snd] in *.
  - cbn. auto.
  - unfold list_sum in *. cbn [map fold_right snd]. lia.
Qed.

Lemma poll_PInv xs rs p p' a : PInv xs rs p -> get_finished p = (p', a) -> PInv xs (rs ++ [a]) p'
  /\ fin_running a = (Z.of_nat (length xs) - Z.of_nat (n_reported E (rs ++ [a])))%Z
  /\ fin_times a = times p
  /\ (forall l, dlist (queues p') l = []) /\ (forall l, dlist (failed_queues p') l = []).
Proof.
  intros [H1 H2 H3 H4 H5 H6 H7 H8] Eg. unfold get_finished in Eg.
  pose proof (queues_to_list_total (queues p)) as T1. pose proof (queues_to_list_total (failed_queues p)) as T2.
  destruct (queues_to_list_ok (queues p)) as (r1 & c1 & E1 & K1 & Z1 & _ & _ & D1 & _).
  destruct (queues_to_list_ok (failed_queues p)) as (r2 & c2 & E2 & K2 & Z2 & _ & _ & D2 & _).
  rewrite E1 in Eg, T1. rewrite E2 in Eg, T2. cbn [fst] in T1, T2. injection Eg as <- <-.
  assert (Hn : n_reported E (rs ++ [mkFin r1 r2 (n_running p - Z.of_nat (qtotal (queues p)) - Z.of_nat (qtotal (failed_queues p))) (times p)])
     = n_reported E rs + qtotal (queues p) + qtotal (failed_queues p)).
  { unfold n_reported. rewrite map_app, list_sum_app. cbn [map list_sum fold_right]. unfold answer_size. cbn [fin_ok fin_failed].
    rewrite T1, T2. lia. }
  split; [split; cbn [queues failed_queues n_running times n_calls]; auto|].
  - now rewrite K1.
  - now rewrite K2.
  - intros l. unfold reported_ok. rewrite flat_map_app. cbn [flat_map fin_ok].
    rewrite (D1 H2), (qtotal_zero _ Z1), !app_nil_r. apply H4.
  - intros l. unfold reported_failed. rewrite flat_map_app. cbn [flat_map fin_failed].
    rewrite (D2 H3), (qtotal_zero _ Z2). cbn [map]. rewrite !app_nil_r. apply H5.
  - rewrite Hn. lia.
  - rewrite Hn. lia.
  - cbn [fin_running fin_times queues failed_queues]. rewrite Hn. ands; auto; try lia.
    + now apply qtotal_zero.
    + now apply qtotal_zero.
Qed.

Lemma run_PInv ops : PInv (hands E ops) (snd (pool_run E ops)) (fst (pool_run E ops)).
Proof.
  unfold pool_run.
  assert (H : forall xs rs p, PInv xs rs p ->
    PInv (xs ++ hands E ops) (snd (fold_left (pool_step E) ops (p, rs))) (fst (fold_left (pool_step E) ops (p, rs)))).
  { induction ops as [|[id ls|] ops IH]; intros xs rs p HP; cbn [hands fold_left].
    - now rewrite app_nil_r.
    - cbn [pool_step fst snd]. replace (xs ++ (id, ls) :: hands E ops) with ((xs ++ [(id, ls)]) ++ hands E ops)
        by now rewrite <- app_assoc. apply IH. now apply hand_PInv.
    - cbn [pool_step fst snd]. destruct (get_finished p) as [p' a] eqn:Eg. apply IH. eapply poll_PInv; eauto. }
  specialize (H [] [] (new_pool 0)). apply H.
  split; cbn; auto; try constructor.
Qed.

(** C06 *)
Lemma pool_reports ops p rs l : pool_run E ops = (p, rs) ->
  reported_ok E l rs ++ dlist (queues p) l = successes E l 0 (hands E ops)
  /\ reported_failed E l rs ++ map fst (dlist (failed_queues p) l) = failures E l 0 (hands E ops).
Proof. intros H. pose proof (run_PInv ops) as HP. rewrite H in HP. destruct HP; auto. Qed.

Lemma pool_reports_all ops p rs l : pool_run E (ops ++ [Poll]) = (p, rs) ->
  reported_ok E l rs = successes E l 0 (hands E ops)
  /\ reported_failed E l rs = failures E l 0 (hands E ops).
Proof.
  intros H. unfold pool_run in H. rewrite fold_left_app in H. cbn [fold_left] in H.
  pose proof (run_PInv ops) as HP. unfold pool_run in HP. destruct (fold_left (pool_step E) ops (new_pool 0, [])) as [p0 r0].
  cbn [pool_step fst snd] in *. destruct (get_finished p0) as [p' a] eqn:Eg. injection H as <- <-.
  destruct (poll_PInv _ _ _ _ _ HP Eg) as (HP' & _ & _ & Q1 & Q2).
  pose proof (pi_ok _ _ _ HP' l) as A. pose proof (pi_bad _ _ _ HP' l) as B.
  rewrite Q1, app_nil_r in A. rewrite Q2 in B. cbn in B. rewrite app_nil_r in B. auto.
Qed.

Lemma pool_running ops p rs a : pool_run E (ops ++ [Poll]) = (p, rs ++ [a]) ->
  fin_running a = (Z.of_nat (length (hands E ops)) - Z.of_nat (n_reported E (rs ++ [a])))%Z
  /\ fin_running a = 0%Z.
Proof.
  intros H. unfold pool_run in H. rewrite fold_left_app in H. cbn [fold_left] in H.
  pose proof (run_PInv ops) as HP. unfold pool_run in HP. destruct (fold_left (pool_step E) ops (new_pool 0, [])) as [p0 r0].
  cbn [pool_step fst snd] in *. destruct (get_finished p0) as [p' a'] eqn:Eg. injection H as <- H.
  apply app_inj_tail in H as [-> <-].
  destruct (poll_PInv _ _ _ _ _ HP Eg) as (HP' & R & _ & Q1 & Q2). split; auto. rewrite R.
  pose proof (pi_tot _ _ _ HP') as T.
  unfold get_finished in Eg.
  destruct (queues_to_list_ok (queues p0)) as (r1 & c1 & E1 & K1 & Z1 & _).
  destruct (queues_to_list_ok (failed_queues p0)) as (r2 & c2 & E2 & K2 & Z2 & _).
  rewrite E1, E2 in Eg. injection Eg as <- <-. cbn [queues failed_queues] in T. lia.
Qed.

(** Every sample is a success or a failure of its level, never both. *)
Lemma outcomes_partition l xs : forall k,
  Permutation (map fst (successes E l k xs) ++ failures E l k xs)
    (map fst (filter (fun x => Nat.eqb (ls_level (snd x)) l) xs)).
Proof.
  induction xs as [|x xs IH]; intros k; cbn [successes failures filter]; auto.
  destruct (Nat.eqb (ls_level (snd x)) l); [|apply IH].
  rewrite map_app. cbn [map]. destruct (success E k x); cbn [map app].
  - constructor. apply IH.
  - symmetry. apply Permutation_cons_app. symmetry. apply IH.
Qed.

(** C21, pool side: accumulated times. *)
Lemma pool_times ops p rs l : pool_run E ops = (p, rs) ->
  let ts := filter (fun t => negb (Qeq_bool t 0)) (run_times E l 0 (hands E ops)) in
  dget (times p) l = Some (Qsum ts, length ts) \/ (dget (times p) l = None /\ ts = []).
Proof.
  intros H ts. pose proof (run_PInv ops) as HP. rewrite H in HP. cbn [fst snd] in HP.
  pose proof (pi_time _ _ _ HP l) as A. fold ts in A. unfold time_of in A.
  destruct (dget (times p) l) as [x|]; [left; congruence|right]. split; auto.
  assert (length ts = 0) by congruence. destruct ts; auto. discriminate.
Qed.

End Facts.
