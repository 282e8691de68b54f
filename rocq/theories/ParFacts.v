(** Invariants of the Sampler with a process or thread pool. *)
From Verif Require Import Base BaseFacts PermTac TagModel PoolModel PoolProofs HdfModel HdfProofs SamplerModel SamplerSpec SamplerProofs ParModel.

(** Sums over levels. *)
Definition total (L : nat) (f : nat -> nat) : nat := list_sum (map f (seq 0 L)).
Lemma total_ext L f g : (forall l, l < L -> f l = g l) -> total L f = total L g.
Proof.
  intros H. unfold total. f_equal. apply map_ext_in. intros l Hl. apply in_seq in Hl. apply H. lia.
Qed.
Lemma total_S L f : total (S L) f = total L f + f L.
Proof. unfold total. rewrite seq_app1, map_app, list_sum_app. cbn. lia. Qed.
Lemma total_add L f g : total L (fun l => f l + g l) = total L f + total L g.
Proof. induction L as [|L IH]; [reflexivity|]. rewrite !total_S, IH. lia. Qed.
Lemma total_one L l c : l < L -> total L (fun k => if Nat.eqb k l then c else 0) = c.
Proof.
  induction L as [|L IH]; [lia|]. intros H. rewrite total_S. destruct (Nat.eqb_spec L l) as [->|N].
  - rewrite (total_ext _ _ (fun _ => 0)).
    + clear. induction l as [|l IH]; [reflexivity|]. rewrite total_S. lia.
    + intros k Hk. destruct (Nat.eqb_spec k l); lia.
  - rewrite IH; lia.
Qed.
Lemma total_zero L f l : total L f = 0 -> l < L -> f l = 0.
Proof.
  induction L as [|L IH]; [lia|]. rewrite total_S. intros H Hl. destruct (Nat.eq_dec l L) as [->|N]; [lia|]. apply IH; lia.
Qed.

Lemma take_nth_perm {A} i : forall (l : list A) x r, take_nth i l = Some (x, r) -> Permutation l (x :: r).
Proof.
  induction i as [|i IH]; intros [|y l] x r H; cbn in H; try discriminate.
  - injection H as <- <-. reflexivity.
  - destruct (take_nth i l) as [[z r']|] eqn:T; [|discriminate]. injection H as <- <-. rewrite (IH _ _ _ T). apply perm_swap.
Qed.

Section Facts.
Context (E : env) (ps : list (param E)) (picks wpicks : nat -> list nat) (escaped : nat -> bool).
Notation pairv := (arr (value E) * arr (value E))%type.
Notation L := (length ps).
Notation G := (lgroup pairv).
Notation tick := (tick E picks escaped).
Notation window := (window E wpicks escaped).
Notation deliver := (deliver E escaped).
Implicit Types (s : par E) (lost esc : nat -> list pystr).

(** Identifiers of a level that are somewhere in the pool. *)
Definition tids s (l : nat) : list pystr :=
  map t_id (filter (fun t => Nat.eqb (ls_level (t_sim t)) l) (tasks s)).
Notation good s l := (dlist (queues (s_pool (base s))) l).
Notation bad s l := (dlist (failed_queues (s_pool (base s))) l).
Definition hold s (l : nat) : list pystr := tids s l ++ map fst (good s l) ++ map fst (bad s l).

Definition keys_ok {A} (d : dict A) : Prop := NoDup (dkeys d) /\ forall l, In l (dkeys d) -> l < L.
Definition task_ok (t : task E) : Prop := nth_error (create_level_sims E ps) (ls_level (t_sim t)) = Some (t_sim t).
Record POK s : Prop := {
  pk_good : keys_ok (queues (s_pool (base s)));
  pk_bad : keys_ok (failed_queues (s_pool (base s)));
  pk_times : keys_ok (times (s_pool (base s)));
  pk_tasks : Forall task_ok (tasks s);
  pk_vals : forall l, Forall (rec_ok E ps l) (good s l);
  pk_errs : forall l, Forall (rec_bad E ps l) (bad s l) }.
Definition counted s lost : Prop :=
  n_running (s_pool (base s)) = Z.of_nat (total L (fun l => length (hold s l) + length (lost l))).
Definition plus_ lost esc : nat -> list pystr := fun l => lost l ++ esc l.

(** What the other thread leaves alone. *)
Definition same s s' : Prop :=
  s_obj (base s') = s_obj (base s) /\ s_file (base s') = s_file (base s) /\ s_sims (base s') = s_sims (base s)
  /\ s_targets (base s') = s_targets (base s) /\ s_tint (base s') = s_tint (base s)
  /\ s_nsched (base s') = s_nsched (base s) /\ s_handed (base s') = s_handed (base s).
Lemma same_refl s : same s s. Proof. unfold same. ands; auto. Qed.
Lemma same_trans s1 s2 s3 : same s1 s2 -> same s2 s3 -> same s1 s3.
Proof. unfold same. intros (A1 & A2 & A3 & A4 & A5 & A6 & A7) (B1 & B2 & B3 & B4 & B5 & B6 & B7). ands; congruence. Qed.
Definition grows s s' : Prop :=
  (forall l, exists w, good s' l = good s l ++ w) /\ (forall l, exists w, bad s' l = bad s l ++ w)
  /\ (forall l, In l (dkeys (queues (s_pool (base s)))) -> In l (dkeys (queues (s_pool (base s')))))
  /\ (forall l, In l (dkeys (failed_queues (s_pool (base s)))) -> In l (dkeys (failed_queues (s_pool (base s')))))
  /\ n_running (s_pool (base s')) = n_running (s_pool (base s))
  /\ n_calls (s_pool (base s')) = n_calls (s_pool (base s)).
Lemma grows_refl s : grows s s.
Proof. unfold grows. ands; auto; intros l; exists []; now rewrite app_nil_r. Qed.
Lemma grows_trans s1 s2 s3 : grows s1 s2 -> grows s2 s3 -> grows s1 s3.
Proof.
  intros (A1 & A2 & A3 & A4 & A5 & A6) (B1 & B2 & B3 & B4 & B5 & B6). unfold grows. ands; auto; try congruence.
  - intros l. destruct (A1 l) as [w Hw], (B1 l) as [w' Hw']. exists (w ++ w'). now rewrite Hw', Hw, app_assoc.
  - intros l. destruct (A2 l) as [w Hw], (B2 l) as [w' Hw']. exists (w ++ w'). now rewrite Hw', Hw, app_assoc.
Qed.
Definition moved s s' esc : Prop := forall l, Permutation (hold s l) (hold s' l ++ esc l).
Definition safe : Prop := forall k, escaped k = false.

Lemma moved_counted s s' lost esc : moved s s' esc -> n_running (s_pool (base s')) = n_running (s_pool (base s)) ->
  counted s lost -> counted s' (plus_ lost esc).
Proof.
  unfold counted. intros M -> ->. f_equal. apply total_ext. intros l _. unfold plus_.
  rewrite (Permutation_length (M l)), !app_length. lia.
Qed.

Lemma keys_put {A} (d : dict (list A)) l x : keys_ok d -> l < L -> keys_ok (put d l x).
Proof.
  intros [H1 H2] Hl. split; [now apply NoDup_put|]. intros k Hk. apply dkeys_put in Hk as [->|Hk]; auto.
Qed.
Lemma keys_times d l t : keys_ok d -> l < L -> keys_ok (save_running_time d l t).
Proof.
  intros [H1 H2] Hl. split; [now apply save_running_time_nodup|]. intros k Hk. apply save_running_time_keys in Hk as [->|Hk]; auto.
Qed.
Lemma task_level t : task_ok t -> ls_level (t_sim t) < L.
Proof.
  intros H. unfold task_ok in H. rewrite <- (level_sims_length E (zero_param E) 0 ps). apply nth_error_Some.
  unfold create_level_sims in H. congruence.
Qed.
Lemma tids_perm (ts ts' : list (task E)) l : Permutation ts ts' ->
  Permutation (map t_id (filter (fun t => Nat.eqb (ls_level (t_sim t)) l) ts))
              (map t_id (filter (fun t => Nat.eqb (ls_level (t_sim t)) l) ts')).
Proof.
  intros H. apply Permutation_map. induction H; cbn; auto.
  - destruct (Nat.eqb _ l); auto.
  - destruct (Nat.eqb (ls_level (t_sim x)) l), (Nat.eqb (ls_level (t_sim y)) l); auto. apply perm_swap.
  - etransitivity; eauto.
Qed.


Ltac one id := change (id :: ?x) with ([id] ++ x); generalize [id]; intros; psolve.

(** Progress of the workers. *)
Definition prog s s' : Prop :=
  length (tasks s') <= length (tasks s) /\ ticks s <= ticks s'
  /\ (safe -> alive s = true -> tasks s <> [] -> (exists k, ticks s <= k < ticks s' /\ In 0 (picks k)) ->
      length (tasks s') < length (tasks s)).
Definition lives s s' : Prop := safe -> alive s = true -> alive s' = true.
Lemma prog_refl s : prog s s.
Proof. unfold prog. ands; auto. intros _ _ _ (k & H & _). lia. Qed.
Lemma prog_trans s1 s2 s3 : lives s1 s2 -> prog s1 s2 -> prog s2 s3 -> prog s1 s3.
Proof.
  intros A (B1 & B2 & B3) (C1 & C2 & C3). unfold prog. ands; try lia. intros Sf Al Nt (k & Hk & Hp).
  destruct (Nat.lt_ge_cases k (ticks s2)) as [D|D].
  - pose proof (B3 Sf Al Nt (ex_intro _ k (conj (conj (proj1 Hk) D) Hp))). lia.
  - destruct (Nat.eq_dec (length (tasks s2)) (length (tasks s1))) as [Q|Q]; [|lia].
    assert (tasks s2 <> []) by (intros Z; rewrite Z in Q; destruct (tasks s1); [congruence|discriminate]).
    pose proof (C3 Sf (A Sf Al) H (ex_intro _ k (conj (conj D (proj2 Hk)) Hp))). lia.
Qed.

Lemma deliver_tasks s i : ticks (deliver s i) = ticks s /\ length (tasks (deliver s i)) <= length (tasks s) /\ lives s (deliver s i).
Proof.
  unfold ParModel.deliver, lives. destruct (alive s) eqn:Al; [|rewrite Al; auto].
  destruct (take_nth i (tasks s)) as [[t ts]|] eqn:T; [|rewrite Al; auto]. apply take_nth_perm, Permutation_length in T. cbn in T.
  destruct (escaped (t_call t)) eqn:Es; cbn.
  - split; [auto|]. split; [lia|]. intros Sf. rewrite (Sf (t_call t)) in Es. discriminate.
  - destruct (calculate_sample _ _ _ _). cbn. split; [auto|]. split; [lia|auto].
Qed.
Lemma deliver_first s : safe -> alive s = true -> tasks s <> [] -> length (tasks (deliver s 0)) < length (tasks s).
Proof.
  intros Sf Al N. unfold ParModel.deliver. rewrite Al. destruct (tasks s) as [|t ts]; [congruence|]. cbn [take_nth].
  rewrite Sf. destruct (calculate_sample _ _ _ _). cbn. lia.
Qed.
Lemma delivers_tasks is : forall s, let s' := fold_left deliver is s in
  ticks s' = ticks s /\ length (tasks s') <= length (tasks s) /\ lives s s'
  /\ (safe -> alive s = true -> tasks s <> [] -> In 0 is -> length (tasks s') < length (tasks s)).
Proof.
  induction is as [|i is IH]; intros s; cbn [fold_left].
  - unfold lives. ands; auto. intros _ _ _ [].
  - destruct (deliver_tasks s i) as (A1 & A2 & A3), (IH (deliver s i)) as (B1 & B2 & B3 & B4). split; [congruence|].
    split; [lia|]. split; [unfold lives in *; auto|]. intros Sf Al N [->|Hi].
    + pose proof (deliver_first s Sf Al N). lia.
    + destruct (tasks (deliver s i)) as [|t ts] eqn:T.
      * destruct (tasks s) as [|t' ts'] eqn:T'; [congruence|]. cbn in *. lia.
      * specialize (B4 Sf (A3 Sf Al)). assert (length (tasks (fold_left deliver is (deliver s i))) < length (t :: ts)) by (apply B4; auto; discriminate). lia.
Qed.
Lemma tick_prog s : prog s (tick s) /\ lives s (tick s) /\ ticks s < ticks (tick s).
Proof.
  destruct (delivers_tasks (picks (ticks s)) s) as (A1 & A2 & A3 & A4). unfold ParModel.tick. split; [|split; [exact A3|cbn; lia]].
  unfold prog. cbn [tasks ticks]. ands; [lia|lia|]. intros Sf Al N (k & Hk & Hp). apply A4; auto.
  rewrite A1 in Hk. assert (k = ticks s) as <- by lia. exact Hp.
Qed.
Lemma window_prog s : prog s (window s) /\ lives s (window s).
Proof.
  destruct (delivers_tasks (wpicks (ticks s)) s) as (A1 & A2 & A3 & A4). unfold ParModel.window. split; [|exact A3].
  unfold prog. rewrite A1. ands; [lia|lia|]. intros _ _ _ (k & Hk & _). lia.
Qed.

Lemma deliver_ok s i : POK s -> exists esc, POK (deliver s i) /\ moved s (deliver s i) esc /\ same s (deliver s i)
  /\ grows s (deliver s i) /\ (safe -> forall l, esc l = []).
Proof.
  intros [K1 K2 K3 K4 K5 K6]. unfold ParModel.deliver.
  assert (Id : exists esc, POK s /\ moved s s esc /\ same s s /\ grows s s /\ (safe -> forall l, esc l = [])).
  { exists (fun _ => []). split; [constructor; auto|]. split; [intros l; now rewrite app_nil_r|].
    split; [apply same_refl|]. split; [apply grows_refl|]. auto. }
  destruct (alive s); [|exact Id]. destruct (take_nth i (tasks s)) as [[t ts]|] eqn:T; [|exact Id]. clear Id.
  apply take_nth_perm in T. pose proof (Permutation_Forall T K4) as K4'. apply Forall_cons_iff in K4' as [Kt Kts].
  pose proof (task_level t Kt) as Hl. set (k := ls_level (t_sim t)) in *.
  destruct (escaped (t_call t)) eqn:Es.
  { exists (fun l => if Nat.eqb k l then [t_id t] else []). split; [constructor; auto|]. split.
    { intros l. unfold hold, tids. cbn [base tasks]. rewrite (tids_perm _ _ l T). cbn [filter]. fold k.
      destruct (Nat.eqb k l); cbn [map]; [|now rewrite app_nil_r]. one (t_id t). }
    split; [exact (same_refl s)|]. split; [exact (grows_refl s)|]. intros Sf; rewrite (Sf (t_call t)) in Es; discriminate. }
  destruct (calculate_sample (t_call t) (t_id t) (t_sim t) (duration E (t_call t))) as [o tm] eqn:Ec.
  assert (Ho : is_answer E ps k (t_id t) o).
  { exists (t_sim t), (t_call t). split; [exact Kt|].
    rewrite (calculate_sample_fst _ _ _ _ _ (duration E (t_call t))), Ec. reflexivity. }
  exists (fun _ => []). unfold process_result. destruct o as [f c|m]; cbn [set_pool base s_pool].
  - split.
    { constructor; cbn [base set_pool s_pool queues failed_queues times tasks]; auto using keys_put, keys_times.
      intros l. destruct (Nat.eq_dec k l) as [<-|N]; [rewrite dlist_put_eq|now rewrite dlist_put_neq].
      apply Forall_app; split; auto. }
    split.
    { intros l. rewrite app_nil_r. unfold hold, tids. cbn [base set_pool s_pool queues failed_queues tasks].
      rewrite (tids_perm _ _ l T). cbn [filter]. fold k. destruct (Nat.eqb_spec k l) as [<-|N].
      - rewrite dlist_put_eq, map_app. cbn [map fst]. one (t_id t).
      - now rewrite dlist_put_neq. }
    split; [unfold same; cbn; ands; auto|]. split; [|auto].
    unfold grows. cbn [base set_pool s_pool queues failed_queues n_running n_calls]. ands; auto.
    + intros l. destruct (Nat.eq_dec k l) as [<-|N]; [rewrite dlist_put_eq; eauto|rewrite dlist_put_neq by auto].
      exists []. now rewrite app_nil_r.
    + intros l. exists []. now rewrite app_nil_r.
    + intros l Hk. apply dkeys_put. auto.
  - split.
    { constructor; cbn [base set_pool s_pool queues failed_queues times tasks]; auto using keys_put, keys_times.
      intros l. destruct (Nat.eq_dec k l) as [<-|N]; [rewrite dlist_put_eq|now rewrite dlist_put_neq].
      apply Forall_app; split; auto. }
    split.
    { intros l. rewrite app_nil_r. unfold hold, tids. cbn [base set_pool s_pool queues failed_queues tasks].
      rewrite (tids_perm _ _ l T). cbn [filter]. fold k. destruct (Nat.eqb_spec k l) as [<-|N].
      - rewrite dlist_put_eq, map_app. cbn [map fst]. one (t_id t).
      - now rewrite dlist_put_neq. }
    split; [unfold same; cbn; ands; auto|]. split; [|auto].
    unfold grows. cbn [base set_pool s_pool queues failed_queues n_running n_calls]. ands; auto.
    + intros l. exists []. now rewrite app_nil_r.
    + intros l. destruct (Nat.eq_dec k l) as [<-|N]; [rewrite dlist_put_eq; eauto|rewrite dlist_put_neq by auto].
      exists []. now rewrite app_nil_r.
    + intros l Hk. apply dkeys_put. auto.
Qed.

Lemma moved_trans s1 s2 s3 e1 e2 : moved s1 s2 e1 -> moved s2 s3 e2 -> moved s1 s3 (plus_ e1 e2).
Proof. intros A B l. rewrite (A l), (B l). unfold plus_. psolve. Qed.

Lemma delivers_ok is : forall s, POK s -> let s' := fold_left deliver is s in exists esc, POK s' /\ moved s s' esc /\ same s s'
    /\ grows s s' /\ (safe -> forall l, esc l = []).
Proof.
  induction is as [|i is IH]; intros s K; cbn [fold_left].
  - exists (fun _ => []). split; auto. split; [intros l; now rewrite app_nil_r|]. split; [apply same_refl|]. split; [apply grows_refl|]. auto.
  - destruct (deliver_ok s i K) as (e1 & K1 & M1 & S1 & G1 & F1). destruct (IH _ K1) as (e2 & K2 & M2 & S2 & G2 & F2).
    exists (plus_ e1 e2). split; auto. split; [eapply moved_trans; eauto|]. split; [eapply same_trans; eauto|].
    split; [eapply grows_trans; eauto|]. intros Sf l; unfold plus_; now rewrite F1, F2.
Qed.

(** The whole state: [mid l] are identifiers of level l taken out of the pool and not in the collected ones. *)
Record SInv s (gs : list G) (pend mid lost : nat -> list pystr) : Prop := {
  sv_full : Full L (s_obj (base s)) (s_file (base s)) gs;
  sv_sims : s_sims (base s) = create_level_sims E ps;
  sv_len : length (s_nsched (base s)) = L;
  sv_pok : POK s;
  sv_run : counted s lost;
  sv_lev : forall l g n, nth_error gs l = Some g -> nth_error (s_nsched (base s)) l = Some n ->
     g_sched g ++ pend l = map (tagn l) (seq 0 n)
     /\ Permutation (g_sched g ++ pend l) (g_cids g ++ mid l ++ hold s l ++ lost l)
     /\ vals_ok E ps l g /\ Forall (rec_bad E ps l) (g_failed g) }.
Definition calm : Prop := safe /\ forall k, wpicks k = [].
Definition grow lost lost' : Prop := (calm -> forall l, lost' l = lost l) /\ forall l, length (lost l) <= length (lost' l).
Lemma grow_refl lost : grow lost lost.
Proof. split; auto. Qed.
Lemma grow_trans l1 l2 l3 : grow l1 l2 -> grow l2 l3 -> grow l1 l3.
Proof. intros [A B] [A' B']. split; [intros Cm l; rewrite A', A; auto|]. intros l. specialize (B l). specialize (B' l). lia. Qed.

Lemma SInv_moved s s' gs pend mid lost esc : SInv s gs pend mid lost -> POK s' -> moved s s' esc -> same s s' ->
  n_running (s_pool (base s')) = n_running (s_pool (base s)) -> SInv s' gs pend mid (plus_ lost esc).
Proof.
  intros [H1 H2 H3 H4 H5 H6] K M (S1 & S2 & S3 & S4 & S5 & S6 & S7) R.
  constructor; rewrite ?S1, ?S2, ?S3, ?S6; auto.
  - eapply moved_counted; eauto.
  - intros l g n Hg Hn. destruct (H6 l g n Hg Hn) as (A & B & C & D). ands; auto. rewrite B, (M l). unfold plus_. psolve.
Qed.
Lemma tick_S s gs pend mid lost : SInv s gs pend mid lost -> exists lost', SInv (tick s) gs pend mid lost'
  /\ same s (tick s) /\ grows s (tick s) /\ grow lost lost'.
Proof.
  intros I. destruct (delivers_ok (picks (ticks s)) s (sv_pok _ _ _ _ _ I)) as (e & K & M & Sm & Gr & F).
  exists (plus_ lost e). split.
  - destruct (SInv_moved _ _ _ _ _ _ _ I K M Sm) as [H1 H2 H3 [] H5 H6]; [apply Gr|]. constructor; auto. constructor; auto.
  - ands; auto. split; [intros [Sf _] l; unfold plus_; rewrite F; auto; apply app_nil_r|]. intros l. unfold plus_. rewrite app_length. lia.
Qed.
Lemma window_S s gs pend mid lost : SInv s gs pend mid lost -> exists lost', SInv (window s) gs pend mid lost'
  /\ same s (window s) /\ grows s (window s) /\ (calm -> window s = s) /\ grow lost lost'.
Proof.
  intros I. destruct (delivers_ok (wpicks (ticks s)) s (sv_pok _ _ _ _ _ I)) as (e & K & M & Sm & Gr & F).
  exists (plus_ lost e). split; [eapply SInv_moved; eauto; apply Gr|]. ands; auto.
  - intros [Sf W]. unfold ParModel.window. rewrite W. reflexivity.
  - split; [intros [Sf _] l; unfold plus_; rewrite F; auto; apply app_nil_r|]. intros l. unfold plus_. rewrite app_length. lia.
Qed.

Lemma dlist_dset_same {A} (d : dict (list A)) l : dlist (dset d l []) l = [].
Proof. unfold dlist. now rewrite dget_dset_eq. Qed.
Lemma dlist_dset_other {A} (d : dict (list A)) l k x : k <> l -> dlist (dset d l x) k = dlist d k.
Proof. intros N. unfold dlist. now rewrite dget_dset_neq by auto. Qed.
Lemma keys_dset {A} (d : dict A) l x : keys_ok d -> l < L -> keys_ok (dset d l x).
Proof.
  intros [H1 H2] Hl. split; [now apply dkeys_dset_nodup|]. intros k Hk. apply dkeys_dset_in in Hk as [->|Hk]; auto.
Qed.
Lemma total_drop f g l c : l < L -> f l = g l + c -> (forall k, k <> l -> f k = g k) -> total L f = total L g + c.
Proof.
  intros Hl H1 H2. rewrite <- (total_one L l c Hl), <- total_add. apply total_ext. intros k _.
  destruct (Nat.eqb_spec k l) as [->|N]; auto. rewrite H2; auto.
Qed.

Lemma take_good s gs pend mid lost l q w : SInv s gs pend mid lost -> l < L -> good s l = q ++ w ->
  let p := s_pool (base s) in
  SInv (set_base E s (set_pool E (base s) (put_good E p (dset (queues p) l []) (n_running p - Z.of_nat (length q))%Z))) gs pend
       (fupd mid l (mid l ++ map fst q)) (fupd lost l (lost l ++ map fst w)).
Proof.
  intros [H1 H2 H3 [K1 K2 K3 K4 K5 K6] H5 H6] Hl Hq p.
  set (s' := (set_base E s (set_pool E (base s) (put_good E p (dset (queues p) l []) (n_running p - Z.of_nat (length q))%Z)))).
  assert (Hh : forall k, Permutation (hold s k ++ lost k)
     ((if Nat.eqb k l then map fst q else []) ++
      hold s' k
      ++ fupd lost l (lost l ++ map fst w) k)).
  { intros k. unfold hold, tids, s'. cbn [set_base base set_pool put_good s_pool queues failed_queues tasks]. unfold p.
    destruct (Nat.eqb_spec k l) as [->|N].
    - rewrite fupd_eq, dlist_dset_same, Hq, map_app. cbn [map]. psolve.
    - rewrite fupd_neq, dlist_dset_other by auto. cbn [app]. psolve. }
  constructor; auto.
  - constructor; unfold s'; cbn [set_base base set_pool put_good s_pool queues failed_queues times tasks]; auto using keys_dset.
    intros k. destruct (Nat.eq_dec k l) as [->|N]; [rewrite dlist_dset_same; constructor|rewrite dlist_dset_other; auto].
  - assert (Q : total L (fun k => length (hold s k) + length (lost k))
                = total L (fun k => length (hold s' k) + length (fupd lost l (lost l ++ map fst w) k)) + length q).
    2: { unfold counted in *. change (n_running (s_pool (base s'))) with (n_running (s_pool (base s)) - Z.of_nat (length q))%Z.
         rewrite H5, Q. lia. }
    apply (total_drop _ _ l); auto.
    + pose proof (Permutation_length (Hh l)) as Q. rewrite Nat.eqb_refl, !app_length, map_length in Q. lia.
    + intros k N. pose proof (Permutation_length (Hh k)) as Q. apply Nat.eqb_neq in N. rewrite N, !app_length in Q. cbn [length plus] in Q. lia.
  - intros k g n Hg Hn. destruct (H6 k g n Hg Hn) as (A & B & C & D). ands; auto. rewrite B, (Hh k).
    destruct (Nat.eqb_spec k l) as [->|N].
    + rewrite !fupd_eq. psolve.
    + rewrite !(fupd_neq mid) by auto. cbn [app]. reflexivity.
Qed.
Lemma take_bad s gs pend mid lost l q w : SInv s gs pend mid lost -> l < L -> bad s l = q ++ w ->
  let p := s_pool (base s) in
  SInv (set_base E s (set_pool E (base s) (put_bad E p (dset (failed_queues p) l []) (n_running p - Z.of_nat (length q))%Z))) gs pend
       (fupd mid l (mid l ++ map fst q)) (fupd lost l (lost l ++ map fst w)).
Proof.
  intros [H1 H2 H3 [K1 K2 K3 K4 K5 K6] H5 H6] Hl Hq p.
  set (s' := (set_base E s (set_pool E (base s) (put_bad E p (dset (failed_queues p) l []) (n_running p - Z.of_nat (length q))%Z)))).
  assert (Hh : forall k, Permutation (hold s k ++ lost k)
     ((if Nat.eqb k l then map fst q else []) ++
      hold s' k
      ++ fupd lost l (lost l ++ map fst w) k)).
  { intros k. unfold hold, tids, s'. cbn [set_base base set_pool put_bad s_pool queues failed_queues tasks]. unfold p.
    destruct (Nat.eqb_spec k l) as [->|N].
    - rewrite fupd_eq, dlist_dset_same, Hq, map_app. cbn [map]. psolve.
    - rewrite fupd_neq, dlist_dset_other by auto. cbn [app]. psolve. }
  constructor; auto.
  - constructor; unfold s'; cbn [set_base base set_pool put_bad s_pool queues failed_queues times tasks]; auto using keys_dset.
    intros k. destruct (Nat.eq_dec k l) as [->|N]; [rewrite dlist_dset_same; constructor|rewrite dlist_dset_other; auto].
  - assert (Q : total L (fun k => length (hold s k) + length (lost k))
                = total L (fun k => length (hold s' k) + length (fupd lost l (lost l ++ map fst w) k)) + length q).
    2: { unfold counted in *. change (n_running (s_pool (base s'))) with (n_running (s_pool (base s)) - Z.of_nat (length q))%Z.
         rewrite H5, Q. lia. }
    apply (total_drop _ _ l); auto.
    + pose proof (Permutation_length (Hh l)) as Q. rewrite Nat.eqb_refl, !app_length, map_length in Q. lia.
    + intros k N. pose proof (Permutation_length (Hh k)) as Q. apply Nat.eqb_neq in N. rewrite N, !app_length in Q. cbn [length plus] in Q. lia.
  - intros k g n Hg Hn. destruct (H6 k g n Hg Hn) as (A & B & C & D). ands; auto. rewrite B, (Hh k).
    destruct (Nat.eqb_spec k l) as [->|N].
    + rewrite !fupd_eq. psolve.
    + rewrite !(fupd_neq mid) by auto. cbn [app]. reflexivity.
Qed.

Definition kept s s' : Prop :=
  s_obj (base s') = s_obj (base s) /\ s_sims (base s') = s_sims (base s)
  /\ s_targets (base s') = s_targets (base s) /\ s_tint (base s') = s_tint (base s)
  /\ s_nsched (base s') = s_nsched (base s) /\ s_handed (base s') = s_handed (base s).
Definition rel s lost s' lost' : Prop :=
  kept s s' /\ lives s s' /\ prog s s' /\ grow lost lost'.
Lemma rel_refl s lost : rel s lost s lost.
Proof. unfold rel, kept, lives. ands; auto using grow_refl. apply prog_refl. Qed.
Lemma rel_trans s1 l1 s2 l2 s3 l3 : rel s1 l1 s2 l2 -> rel s2 l2 s3 l3 -> rel s1 l1 s3 l3.
Proof.
  intros ((A1 & A2 & A3 & A4 & A5 & A6) & B & C & D) ((A1' & A2' & A3' & A4' & A5' & A6') & B' & C' & D').
  unfold rel, kept. ands; try congruence.
  - intros Sf Al. auto.
  - eapply prog_trans; eauto.
  - eapply grow_trans; eauto.
Qed.
Lemma same_kept s s' : same s s' -> kept s s'.
Proof. intros (A1 & A2 & A3 & A4 & A5 & A6 & A7). unfold kept. ands; auto. Qed.
Lemma tick_R s gs pend mid lost : SInv s gs pend mid lost -> exists lost', SInv (tick s) gs pend mid lost'
  /\ rel s lost (tick s) lost' /\ same s (tick s) /\ grows s (tick s).
Proof.
  intros I. destruct (tick_S _ _ _ _ _ I) as (lost' & I' & Sm & Gr & C). destruct (tick_prog s) as (P & Lv & _).
  exists lost'. split; auto. split; [|auto]. unfold rel. ands; auto. now apply same_kept.
Qed.
Lemma tick_quiet s : tasks s = [] -> base (tick s) = base s /\ tasks (tick s) = [].
Proof.
  intros T. unfold ParModel.tick. cbn [base tasks].
  assert (H : forall is s, tasks s = [] -> fold_left deliver is s = s).
  { induction is as [|i is IH]; intros s0 T0; [reflexivity|]. cbn [fold_left].
    assert (deliver s0 i = s0) as ->; auto. unfold ParModel.deliver. destruct (alive s0); [|reflexivity]. rewrite T0. now destruct i. }
  rewrite H; auto.
Qed.
Lemma window_quiet s : tasks s = [] -> window s = s.
Proof.
  intros T. unfold ParModel.window.
  assert (H : forall is s, tasks s = [] -> fold_left deliver is s = s).
  { induction is as [|i is IH]; intros s0 T0; [reflexivity|]. cbn [fold_left].
    assert (deliver s0 i = s0) as ->; auto. unfold ParModel.deliver. destruct (alive s0); [|reflexivity]. rewrite T0. now destruct i. }
  now apply H.
Qed.
Lemma SInv_ext s gs pend pend' mid mid' lost lost' : SInv s gs pend mid lost ->
  (forall l, l < L -> pend l = pend' l) -> (forall l, l < L -> Permutation (mid l) (mid' l)) -> (forall l, lost l = lost' l) ->
  SInv s gs pend' mid' lost'.
Proof.
  intros [H1 H2 H3 H4 H5 H6] A B C. constructor; auto.
  - unfold counted in *. rewrite H5. f_equal. apply total_ext. intros l Hl. now rewrite C.
  - intros l g n Hg Hn. destruct (H6 l g n Hg Hn) as (D1 & D2 & D3 & D4).
    assert (Hl : l < L). { destruct H1 as (_ & _ & Hl). rewrite <- Hl. apply nth_error_Some. congruence. }
    rewrite <- A, <- C by auto. ands; auto. rewrite D2, (B l Hl). reflexivity.
Qed.

Lemma drain_good levels : forall s gs pend mid lost acc, SInv s gs pend mid lost -> NoDup levels -> (forall l, In l levels -> l < L) ->
  exists s' out mid' lost', drain E picks wpicks escaped (@queues E) (put_good E) levels acc s = (s', acc ++ out)
    /\ SInv s' gs pend mid' lost' /\ (forall l, mid' l = mid l ++ map fst (dlist out l))
    /\ NoDup (dkeys out) /\ incl (dkeys out) levels /\ (forall l, Forall (rec_ok E ps l) (dlist out l))
    /\ rel s lost s' lost'
    /\ (tasks s = [] -> tasks s' = [] /\ forall l, bad s' l = bad s l /\ (In l levels -> good s' l = []) /\ (~ In l levels -> good s' l = good s l)).
Proof.
  induction levels as [|l r IH]; intros s gs pend mid lost acc I Nd Hl; cbn [drain].
  { exists s, [], mid, lost. rewrite app_nil_r. split; auto. split; auto. split; [intros; cbn; now rewrite app_nil_r|].
    split; [constructor|]. split; [intros ? []|]. split; [intros; constructor|]. split; [apply rel_refl|].
    intros T. split; auto. intros l. ands; auto. intros []. }
  apply NoDup_cons_iff in Nd as [Nl Nd]. assert (Hl0 : l < L) by (apply Hl; now left).
  assert (Hr : forall k, In k r -> k < L) by (intros k Hk; apply Hl; now right).
  destruct (tick_R _ _ _ _ _ I) as (lost1 & I1 & R1 & S1 & G1). pose proof (tick_quiet s) as Q1. set (s1 := tick s) in *.
  destruct (dlist (queues (s_pool (base s1))) l) as [|x q] eqn:Eq.
  { destruct (IH s1 gs pend mid lost1 acc I1 Nd Hr) as (s' & out & mid' & lost' & E' & I' & M' & N' & Inc & F' & R' & Q').
    exists s', out, mid', lost'. split; auto. split; auto. split; auto. split; auto. split; [intros k Hk; right; auto|]. split; auto.
    split; [eapply rel_trans; eauto|]. intros T. destruct (Q1 T) as [Q1a Q1b]. destruct (Q' Q1b) as [Q'a Q'b]. split; auto.
    intros k. destruct (Q'b k) as (B1 & B2 & B3). rewrite Q1a in *. ands; auto.
    - intros [<-|Hk]; auto. rewrite B3 by auto. exact Eq.
    - intros Hk. apply B3. intros Hk'. apply Hk. now right. }
  destruct (window_S _ _ _ _ _ I1) as (lost2 & I2 & S2 & G2 & C2 & Gl2). destruct (window_prog s1) as [P2 L2].
  pose proof (window_quiet s1) as Q2. set (s2 := window s1) in *.
  destruct (proj1 G2 l) as [w Hw]. rewrite Eq in Hw.
  pose proof (take_good _ _ _ _ _ l (x :: q) w I2 Hl0 Hw) as I3. cbv zeta in I3.
  set (s3 := set_base E s2 _) in I3 |- *.
  destruct (IH s3 gs pend _ _ (acc ++ [(l, x :: q)]) I3 Nd Hr) as (s' & out & mid' & lost' & E' & I' & M' & N' & Inc & F' & R' & Q').
  exists s', ((l, x :: q) :: out), mid', lost'. rewrite E', <- app_assoc. split; [reflexivity|]. split; [exact I'|].
  assert (No : dlist out l = []).
  { unfold dlist. assert (dget out l = None) as ->; auto. apply dget_None. intros Hk. apply Nl. apply Inc. exact Hk. }
  split.
  { intros k. rewrite M'. unfold dlist at 2. cbn [dget]. destruct (Nat.eqb_spec k l) as [->|N].
    - rewrite fupd_eq, No. cbn [map]. now rewrite app_nil_r.
    - rewrite fupd_neq by auto. reflexivity. }
  split; [cbn; constructor; auto|]. split; [intros k [<-|Hk]; [now left|right; auto]|]. split.
  { intros k. unfold dlist. cbn [dget]. destruct (Nat.eqb_spec k l) as [->|N]; [|apply F'].
    pose proof (pk_vals _ (sv_pok _ _ _ _ _ I1) l) as Hf. now rewrite Eq in Hf. }
  split.
  { eapply rel_trans; [exact R1|]. eapply rel_trans; [|exact R'].
    unfold rel. split; [exact (same_kept _ _ S2)|]. split; [exact L2|]. split; [exact P2|].
    split; intros.
    - assert (w = []) as ->.
      { rewrite C2 in Hw by auto. rewrite Eq in Hw. rewrite <- (app_nil_r (x :: q)) in Hw at 1. now apply app_inv_head in Hw. }
      unfold fupd. destruct (Nat.eqb_spec l0 l) as [->|N]; [cbn [map]; rewrite app_nil_r|]; now apply Gl2.
    - destruct Gl2 as [_ Gl2]. specialize (Gl2 l0). unfold fupd. destruct (Nat.eqb_spec l0 l) as [->|N]; rewrite ?app_length; lia. }
  intros T. destruct (Q1 T) as [Q1a Q1b]. specialize (Q2 Q1b).
  assert (T3 : tasks s3 = []) by (unfold s3; cbn [set_base tasks]; now rewrite Q2).
  destruct (Q' T3) as [Q'a Q'b]. split; auto. intros k. destruct (Q'b k) as (B1 & B2 & B3).
  assert (Bb : bad s3 k = bad s k).
  { unfold s3. cbn [set_base base set_pool put_good s_pool failed_queues]. rewrite Q2. now rewrite Q1a. }
  assert (Bg : good s3 k = if Nat.eqb k l then [] else good s k).
  { unfold s3. cbn [set_base base set_pool put_good s_pool queues]. rewrite Q2, Q1a.
    destruct (Nat.eqb_spec k l) as [->|N]; [apply dlist_dset_same|now apply dlist_dset_other]. }
  ands.
  - congruence.
  - intros [<-|Hk]; auto. rewrite B3 by auto. now rewrite Bg, Nat.eqb_refl.
  - intros Hk. rewrite B3 by (intros Hk'; apply Hk; now right). rewrite Bg.
    destruct (Nat.eqb_spec k l) as [->|N]; auto. exfalso. apply Hk. now left.
Qed.
Lemma drain_bad levels : forall s gs pend mid lost acc, SInv s gs pend mid lost -> NoDup levels -> (forall l, In l levels -> l < L) ->
  exists s' out mid' lost', drain E picks wpicks escaped (@failed_queues E) (put_bad E) levels acc s = (s', acc ++ out)
    /\ SInv s' gs pend mid' lost' /\ (forall l, mid' l = mid l ++ map fst (dlist out l))
    /\ NoDup (dkeys out) /\ incl (dkeys out) levels /\ (forall l, Forall (rec_bad E ps l) (dlist out l))
    /\ rel s lost s' lost'
    /\ (tasks s = [] -> tasks s' = [] /\ forall l, good s' l = good s l /\ (In l levels -> bad s' l = []) /\ (~ In l levels -> bad s' l = bad s l)).
Proof.
  induction levels as [|l r IH]; intros s gs pend mid lost acc I Nd Hl; cbn [drain].
  { exists s, [], mid, lost. rewrite app_nil_r. split; auto. split; auto. split; [intros; cbn; now rewrite app_nil_r|].
    split; [constructor|]. split; [intros ? []|]. split; [intros; constructor|]. split; [apply rel_refl|].
    intros T. split; auto. intros l. ands; auto. intros []. }
  apply NoDup_cons_iff in Nd as [Nl Nd]. assert (Hl0 : l < L) by (apply Hl; now left).
  assert (Hr : forall k, In k r -> k < L) by (intros k Hk; apply Hl; now right).
  destruct (tick_R _ _ _ _ _ I) as (lost1 & I1 & R1 & S1 & G1). pose proof (tick_quiet s) as Q1. set (s1 := tick s) in *.
  destruct (dlist (failed_queues (s_pool (base s1))) l) as [|x q] eqn:Eq.
  { destruct (IH s1 gs pend mid lost1 acc I1 Nd Hr) as (s' & out & mid' & lost' & E' & I' & M' & N' & Inc & F' & R' & Q').
    exists s', out, mid', lost'. split; auto. split; auto. split; auto. split; auto. split; [intros k Hk; right; auto|]. split; auto.
    split; [eapply rel_trans; eauto|]. intros T. destruct (Q1 T) as [Q1a Q1b]. destruct (Q' Q1b) as [Q'a Q'b]. split; auto.
    intros k. destruct (Q'b k) as (B1 & B2 & B3). rewrite Q1a in *. ands; auto.
    - intros [<-|Hk]; auto. rewrite B3 by auto. exact Eq.
    - intros Hk. apply B3. intros Hk'. apply Hk. now right. }
  destruct (window_S _ _ _ _ _ I1) as (lost2 & I2 & S2 & G2 & C2 & Gl2). destruct (window_prog s1) as [P2 L2].
  pose proof (window_quiet s1) as Q2. set (s2 := window s1) in *.
  destruct (proj1 (proj2 G2) l) as [w Hw]. rewrite Eq in Hw.
  pose proof (take_bad _ _ _ _ _ l (x :: q) w I2 Hl0 Hw) as I3. cbv zeta in I3.
  set (s3 := set_base E s2 _) in I3 |- *.
  destruct (IH s3 gs pend _ _ (acc ++ [(l, x :: q)]) I3 Nd Hr) as (s' & out & mid' & lost' & E' & I' & M' & N' & Inc & F' & R' & Q').
  exists s', ((l, x :: q) :: out), mid', lost'. rewrite E', <- app_assoc. split; [reflexivity|]. split; [exact I'|].
  assert (No : dlist out l = []).
  { unfold dlist. assert (dget out l = None) as ->; auto. apply dget_None. intros Hk. apply Nl. apply Inc. exact Hk. }
  split.
  { intros k. rewrite M'. unfold dlist at 2. cbn [dget]. destruct (Nat.eqb_spec k l) as [->|N].
    - rewrite fupd_eq, No. cbn [map]. now rewrite app_nil_r.
    - rewrite fupd_neq by auto. reflexivity. }
  split; [cbn; constructor; auto|]. split; [intros k [<-|Hk]; [now left|right; auto]|]. split.
  { intros k. unfold dlist. cbn [dget]. destruct (Nat.eqb_spec k l) as [->|N]; [|apply F'].
    pose proof (pk_errs _ (sv_pok _ _ _ _ _ I1) l) as Hf. now rewrite Eq in Hf. }
  split.
  { eapply rel_trans; [exact R1|]. eapply rel_trans; [|exact R'].
    unfold rel. split; [exact (same_kept _ _ S2)|]. split; [exact L2|]. split; [exact P2|].
    split; intros.
    - assert (w = []) as ->.
      { rewrite C2 in Hw by auto. rewrite Eq in Hw. rewrite <- (app_nil_r (x :: q)) in Hw at 1. now apply app_inv_head in Hw. }
      unfold fupd. destruct (Nat.eqb_spec l0 l) as [->|N]; [cbn [map]; rewrite app_nil_r|]; now apply Gl2.
    - destruct Gl2 as [_ Gl2]. specialize (Gl2 l0). unfold fupd. destruct (Nat.eqb_spec l0 l) as [->|N]; rewrite ?app_length; lia. }
  intros T. destruct (Q1 T) as [Q1a Q1b]. specialize (Q2 Q1b).
  assert (T3 : tasks s3 = []) by (unfold s3; cbn [set_base tasks]; now rewrite Q2).
  destruct (Q' T3) as [Q'a Q'b]. split; auto. intros k. destruct (Q'b k) as (B1 & B2 & B3).
  assert (Bb : good s3 k = good s k).
  { unfold s3. cbn [set_base base set_pool put_bad s_pool queues]. rewrite Q2. now rewrite Q1a. }
  assert (Bg : bad s3 k = if Nat.eqb k l then [] else bad s k).
  { unfold s3. cbn [set_base base set_pool put_bad s_pool failed_queues]. rewrite Q2, Q1a.
    destruct (Nat.eqb_spec k l) as [->|N]; [apply dlist_dset_same|now apply dlist_dset_other]. }
  ands.
  - congruence.
  - intros [<-|Hk]; auto. rewrite B3 by auto. now rewrite Bg, Nat.eqb_refl.
  - intros Hk. rewrite B3 by (intros Hk'; apply Hk; now right). rewrite Bg.
    destruct (Nat.eqb_spec k l) as [->|N]; auto. exfalso. apply Hk. now left.
Qed.

(** What can happen to a group: identifiers and records are added at the end. *)
Definition later (g g' : G) : Prop :=
  (exists a, g_sched g' = g_sched g ++ a) /\ (exists b, records g' = records g ++ b).
Definition laters (gs gs' : list G) : Prop := forall l g, nth_error gs l = Some g -> exists g', nth_error gs' l = Some g' /\ later g g'.
Lemma later_refl g : later g g.
Proof. split; exists []; now rewrite app_nil_r. Qed.
Lemma laters_refl gs : laters gs gs.
Proof. intros l g H. exists g. split; auto using later_refl. Qed.
Lemma laters_trans gs1 gs2 gs3 : laters gs1 gs2 -> laters gs2 gs3 -> laters gs1 gs3.
Proof.
  intros A B l g H. destruct (A l g H) as (g2 & H2 & (a & Ha) & (b & Hb)). destruct (B l g2 H2) as (g3 & H3 & (a' & Ha') & (b' & Hb')).
  exists g3. split; auto. split; eexists; [rewrite Ha', Ha|rewrite Hb', Hb]; now rewrite <- app_assoc.
Qed.

Lemma SInv_file s gs pend mid lost f gs' pend' mid' : SInv s gs pend mid lost -> Full L (s_obj (base s)) f gs' ->
  (forall l g g', nth_error gs l = Some g -> nth_error gs' l = Some g' -> vals_ok E ps l g -> Forall (rec_bad E ps l) (g_failed g) ->
     g_sched g' ++ pend' l = g_sched g ++ pend l /\ Permutation (g_cids g ++ mid l) (g_cids g' ++ mid' l)
     /\ vals_ok E ps l g' /\ Forall (rec_bad E ps l) (g_failed g')) ->
  SInv (set_base E s (set_file E (base s) f)) gs' pend' mid' lost.
Proof.
  intros [H1 H2 H3 [] H5 H6] HF H. constructor; auto. { constructor; auto. }
  intros l g' n Hg' Hn. assert (Hl : l < L). { destruct HF as (_ & _ & Hl). rewrite <- Hl. apply nth_error_Some. congruence. }
  destruct (Full_nth _ _ _ _ _ H1 Hl) as [g Hg]. destruct (H6 l g n Hg Hn) as (A & B & C & D).
  destruct (H l g g' Hg Hg' C D) as (A' & B' & C' & D'). rewrite A'. ands; auto. rewrite B, app_assoc, B', <- app_assoc. reflexivity.
Qed.

Lemma save_times_S levels : forall s gs pend mid lost, SInv s gs pend mid lost -> 
  exists s' gs' lost', save_times E picks escaped levels s = (s', Ok tt) /\ SInv s' gs' pend mid lost' /\ rel s lost s' lost'
    /\ laters gs gs' /\ (forall l, failed_of E gs' l = failed_of E gs l) /\ n_running (s_pool (base s')) = n_running (s_pool (base s))
    /\ (tasks s = [] -> tasks s' = [] /\ s_pool (base s') = s_pool (base s)).
Proof.
  induction levels as [|l r IH]; intros s gs pend mid lost I; cbn [save_times].
  { exists s, gs, lost. ands; auto using rel_refl, laters_refl. }
  destruct (tick_R _ _ _ _ _ I) as (lost1 & I1 & R1 & S1 & G1). pose proof (tick_quiet s) as Q1. set (s1 := tick s) in *.
  assert (N1 : n_running (s_pool (base s1)) = n_running (s_pool (base s))) by apply G1.
  destruct (dget (times (s_pool (base s1))) l) as [[tm n]|] eqn:Et.
  2: { destruct (IH s1 gs pend mid lost1 I1) as (s' & gs' & lost' & E' & I' & R' & La & Fa & Nr & Q').
       exists s', gs', lost'. ands; auto; try congruence.
       - eapply rel_trans; eauto.
       - intros T. destruct (Q1 T) as [Qa Qb]. destruct (Q' Qb) as [Qc Qd]. split; auto. congruence. }
  assert (Hl : l < L).
  { apply (proj2 (pk_times _ (sv_pok _ _ _ _ _ I1))). destruct (in_dec Nat.eq_dec l (dkeys (times (s_pool (base s1))))) as [Hi|Hi]; auto.
    apply dget_None in Hi. congruence. }
  destruct (Full_nth _ _ _ _ _ (sv_full _ _ _ _ _ I1) Hl) as [g Hg].
  destruct (with_group_Full _ _ _ _ _ _ (add_n_ops tm n) (sv_full _ _ _ _ _ I1) Hg) as (f & Ef & HF). rewrite Ef.
  assert (Hn : forall k, nth_error (upd gs l (fun _ => add_n_ops tm n g)) k = if Nat.eqb k l then Some (add_n_ops tm n g) else nth_error gs k).
  { intros k. apply nth_upd_const. apply nth_error_Some. congruence. }
  assert (I2 : SInv (set_base E s1 (set_file E (base s1) f)) (upd gs l (fun _ => add_n_ops tm n g)) pend mid lost1).
  { apply (SInv_file s1 gs pend mid); auto. intros k g0 g' H0 H' A B. rewrite Hn in H'.
    destruct (Nat.eqb_spec k l) as [->|N]; [assert (g0 = g) as -> by congruence; injection H' as <-|assert (g' = g0) as -> by congruence]; ands; auto. }
  destruct (IH _ _ pend mid lost1 I2) as (s' & gs' & lost' & E' & I' & R' & La & Fa & Nr & Q').
  exists s', gs', lost'. split; [exact E'|]. split; [exact I'|]. split.
  { eapply rel_trans; [exact R1|]. eapply rel_trans; [|exact R']. unfold rel, kept, lives. ands; auto using grow_refl. exact (prog_refl s1). }
  split.
  { eapply laters_trans; [|exact La]. intros k g0 H0. rewrite Hn. destruct (Nat.eqb_spec k l) as [->|N].
    - exists (add_n_ops tm n g). assert (g0 = g) as -> by congruence. split; auto. split; exists []; now rewrite app_nil_r.
    - exists g0. auto using later_refl. }
  split.
  { intros k. rewrite Fa. unfold failed_of. rewrite Hn. destruct (Nat.eqb_spec k l) as [->|N]; auto. now rewrite Hg. }
  split; [rewrite Nr; exact N1|].
  intros T. destruct (Q1 T) as [Qa Qb]. destruct (Q' Qb) as [Qc Qd]. split; auto. rewrite Qd. cbn [set_base base set_file s_pool]. now rewrite Qa.
Qed.

Lemma later_saved l ok bd (g : G) : vals_ok E ps l g -> later g (saved ok bd l g).
Proof.
  intros Hv. unfold later, saved, records.
  destruct (app_level_fail_other _ (dlist bd l) (app_level append_successful (dlist ok l) g)) as (K1 & K2 & K3).
  rewrite K1, K2, K3, app_level_succ_ids, app_level_succ_sched, app_level_succ_vals. split.
  - exists []. now rewrite app_nil_r.
  - unfold vals_ok in Hv. destruct (dlist ok l) as [|r q]; [exists []; cbn [map]; now rewrite !app_nil_r|].
    destruct (g_cvals g) as [vs|].
    + rewrite combine_app by (symmetry; apply Hv). eauto.
    + rewrite Hv. cbn [combine app]. eauto.
Qed.

Lemma par_poll_S s gs lost : SInv s gs none (failed_of E gs) lost ->
  exists s' gs' lost', par_poll E picks wpicks escaped s = (s', Ok (n_running (s_pool (base s')))) /\ SInv s' gs' none (failed_of E gs') lost'
    /\ rel s lost s' lost' /\ ticks s < ticks s' /\ laters gs gs' /\ (tasks s = [] -> tasks s' = [] /\ forall l, hold s' l = []).
Proof.
  intros I. unfold par_poll, par_finished.
  destruct (tick_R _ _ _ _ _ I) as (lost0 & I0 & R0 & S0 & G0). pose proof (tick_quiet s) as Q0.
  pose proof (proj2 (proj2 (tick_prog s))) as Tk. set (s0 := tick s) in *.
  destruct (pk_good _ (sv_pok _ _ _ _ _ I0)) as [Kg1 Kg2].
  destruct (drain_good _ s0 gs none _ lost0 [] I0 Kg1 Kg2) as (s1 & ok & mid1 & lost1 & E1 & I1 & M1 & N1 & Inc1 & F1 & R1 & Q1).
  rewrite E1. cbn [app].
  destruct (tick_R _ _ _ _ _ I1) as (lost1' & I1' & R1' & S1' & G1'). pose proof (tick_quiet s1) as Q1'. set (s1' := tick s1) in *.
  destruct (pk_bad _ (sv_pok _ _ _ _ _ I1')) as [Kb1 Kb2].
  destruct (drain_bad _ s1' gs none _ lost1' [] I1' Kb1 Kb2) as (s2 & bd & mid2 & lost2 & E2 & I2 & M2 & N2 & Inc2 & F2 & R2 & Q2).
  rewrite E2. cbn [app].
  destruct (tick_R _ _ _ _ _ I2) as (lost2' & I2' & R2' & S2' & G2'). pose proof (tick_quiet s2) as Q2'. 
  set (s3 := tick s2) in *.
  destruct (save_samples_Full L (s_obj (base s3)) (s_file (base s3)) gs ok bd) as (f & gs3 & Es & HF & Hn).
  { apply I2'. } { auto. } { intros l Hl. apply Kg2. auto. } { auto. } { intros l Hl. apply Kb2. auto. }
  rewrite Es.
  assert (Hnf : forall l, failed_of E gs3 l = failed_of E gs l ++ (if Nat.ltb l L then map fst (dlist bd l) else [])).
  { intros l. unfold failed_of. destruct (Nat.ltb_spec l L) as [Hl|Hl].
    - destruct (Full_nth _ _ _ _ _ (sv_full _ _ _ _ _ I) Hl) as [g Hg]. rewrite Hg, (Hn _ _ Hg). unfold saved.
      rewrite app_level_fail_failed, app_level_succ_failed, map_app. reflexivity.
    - destruct HF as (_ & _ & HF). destruct (sv_full _ _ _ _ _ I) as (_ & _ & HF0).
      rewrite (proj2 (nth_error_None gs l)), (proj2 (nth_error_None gs3 l)) by lia. reflexivity. }
  assert (I3 : SInv (set_base E s3 (set_file E (base s3) f)) gs3 none (failed_of E gs3) lost2').
  { apply (SInv_file s3 gs none mid2); auto. intros l g g' Hg Hg' A B. rewrite (Hn _ _ Hg) in Hg'. injection Hg' as <-.
    assert (Hl : l < L). { destruct (sv_full _ _ _ _ _ I) as (_ & _ & Hl). rewrite <- Hl. apply nth_error_Some. congruence. }
    rewrite Hnf, M2, M1. apply Nat.ltb_lt in Hl. rewrite Hl. unfold saved.
    destruct (app_level_fail_other _ (dlist bd l) (app_level append_successful (dlist ok l) g)) as (K1 & K2 & K3).
    rewrite K1, K2, app_level_fail_failed, app_level_succ_ids, app_level_succ_sched, app_level_succ_failed. split; auto. split; [psolve|].
    split; [|apply Forall_app; split; auto].
    pose proof (vals_ok_append E ps l g _ A (F1 l)) as V. unfold vals_ok in *. now rewrite K1, K3. }
  destruct (save_times_S (dkeys (times (s_pool (base s2)))) _ _ _ _ _ I3) as (s4 & gs4 & lost4 & E4 & I4 & R4 & La & Fa & Nr & Q4).
  rewrite E4. exists s4, gs4, lost4. split.
  { rewrite Nr. cbn [set_base base set_file s_pool]. now rewrite (proj1 (proj2 (proj2 (proj2 (proj2 G2'))))). }
  split. { apply (SInv_ext _ _ _ none _ (failed_of E gs4) _ lost4 I4); auto. intros l _. now rewrite Fa. }
  assert (R03 : rel s0 lost0 s4 lost4).
  { eapply rel_trans; [exact R1|]. eapply rel_trans; [exact R1'|]. eapply rel_trans; [exact R2|]. eapply rel_trans; [exact R2'|].
    eapply rel_trans; [|exact R4]. unfold rel, kept, lives. ands; auto using grow_refl. exact (prog_refl s3). }
  split; [eapply rel_trans; eauto|]. split.
  { destruct R03 as (_ & _ & (_ & T & _) & _). lia. }
  split.
  { eapply laters_trans; [|exact La]. intros l g Hg. rewrite (Hn _ _ Hg). eexists; split; [reflexivity|]. 
    assert (Hl : l < L). { destruct (sv_full _ _ _ _ _ I) as (_ & _ & Hl). rewrite <- Hl. apply nth_error_Some. congruence. }
    rewrite <- (sv_len _ _ _ _ _ I) in Hl. apply nth_error_Some in Hl. destruct (nth_error (s_nsched (base s)) l) as [n|] eqn:En; [|congruence].
    apply later_saved. apply (sv_lev _ _ _ _ _ I l g n Hg En). }
  intros T. destruct (Q0 T) as [A1 A2]. destruct (Q1 A2) as [B1 B2]. destruct (Q1' B1) as [C1 C2]. destruct (Q2 C2) as [D1 D2].
  destruct (Q2' D1) as [D3 D4]. destruct (Q4 D4) as [D5 D6]. split; auto. intros l. unfold hold, tids. rewrite D5, D6.
  cbn [filter map set_base base set_file s_pool app]. rewrite D3. destruct (D2 l) as (X1 & X2 & X3), (B2 l) as (Y1 & Y2 & Y3).
  assert (Hin : forall A (d : dict (list A)), ~ In l (dkeys d) -> dlist d l = []).
  { intros A d Hi. apply dget_None in Hi. unfold dlist. now rewrite Hi. }
  assert (good s2 l = []) as ->.
  { rewrite X1, C1. destruct (in_dec Nat.eq_dec l (dkeys (queues (s_pool (base s0))))) as [Hi|Hi]; auto. rewrite Y3 by auto. now apply Hin. }
  assert (bad s2 l = []) as ->; [|reflexivity].
  destruct (in_dec Nat.eq_dec l (dkeys (failed_queues (s_pool (base s1'))))) as [Hi|Hi]; auto. rewrite X3 by auto. now apply Hin.
Qed.

(** Handing a sample to the workers. *)
Lemma par_schedule_ok s id l ls : POK s -> nth_error (create_level_sims E ps) l = Some ls -> ls_level ls = l ->
  POK (par_schedule E s id ls)
  /\ (forall k, Permutation (hold (par_schedule E s id ls) k) (hold s k ++ if Nat.eqb k l then [id] else []))
  /\ (forall lost, l < L -> counted s lost -> counted (par_schedule E s id ls) lost).
Proof.
  intros [K1 K2 K3 K4 K5 K6] Hls Hl. split.
  { constructor; auto. cbn [par_schedule tasks]. apply Forall_app. split; auto. constructor; auto. unfold task_ok. cbn [t_sim]. now rewrite Hl. }
  assert (Hh : forall k, Permutation (hold (par_schedule E s id ls) k) (hold s k ++ if Nat.eqb k l then [id] else [])).
  { intros k. unfold hold, tids. cbn [par_schedule base set_pool s_pool queues failed_queues tasks].
    rewrite filter_app, map_app. cbn [filter t_sim]. rewrite Hl, (Nat.eqb_sym l k). destruct (Nat.eqb k l); cbn [map t_id]; [generalize [id]; intros; psolve|psolve]. }
  split; auto. intros lost Hl0 C. unfold counted in *. cbn [par_schedule base set_pool s_pool n_running].
  rewrite C, (total_drop (fun k => length (hold (par_schedule E s id ls) k) + length (lost k)) (fun k => length (hold s k) + length (lost k)) l 1 Hl0).
  - lia.
  - rewrite (Permutation_length (Hh l)), app_length, Nat.eqb_refl. cbn [length]. lia.
  - intros k N. rewrite (Permutation_length (Hh k)), app_length. apply Nat.eqb_neq in N. rewrite N. cbn [length]. lia.
Qed.

Definition rel2 s lost s' lost' : Prop := lives s s' /\ grow lost lost'.
Lemma rel2_refl s lost : rel2 s lost s lost.
Proof. unfold rel2, lives. auto using grow_refl. Qed.
Lemma rel2_trans s1 l1 s2 l2 s3 l3 : rel2 s1 l1 s2 l2 -> rel2 s2 l2 s3 l3 -> rel2 s1 l1 s3 l3.
Proof. intros (B & D) (B' & D'). split; [intros Sf Al; auto|]. eapply grow_trans; eauto. Qed.
Lemma rel_rel2 s lost s' lost' : rel s lost s' lost' -> rel2 s lost s' lost'.
Proof. intros (_ & A & _ & B). split; auto. Qed.
Definition kept2 s s' : Prop :=
  s_obj (base s') = s_obj (base s) /\ s_targets (base s') = s_targets (base s) /\ s_tint (base s') = s_tint (base s).
Lemma kept_kept2 s s' : kept s s' -> kept2 s s'.
Proof. intros (A1 & A2 & A3 & A4 & A5 & A6). unfold kept2. ands; auto. Qed.
Lemma kept2_trans s1 s2 s3 : kept2 s1 s2 -> kept2 s2 s3 -> kept2 s1 s3.
Proof. unfold kept2. intros (A1 & A2 & A3) (B1 & B2 & B3). ands; congruence. Qed.

Lemma par_one_S s gs pend mid lost l : SInv s gs pend mid lost -> l < L ->
  exists n s' lost', nth_error (s_nsched (base s)) l = Some n /\ par_one E picks escaped l s = (s', Ok (tagn l n))
    /\ SInv s' gs (fupd pend l (pend l ++ [tagn l n])) mid lost' /\ rel2 s lost s' lost' /\ kept2 s s'
    /\ s_nsched (base s') = upd (s_nsched (base s)) l S.
Proof.
  intros I Hl. destruct I as [H1 H2 H3 H4 H5 H6].
  assert (Hn : exists n, nth_error (s_nsched (base s)) l = Some n).
  { rewrite <- H3 in Hl. apply nth_error_Some in Hl. destruct (nth_error (s_nsched (base s)) l); [eauto|congruence]. }
  destruct Hn as [n Hn]. destruct (sims_nth E ps l Hl) as (ls & Hls & Hlsl).
  unfold par_one. rewrite Hn, H2, Hls. fold (tagn l n). cbv zeta.
  destruct (par_schedule_ok s (tagn l n) l ls H4 Hls Hlsl) as ([] & Hh & Hc).
  set (s1 := set_base E (par_schedule E s (tagn l n) ls) _).
  assert (I1 : SInv s1 gs (fupd pend l (pend l ++ [tagn l n])) mid lost).
  { constructor; auto.
    - cbn. now rewrite upd_length.
    - constructor; auto.
    - exact (Hc lost Hl H5).
    - intros k g m Hg Hm. change (hold s1 k) with (hold (par_schedule E s (tagn l n) ls) k).
      cbn [s1 set_base base s_nsched par_schedule set_pool] in Hm. destruct (Nat.eq_dec k l) as [->|N].
      + rewrite nth_error_upd_eq, Hn in Hm. injection Hm as <-. destruct (H6 l g n Hg Hn) as (A & B & C & D). rewrite fupd_eq.
        split; [rewrite seq_app1, map_app, app_assoc, A; reflexivity|]. split; [|auto].
        rewrite (Hh l), Nat.eqb_refl, app_assoc, B. generalize [tagn l n]; intros; psolve.
      + rewrite nth_error_upd_neq in Hm by auto. destruct (H6 k g m Hg Hm) as (A & B & C & D). rewrite fupd_neq by auto. ands; auto.
        rewrite (Hh k). apply Nat.eqb_neq in N. rewrite N, app_nil_r. exact B. }
  destruct (tick_R _ _ _ _ _ I1) as (lost' & I2 & R & Sm & Gr).
  exists n, (tick s1), lost'. split; auto. split; [reflexivity|]. split; auto. split.
  { apply rel_rel2 in R. destruct R as [Ra Rb]. split; auto. }
  split.
  - eapply kept2_trans; [|apply kept_kept2, same_kept; exact Sm]. unfold kept2. ands; reflexivity.
  - destruct Sm as (_ & _ & _ & _ & _ & Sn & _). rewrite Sn. reflexivity.
Qed.

Lemma par_many_S c : forall s gs pend mid lost l n, SInv s gs pend mid lost -> l < L -> nth_error (s_nsched (base s)) l = Some n ->
  exists s' lost', par_many E picks escaped l c (pend l) s = (s', Ok (pend l ++ map (tagn l) (seq n c)))
    /\ SInv s' gs (fupd pend l (pend l ++ map (tagn l) (seq n c))) mid lost' /\ rel2 s lost s' lost' /\ kept2 s s'
    /\ s_nsched (base s') = bump (s_nsched (base s)) l c.
Proof.
  induction c as [|c IH]; intros s gs pend mid lost l n I Hl Hn; cbn [par_many seq map].
  - exists s, lost. rewrite !app_nil_r. split; auto. split.
    { eapply SInv_ext; eauto. intros k _. destruct (Nat.eq_dec k l) as [->|N]; [now rewrite fupd_eq|now rewrite fupd_neq]. }
    split; [apply rel2_refl|]. split; [unfold kept2; auto|]. unfold bump. rewrite upd_id; auto.
  - destruct (par_one_S _ _ _ _ _ l I Hl) as (n' & s1 & lost1 & Hn' & E1 & I1 & R1 & K1 & D1).
    rewrite Hn in Hn'. injection Hn' as <-.
    assert (Hn1 : nth_error (s_nsched (base s1)) l = Some (S n)) by (rewrite D1, nth_error_upd_eq, Hn; reflexivity).
    destruct (IH s1 gs _ mid lost1 l (S n) I1 Hl Hn1) as (s2 & lost2 & E2 & I2 & R2 & K2 & D2).
    rewrite fupd_eq in E2, I2. exists s2, lost2. unfold sbind. rewrite E1, E2. rewrite <- !app_assoc. cbn [app].
    split; [reflexivity|]. split.
    { eapply SInv_ext; [exact I2| | |]; auto. intros k _. rewrite <- app_assoc.
      destruct (Nat.eq_dec k l) as [->|N]; [now rewrite !fupd_eq|now rewrite !fupd_neq]. }
    split; [eapply rel2_trans; eauto|]. split; [eapply kept2_trans; eauto|].
    rewrite D2, D1. unfold bump. rewrite upd_upd. apply upd_ext. intros; lia.
Qed.

Lemma par_save_sched_S s gs pend mid lost l : SInv s gs pend mid lost -> l < L ->
  exists s' gs', par_save_sched E l (pend l) s = (s', Ok tt) /\ SInv s' gs' (fupd pend l []) mid lost
    /\ rel2 s lost s' lost /\ kept2 s s' /\ laters gs gs' /\ (forall k, failed_of E gs' k = failed_of E gs k)
    /\ s_nsched (base s') = s_nsched (base s).
Proof.
  intros I Hl. destruct (Full_nth _ _ _ _ _ (sv_full _ _ _ _ _ I) Hl) as [g Hg].
  destruct (save_scheduled_Full _ _ _ _ _ (pend l) _ (sv_full _ _ _ _ _ I) Hg) as (f & gs' & Es & HF & Hn).
  unfold par_save_sched. rewrite Es. eexists _, gs'. split; [reflexivity|]. split.
  { apply (SInv_file s gs pend mid); auto. intros k g0 g' H0 H' A B. rewrite Hn in H'. destruct (Nat.eqb_spec k l) as [->|N].
    - injection H' as <-. assert (g0 = g) as -> by congruence. rewrite fupd_eq. ands; auto. cbn [append_scheduled g_sched]. now rewrite app_nil_r.
    - rewrite fupd_neq by auto. assert (g' = g0) as -> by congruence. ands; auto. }
  split; [split; [intros ? ?; auto|auto using grow_refl]|]. split; [unfold kept2; ands; reflexivity|]. split.
  { intros k g0 H0. rewrite Hn. destruct (Nat.eqb_spec k l) as [->|N].
    - assert (g0 = g) as -> by congruence. eexists; split; [reflexivity|]. split; [eexists; reflexivity|exists []; now rewrite app_nil_r].
    - exists g0. auto using later_refl. }
  split; [|reflexivity].
  intros k. unfold failed_of. rewrite Hn. destruct (Nat.eqb_spec k l) as [->|N]; auto. now rewrite Hg.
Qed.

Lemma par_levels_S plan : forall pre post s gs mid lost, SInv s gs none mid lost -> s_nsched (base s) = pre ++ post ->
  exists s' gs' lost', par_levels E picks escaped (length pre) plan s
      = (s', if Nat.leb (length plan) (length post) then Ok tt else Err IndexError)
    /\ SInv s' gs' none mid lost' /\ rel2 s lost s' lost' /\ kept2 s s' /\ laters gs gs'
    /\ (forall k, failed_of E gs' k = failed_of E gs k) /\ s_nsched (base s') = pre ++ bump_all post plan.
Proof.
  induction plan as [|q plan IH]; intros pre post s gs mid lost I Hns.
  - exists s, gs, lost. assert (E1 : bump_all post [] = post) by now destruct post.
    rewrite E1. cbn [par_levels length Nat.leb]. ands; auto using rel2_refl, laters_refl. unfold kept2; auto.
  - destruct post as [|n post].
    { assert (Hbad : nth_error (s_nsched (base s)) (length pre) = None)
        by (apply nth_error_None; rewrite Hns, app_length; cbn; lia).
      exists s, gs, lost. cbn [bump_all length Nat.leb par_levels]. split.
      { destruct (Z.to_nat (Qtrunc q)) as [|c]; cbn [par_many]; unfold sbind, sret.
        - unfold par_save_sched, save_scheduled.
          destruct (sv_full _ _ _ _ _ I) as (Ho & _ & _). rewrite Ho, nth_error_seq.
          rewrite <- (sv_len _ _ _ _ _ I), Hns, app_nil_r, Nat.ltb_irrefl. destruct s as [[]]; reflexivity.
        - unfold par_one. rewrite Hbad. reflexivity. }
      ands; auto using rel2_refl, laters_refl. unfold kept2; auto. }
    assert (Hl : length pre < L).
    { rewrite <- (sv_len _ _ _ _ _ I), Hns, app_length. cbn [length]. lia. }
    assert (Hn : nth_error (s_nsched (base s)) (length pre) = Some n).
    { rewrite Hns, nth_error_app2, Nat.sub_diag by lia. reflexivity. }
    destruct (par_many_S (Z.to_nat (Qtrunc q)) _ _ _ _ _ _ _ I Hl Hn) as (s1 & lost1 & E1 & I1 & R1 & K1 & D1).
    change (none (length pre)) with (@nil pystr) in *. cbn [app] in *.
    destruct (par_save_sched_S _ _ _ _ _ (length pre) I1 Hl) as (s2 & gs2 & E2 & I2 & R2 & K2 & La2 & Fa2 & D2).
    rewrite fupd_eq in E2.
    assert (I2' : SInv s2 gs2 none mid lost1).
    { eapply SInv_ext; [exact I2| | |]; auto. intros k _. unfold none.
      destruct (Nat.eq_dec k (length pre)) as [->|N]; [now rewrite fupd_eq|now rewrite !fupd_neq]. }
    assert (Hns2 : s_nsched (base s2) = (pre ++ [n + Z.to_nat (Qtrunc q)]) ++ post).
    { rewrite D2, D1, Hns. unfold bump. rewrite upd_app_mid, <- app_assoc. reflexivity. }
    destruct (IH (pre ++ [n + Z.to_nat (Qtrunc q)]) post s2 gs2 mid lost1 I2' Hns2) as (s3 & gs3 & lost3 & E3 & I3 & R3 & K3 & La3 & Fa3 & D3).
    rewrite app_length in E3. cbn [length] in E3. rewrite Nat.add_1_r in E3.
    exists s3, gs3, lost3. cbn [par_levels length Nat.leb]. unfold sbind. rewrite E1, E2, E3.
    split; [reflexivity|]. split; [auto|]. split; [eapply rel2_trans; [eauto|eapply rel2_trans; eauto]|].
    split; [eapply kept2_trans; [eauto|eapply kept2_trans; eauto]|]. split; [eapply laters_trans; eauto|]. split; [congruence|].
    rewrite D3, <- app_assoc. reflexivity.
Qed.

Definition BS s (gs : list G) lost : Prop := SInv s gs none (failed_of E gs) lost.
Notation par_ask := (par_ask E picks wpicks escaped).

Lemma ask_loop_S clk q fuel : forall i s gs lost, BS s gs lost ->
  exists s' gs' lost' r, ask_loop (par_poll E picks wpicks escaped) clk q fuel i s = (s', r) /\ BS s' gs' lost'
    /\ rel s lost s' lost' /\ laters gs gs'
    /\ match r with
       | None => True
       | Some (Err _) => False
       | Some (Ok n) => n = n_running (s_pool (base s')) /\ ((q <= 0)%Q -> (n <= 0)%Z)
       end.
Proof.
  induction fuel as [|fuel IH]; intros i s gs lost I; cbn [ask_loop].
  - exists s, gs, lost, None. ands; auto using rel_refl, laters_refl.
  - destruct (par_poll_S _ _ _ I) as (s1 & gs1 & lost1 & E1 & I1 & R1 & _ & La & _). rewrite E1.
    destruct (negb (Qle_bool q 0) && negb (Qle_bool (clk i) q))%bool eqn:Eb.
    { exists s1, gs1, lost1, (Some (Ok (n_running (s_pool (base s1))))). ands; auto. intros Hq. apply Qle_bool_iff in Hq. rewrite Hq in Eb. discriminate. }
    destruct (0 <? n_running (s_pool (base s1)))%Z eqn:Ez.
    + destruct (IH (S i) s1 gs1 lost1 I1) as (s' & gs' & lost' & r & E' & I' & R' & La' & Hr).
      exists s', gs', lost', r. ands; auto; [eapply rel_trans; eauto|eapply laters_trans; eauto].
    + apply Z.ltb_ge in Ez. exists s1, gs1, lost1, (Some (Ok (n_running (s_pool (base s1))))). ands; auto.
Qed.
Lemma ask_S clk t fuel s gs lost : BS s gs lost ->
  exists s' gs' lost' r, par_ask clk t fuel s = (s', r) /\ BS s' gs' lost' /\ rel s lost s' lost' /\ laters gs gs'
    /\ match r with
       | None => True
       | Some (Err _) => False
       | Some (Ok n) => t = None -> n = 0%Z /\ n_running (s_pool (base s')) = 0%Z
       end.
Proof.
  intros I. unfold ParModel.par_ask, ask. destruct t as [q|].
  - destruct (Qle_bool q 0).
    + exists s, gs, lost, (Some (Ok 1%Z)). ands; auto using rel_refl, laters_refl. discriminate.
    + destruct (ask_loop_S clk q fuel 0 s gs lost I) as (s' & gs' & lost' & r & E' & I' & R' & La' & Hr).
      exists s', gs', lost', r. ands; auto. destruct r as [[n|e]|]; auto. discriminate.
  - destruct (ask_loop_S clk 0 fuel 0 s gs lost I) as (s' & gs' & lost' & r & E' & I' & R' & La' & Hr).
    exists s', gs', lost', r. ands; auto. destruct r as [[n|e]|]; auto. intros _. destruct Hr as [-> Hz].
    pose proof (sv_run _ _ _ _ _ I') as C. unfold counted in C. specialize (Hz (Qle_refl _)). lia.
Qed.

Lemma par_samples_S clk t fuel s gs lost : BS s gs lost ->
  exists s' gs' lost' r, par_samples E picks wpicks escaped clk t fuel s = (s', r) /\ BS s' gs' lost'
    /\ rel2 s lost s' lost' /\ kept2 s s' /\ laters gs gs'
    /\ (r = ONone -> exists plan, plan_samples E (base s) = Ok plan /\ s_nsched (base s') = bump_all (s_nsched (base s)) plan).
Proof.
  intros I. destruct (ask_S clk t fuel s gs lost I) as (s1 & gs1 & lost1 & r & E1 & I1 & R1 & La1 & Hr).
  unfold par_samples. rewrite E1. pose proof (rel_rel2 _ _ _ _ R1) as R1'. pose proof (kept_kept2 _ _ (proj1 R1)) as K1.
  destruct R1 as ((A1 & A2 & A3 & A4 & A5 & A6) & _).
  destruct r as [[n|e]|]; [|contradiction|exists s1, gs1, lost1, ORunning; ands; auto; discriminate].
  rewrite (plan_samples_same E (base s) (base s1)) by auto.
  destruct (plan_samples E (base s)) as [plan|e] eqn:Ep; [|exists s1, gs1, lost1, (OErr e); ands; auto; discriminate].
  destruct (par_levels_S plan [] (s_nsched (base s1)) s1 gs1 _ lost1 I1 eq_refl) as (s2 & gs2 & lost2 & E2 & I2 & R2 & K2 & La2 & Fa2 & D2).
  cbn [length app] in E2, D2. rewrite E2.
  exists s2, gs2, lost2, (if Nat.leb (length plan) (length (s_nsched (base s1))) then ONone else OErr IndexError).
  split; [now destruct (Nat.leb _ _)|]. split.
  { eapply SInv_ext; [exact I2| | |]; auto. intros k _. now rewrite Fa2. }
  split; [eapply rel2_trans; eauto|]. split; [eapply kept2_trans; eauto|]. split; [eapply laters_trans; eauto|].
  intros _. exists plan. split; auto. congruence.
Qed.

Lemma par_renew_one_S s gs mid lost l id rest : SInv s gs none mid lost -> l < L -> mid l = id :: rest ->
  exists s' lost', par_renew_one E picks escaped l id s = (s', Ok tt) /\ SInv s' gs none (fupd mid l rest) lost'
    /\ rel2 s lost s' lost' /\ kept2 s s' /\ s_nsched (base s') = s_nsched (base s).
Proof.
  intros I Hl HF. destruct I as [H1 H2 H3 H4 H5 H6].
  destruct (sims_nth E ps l Hl) as (ls & Hls & Hlsl). unfold par_renew_one. rewrite H2, Hls. cbv zeta.
  destruct (par_schedule_ok s id l ls H4 Hls Hlsl) as ([] & Hh & Hc).
  set (s1 := set_base E (par_schedule E s id ls) _).
  assert (I1 : SInv s1 gs none (fupd mid l rest) lost).
  { constructor; auto.
    - constructor; auto.
    - exact (Hc lost Hl H5).
    - intros k g m Hg Hm. change (hold s1 k) with (hold (par_schedule E s id ls) k).
      destruct (H6 k g m Hg Hm) as (A & B & C & D). ands; auto. rewrite B, (Hh k). destruct (Nat.eqb_spec k l) as [->|N].
      + rewrite fupd_eq, HF. one id.
      + rewrite fupd_neq by auto. rewrite app_nil_r. reflexivity. }
  destruct (tick_R _ _ _ _ _ I1) as (lost' & I2 & R & Sm & Gr).
  exists (tick s1), lost'. split; [reflexivity|]. split; auto. split.
  { apply rel_rel2 in R. destruct R as [Ra Rb]. split; auto. }
  split.
  - eapply kept2_trans; [|apply kept_kept2, same_kept; exact Sm]. unfold kept2. ands; reflexivity.
  - destruct Sm as (_ & _ & _ & _ & _ & Sn & _). rewrite Sn. reflexivity.
Qed.
Lemma par_renew_ids_S ids : forall s gs mid lost l, SInv s gs none mid lost -> l < L -> mid l = ids ->
  exists s' lost', sfor ids (par_renew_one E picks escaped l) s = (s', Ok tt) /\ SInv s' gs none (fupd mid l []) lost'
    /\ rel2 s lost s' lost' /\ kept2 s s' /\ s_nsched (base s') = s_nsched (base s).
Proof.
  induction ids as [|id ids IH]; intros s gs mid lost l I Hl HF; cbn [sfor].
  - exists s, lost. split; [reflexivity|]. split.
    { eapply SInv_ext; [exact I| | |]; auto. intros k _.
      destruct (Nat.eq_dec k l) as [->|N]; [now rewrite fupd_eq, HF|now rewrite fupd_neq]. }
    ands; auto using rel2_refl. unfold kept2; auto.
  - destruct (par_renew_one_S s gs mid lost l id ids I Hl HF) as (s1 & lost1 & E1 & I1 & R1 & K1 & D1).
    destruct (IH s1 gs _ lost1 l I1 Hl) as (s2 & lost2 & E2 & I2 & R2 & K2 & D2); [apply fupd_eq|].
    exists s2, lost2. unfold sbind. rewrite E1, E2. split; [reflexivity|]. split.
    { eapply SInv_ext; [exact I2| | |]; auto. intros k _.
      destruct (Nat.eq_dec k l) as [->|N]; [now rewrite !fupd_eq|now rewrite !fupd_neq]. }
    split; [eapply rel2_trans; eauto|]. split; [eapply kept2_trans; eauto|]. congruence.
Qed.
Lemma par_renew_all_S (fs : list (list pystr)) : forall i s gs mid lost,
  SInv s gs none mid lost -> i + length fs <= L -> (forall k ids, nth_error fs k = Some ids -> mid (i + k) = ids) ->
  exists s' lost', sfor (index_from i fs) (fun '(level, ids) => sfor ids (par_renew_one E picks escaped level)) s = (s', Ok tt)
    /\ SInv s' gs none (fun k => if (Nat.leb i k && Nat.ltb k (i + length fs))%bool then [] else mid k) lost'
    /\ rel2 s lost s' lost' /\ kept2 s s' /\ s_nsched (base s') = s_nsched (base s).
Proof.
  induction fs as [|ids fs IH]; intros i s gs mid lost I Hi HF; cbn [index_from sfor length].
  - exists s, lost. split; [reflexivity|]. split.
    { eapply SInv_ext; [exact I| | |]; auto. intros k _.
      destruct (Nat.leb_spec i k), (Nat.ltb_spec k (i + 0)); cbn; auto; lia. }
    ands; auto using rel2_refl. unfold kept2; auto.
  - cbn [length] in Hi.
    destruct (par_renew_ids_S ids s gs mid lost i I) as (s1 & lost1 & E1 & I1 & R1 & K1 & D1); [lia| |].
    { rewrite <- (HF 0 ids eq_refl). f_equal; lia. }
    destruct (IH (S i) s1 gs _ lost1 I1) as (s2 & lost2 & E2 & I2 & R2 & K2 & D2); [lia| |].
    { intros k x Hk. rewrite fupd_neq by lia. rewrite <- (HF (S k) x Hk). f_equal; lia. }
    exists s2, lost2. unfold sbind. rewrite E1, E2. split; [reflexivity|]. split.
    { eapply SInv_ext; [exact I2| | |]; auto. intros k _. unfold fupd.
      destruct (Nat.leb_spec (S i) k), (Nat.ltb_spec k (S i + length fs)), (Nat.leb_spec i k),
        (Nat.ltb_spec k (i + S (length fs))), (Nat.eqb_spec k i); cbn; auto; lia. }
    split; [eapply rel2_trans; eauto|]. split; [eapply kept2_trans; eauto|]. congruence.
Qed.
Lemma par_renew_S s gs lost : BS s gs lost -> exists s' gs' lost', par_renew E picks escaped s = (s', Ok tt) /\ BS s' gs' lost'
  /\ rel2 s lost s' lost' /\ kept2 s s' /\ laters gs gs'.
Proof.
  intros I. unfold par_renew. rewrite (failed_samples_Full _ _ _ _ (sv_full _ _ _ _ _ I)).
  assert (Hgl : length gs = L) by apply (sv_full _ _ _ _ _ I).
  destruct (par_renew_all_S (map (fun g => map fst (g_failed g)) gs) 0 s gs _ lost I) as (s1 & lost1 & E1 & I1 & R1 & K1 & D1).
  { rewrite map_length. lia. }
  { intros k ids Hk. cbn [plus]. unfold failed_of. rewrite nth_error_map in Hk.
    destruct (nth_error gs k); [|discriminate]. cbn in Hk. congruence. }
  unfold sbind at 1. rewrite E1. unfold par_clear.
  destruct (clear_failed_Full _ _ _ _ (sv_full _ _ _ _ _ I1)) as (f & E2 & HF). rewrite E2.
  eexists _, (map clear_failed_group gs), lost1. split; [reflexivity|]. split.
  { eapply (SInv_file s1 gs); [exact I1|exact HF|]. intros l g g' Hg Hg' A B. rewrite nth_error_map, Hg in Hg'. injection Hg' as <-.
    assert (Hl : l < L) by (rewrite <- Hgl; apply nth_error_Some; congruence).
    unfold failed_of. rewrite nth_error_map, Hg. cbn [option_map clear_failed_group g_failed g_sched g_cids map plus Nat.leb andb].
    rewrite map_length, Hgl. apply Nat.ltb_lt in Hl. rewrite Hl. ands; auto. }
  split; [exact R1|]. split; [exact K1|]. intros l g Hg. exists (clear_failed_group g). rewrite nth_error_map, Hg. split; [reflexivity|].
  split; exists []; rewrite app_nil_r; reflexivity.
Qed.

Lemma par_wait_S clk t af items plan : forall fuel k s gs lost, BS s gs lost ->
  exists s' gs' lost' r, par_wait E picks wpicks escaped clk t af fuel k items plan s = (s', r) /\ BS s' gs' lost'
    /\ rel2 s lost s' lost' /\ laters gs gs'.
Proof.
  induction fuel as [|fuel IH]; intros k s gs lost I; cbn [par_wait];
    rewrite (n_finished_Full _ _ _ _ (sv_full _ _ _ _ _ I));
    destruct (any_below items (map (fun g => length (finished_ids g)) gs) plan) as [[|]|e];
    try (eexists s, gs, lost, _; split; [reflexivity|]; ands; auto using rel2_refl, laters_refl; fail).
  destruct (ask_S (clk k) t af s gs lost I) as (s1 & gs1 & lost1 & r1 & Ea & I1 & R1 & La1 & Hr). apply rel_rel2 in R1.
  rewrite Ea. destruct r1 as [[n|e]|]; try (eexists s1, gs1, lost1, _; split; [reflexivity|]; ands; auto; fail).
  destruct (IH (S k) s1 gs1 lost1 I1) as (s2 & gs2 & lost2 & r2 & E2 & I2 & R2 & La2).
  exists s2, gs2, lost2, r2. ands; auto; [eapply rel2_trans; eauto|eapply laters_trans; eauto].
Qed.

Lemma targets_S s gs lost tg b : BS s gs lost -> BS (set_base E s (set_targets E (base s) tg b)) gs lost.
Proof. intros [H1 H2 H3 [] H5 H6]. constructor; auto. constructor; auto. Qed.
Lemma target_S v s gs lost : BS s gs lost -> exists b r, set_level_target E v (base s) = (b, r) /\ BS (set_base E s b) gs lost.
Proof.
  intros I. unfold set_level_target. destruct (raise_targets (s_tint (base s)) (s_targets (base s)) v) as [tg r].
  eexists _, r. split; [reflexivity|]. now apply targets_S.
Qed.

Lemma par_scheduled_and_wait_S clk t af fuel plan items s gs lost : BS s gs lost ->
  exists s' gs' lost' r, par_scheduled_and_wait E picks wpicks escaped clk t af fuel plan items s = (s', r) /\ BS s' gs' lost'
    /\ rel2 s lost s' lost' /\ laters gs gs'.
Proof.
  intros I. unfold par_scheduled_and_wait. destruct (target_S plan s gs lost I) as (b & r & -> & I1).
  assert (R1 : rel2 s lost (set_base E s b) lost) by (split; [intros ? ?; auto|apply grow_refl]).
  destruct r as [u|e]; [|eexists _, gs, lost, _; split; [reflexivity|]; ands; auto using laters_refl].
  destruct (par_samples_S (clk 1) t af _ gs lost I1) as (s2 & gs2 & lost2 & r2 & -> & I2 & R2 & _ & La2 & _).
  pose proof (rel2_trans _ _ _ _ _ _ R1 R2) as R2'.
  destruct r2; try (eexists s2, gs2, lost2, _; split; [reflexivity|]; ands; auto; fail).
  destruct (par_wait_S clk t af items plan fuel 2 s2 gs2 lost2 I2) as (s3 & gs3 & lost3 & r3 & -> & I3 & R3 & La3).
  exists s3, gs3, lost3, r3. ands; auto; [eapply rel2_trans; eauto|eapply laters_trans; eauto].
Qed.

Lemma par_adding_S clk t af fuel c est s gs lost : BS s gs lost ->
  exists s' gs' lost' r, par_adding E picks wpicks escaped clk t af fuel c est s = (s', r) /\ BS s' gs' lost'
    /\ rel2 s lost s' lost' /\ laters gs gs'.
Proof.
  intros I. unfold par_adding. destruct (ask_S (clk 0) t af s gs lost I) as (s1 & gs1 & lost1 & r1 & Ea & I1 & R1 & La1 & Hr).
  apply rel_rel2 in R1. rewrite Ea.
  destruct r1 as [[n|e]|]; try (eexists s1, gs1, lost1, _; split; [reflexivity|]; ands; auto; fail).
  destruct (Nat.eqb (length est) (length (s_nsched (base s1)))); [|eexists s1, gs1, lost1, _; split; [reflexivity|]; ands; auto].
  set (plan := planned_vec c est (s_nsched (base s1))). set (items := greater_items 0 est plan).
  destruct (par_scheduled_and_wait_S clk t af fuel plan items s1 gs1 lost1 I1) as (s2 & gs2 & lost2 & r2 & -> & I2 & R2 & La2).
  pose proof (rel2_trans _ _ _ _ _ _ R1 R2) as R2'.
  assert (La2' : laters gs gs2) by (eapply laters_trans; eauto).
  destruct r2; (eexists s2, gs2, lost2, _; split; [reflexivity|]; ands; auto).
Qed.

Notation par_step := (par_step E picks wpicks escaped).
Lemma par_step_S fuel s o gs lost : BS s gs lost -> exists s' gs' lost' r, par_step fuel s o = (s', r) /\ BS s' gs' lost'
  /\ rel2 s lost s' lost' /\ laters gs gs'.
Proof.
  intros I. destruct o as [v|v|clk t|clk t| |clk t c est|]; cbn [ParModel.par_step].
  - eexists _, gs, lost, _. split; [reflexivity|]. split.
    { unfold set_initial. destruct (match v with None => _ | Some x => _ end) as [b v0].
      destruct (match v0 with [n] => _ | l => l end) as [|a [|b' [|? ?]]]; now apply targets_S. }
    split; [split; [intros ? ?; auto|apply grow_refl]|apply laters_refl].
  - destruct (target_S v s gs lost I) as (b & r & -> & I1). destruct r; (eexists _, gs, lost, _; split; [reflexivity|]; split; [exact I1|];
      split; [split; [intros ? ?; auto|apply grow_refl]|apply laters_refl]).
  - destruct (par_samples_S clk t fuel s gs lost I) as (s2 & gs2 & lost2 & r2 & -> & I2 & R2 & _ & La2 & _). exists s2, gs2, lost2, r2. auto.
  - destruct (ask_S clk t fuel s gs lost I) as (s1 & gs1 & lost1 & r1 & -> & I1 & R1 & La1 & _). apply rel_rel2 in R1.
    destruct r1 as [[n|e]|]; (eexists s1, gs1, lost1, _; split; [reflexivity|]; ands; auto).
  - destruct (par_renew_S s gs lost I) as (s1 & gs1 & lost1 & -> & I1 & R1 & _ & La1). eexists s1, gs1, lost1, _; split; [reflexivity|]; ands; auto.
  - destruct (par_adding_S clk t fuel fuel c est s gs lost I) as (s2 & gs2 & lost2 & r2 & -> & I2 & R2 & La2). exists s2, gs2, lost2, r2. auto.
  - eexists s, gs, lost, _; split; [reflexivity|]. ands; auto using rel2_refl, laters_refl.
Qed.
Lemma par_run_S fuel ops : forall s gs lost, BS s gs lost -> exists gs' lost', BS (par_run E picks wpicks escaped fuel s ops) gs' lost'
  /\ rel2 s lost (par_run E picks wpicks escaped fuel s ops) lost' /\ laters gs gs'.
Proof.
  unfold par_run. induction ops as [|o ops IH]; intros s gs lost I; cbn [fold_left].
  - exists gs, lost. auto using rel2_refl, laters_refl.
  - destruct (par_step_S fuel s o gs lost I) as (s1 & gs1 & lost1 & r & E1 & I1 & R1 & La1). rewrite E1. cbn [fst].
    destruct (IH s1 gs1 lost1 I1) as (gs2 & lost2 & I2 & R2 & La2). exists gs2, lost2. ands; auto; [eapply rel2_trans; eauto|eapply laters_trans; eauto].
Qed.
Lemma start_pool b : start E ps = Ok b -> s_pool b = new_pool 0.
Proof.
  unfold start, sampler_init. destruct (save_global_data (length ps) (hdf_new, no_file)) as [[o f] [u|e]]; [|discriminate].
  destruct (load_scheduled o f) as [d|e]; cbn [bind]; [|discriminate]. destruct (unfinished_ids o f) as [x|e]; cbn [bind]; [|discriminate].
  intros H. assert (b = mkS E o f (new_pool 0) (create_level_sims E ps) (repeat 0%Q (length ps)) false
    (match map (fun x => length (snd x)) d with [] => repeat 0 (length ps) | _ => map (fun x => length (snd x)) d end) []) as -> by congruence.
  reflexivity.
Qed.
Lemma total_0 n : total n (fun _ => 0) = 0.
Proof. induction n as [|n IH]; [reflexivity|]. rewrite total_S. lia. Qed.
Lemma par_start_S : exists s, par_start E ps = Ok s /\ BS s (repeat empty_group L) none /\ alive s = true.
Proof.
  destruct (start_Inv E ps) as (b & E1 & I & _). unfold par_start. rewrite E1. eexists; split; [reflexivity|]. split; [|reflexivity].
  destruct I as [H1 H2 H3 H4 H5 H6 H7 H8]. apply start_pool in E1. destruct b as [bo bf bp bs bt bti bn bh]. cbn in E1. subst bp.
  constructor; auto.
  - constructor; auto; cbn; constructor.
  - unfold counted. cbn [base s_pool new_pool n_running]. rewrite (total_ext _ _ (fun _ => 0)); [now rewrite total_0|]. intros l _. reflexivity.
  - intros l g n Hg Hn. destruct (H8 l g n Hg Hn) as [B1 B2 B3 B4 B5 B6 B7 B8]. ands; auto.
Qed.


(** Waiting ends when nothing escapes or slips through the window and the workers go on. *)
Lemma ask_ends clk : calm -> (forall k, exists k', k <= k' /\ In 0 (picks k')) ->
  forall m s gs lost, BS s gs lost -> (forall l, lost l = []) -> alive s = true -> length (tasks s) <= m ->
  exists F, forall fuel i, F <= fuel -> exists s', ask_loop (par_poll E picks wpicks escaped) clk 0 fuel i s = (s', Some (Ok 0%Z)).
Proof.
  intros Cm Fair.
  assert (Stop : forall s gs lost s1 gs1 lost1, BS s gs lost -> (forall l, lost l = []) -> par_poll E picks wpicks escaped s = (s1, Ok (n_running (s_pool (base s1)))) ->
     BS s1 gs1 lost1 -> rel s lost s1 lost1 -> (n_running (s_pool (base s1)) <= 0)%Z ->
     exists F, forall fuel i, F <= fuel -> exists s', ask_loop (par_poll E picks wpicks escaped) clk 0 fuel i s = (s', Some (Ok 0%Z))).
  { intros s gs lost s1 gs1 lost1 I Hl E1 I1 R1 Hn. exists 1. intros [|fuel] i HF; [lia|]. cbn [ask_loop]. rewrite E1.
    pose proof (sv_run _ _ _ _ _ I1) as C. unfold counted in C. assert (n_running (s_pool (base s1)) = 0%Z) as -> by lia. exists s1. reflexivity. }
  induction m as [|m IHm]; intros s gs lost I Hl Al Hm.
  { destruct (par_poll_S _ _ _ I) as (s1 & gs1 & lost1 & E1 & I1 & R1 & _ & _ & Q). 
    destruct (tasks s) eqn:T; [|cbn in Hm; lia]. destruct (Q eq_refl) as [_ Hh].
    apply (Stop s gs lost s1 gs1 lost1); auto. rewrite (sv_run _ _ _ _ _ I1).
    rewrite (total_ext _ _ (fun _ => 0)); [rewrite total_0; lia|]. intros l _. rewrite Hh.
    destruct R1 as (_ & _ & _ & (C & _)). rewrite (C Cm l), Hl. reflexivity. }
  destruct (Fair (ticks s)) as (k & Hk & Hp).
  assert (Q : forall d s gs lost, BS s gs lost -> (forall l, lost l = []) -> alive s = true -> length (tasks s) <= S m -> ticks s <= k -> k < ticks s + d ->
     exists F, forall fuel i, F <= fuel -> exists s', ask_loop (par_poll E picks wpicks escaped) clk 0 fuel i s = (s', Some (Ok 0%Z))).
  2: { apply (Q (S k - ticks s) s gs lost); auto. lia. }
  clear s gs lost I Hl Al Hm Hk. induction d as [|d IHd]; intros s gs lost I Hl Al Hm Hk Hd; [lia|].
  destruct (par_poll_S _ _ _ I) as (s1 & gs1 & lost1 & E1 & I1 & R1 & Tk & _ & _).
  destruct (Z.le_gt_cases (n_running (s_pool (base s1))) 0) as [Hz|Hz]; [apply (Stop s gs lost s1 gs1 lost1); auto|].
  pose proof R1 as (_ & Lv & (P1 & P2 & P3) & (C & _)).
  assert (Hl1 : forall l, lost1 l = []) by (intros l; now rewrite (C Cm l), Hl).
  assert (Al1 : alive s1 = true) by (apply Lv; auto; apply Cm).
  assert (H : exists F, forall fuel i, F <= fuel -> exists s', ask_loop (par_poll E picks wpicks escaped) clk 0 fuel i s1 = (s', Some (Ok 0%Z))).
  { destruct (Nat.lt_ge_cases k (ticks s1)) as [D|D].
    - apply (IHm s1 gs1 lost1); auto. destruct (tasks s) as [|t0 ts0] eqn:T; [cbn in P1; lia|].
      assert (length (tasks s1) < length (t0 :: ts0)); [|lia].
      apply P3; auto; [apply Cm|discriminate|]. exists k. auto.
    - apply (IHd s1 gs1 lost1); auto; lia. }
  destruct H as [F HF]. exists (S F). intros [|fuel] i Hf; [lia|]. cbn [ask_loop]. rewrite E1.
  change (Qle_bool 0 0) with true. cbn [negb andb]. apply Z.ltb_lt in Hz. rewrite Hz. apply HF. lia.
Qed.

End Facts.
