(** Invariants of the concurrent pool model. *)
From Coq Require Import Permutation.
From Verif Require Import Base BaseFacts PermTac PoolModel PoolProofs ConcModel ConcSpec.

Section Proofs.
Context {A : Type}.
Implicit Types (s : cst A) (d : dict (list (item A))).

Definition all_items (d : dict (list (item A))) : list (item A) := flat_map snd d.

Lemma all_dset d l v : Permutation (all_items (dset d l v) ++ dlist d l) (all_items d ++ v).
Proof.
  unfold all_items, dlist. induction d as [|[k q] d IH]; cbn [dset dget flat_map].
  - cbn. now rewrite !app_nil_r.
  - destruct (Nat.eqb_spec l k).
    + cbn [flat_map snd]. rewrite <- !app_assoc. rewrite (Permutation_app_comm v), <- app_assoc.
      rewrite app_assoc. rewrite (Permutation_app_comm (flat_map snd d) q). rewrite <- !app_assoc. reflexivity.
    + cbn [flat_map snd]. rewrite <- !app_assoc. apply Permutation_app_head. exact IH.
Qed.
Lemma all_put d l x : Permutation (all_items (put d l x)) (all_items d ++ [x]).
Proof.
  unfold put. pose proof (all_dset d l (dlist d l ++ [x])) as H.
  apply Permutation_app_inv_r with (l := dlist d l). rewrite H. rewrite <- app_assoc. apply Permutation_app_head.
  apply Permutation_app_comm.
Qed.
Lemma all_clear d l : Permutation (all_items d) (all_items (dset d l []) ++ dlist d l).
Proof. symmetry. rewrite all_dset, app_nil_r. reflexivity. Qed.
Lemma all_nil d : NoDup (dkeys d) -> (forall k, In k (dkeys d) -> dlist d k = []) -> all_items d = [].
Proof.
  intros N H. unfold all_items. rewrite flat_map_concat_map.
  assert (Forall (fun q => q = []) (map snd d)) as F.
  { apply Forall_forall. intros q Hq. apply in_map_iff in Hq as ([k q'] & E & Hin). cbn in E. subst q'.
    specialize (H k (in_map fst _ _ Hin)). unfold dlist in H. rewrite (In_dget _ _ _ N Hin) in H. exact H. }
  induction F as [|q l -> _ IH]; [reflexivity|exact IH].
Qed.
Lemma dkeys_dset_same {B} (d : dict B) k v : In k (dkeys d) -> dkeys (dset d k v) = dkeys d.
Proof.
  induction d as [|[k1 v1] d IH]; cbn; [tauto|]. intros H.
  destruct (Nat.eqb_spec k k1); cbn; [congruence|]. f_equal. apply IH. intuition congruence.
Qed.
Lemma remove_task_perm t l r : remove_task t l = Some r -> Permutation l (t :: r).
Proof.
  revert r. induction l as [|x l IH]; cbn; [discriminate|]. intros r.
  destruct (Nat.eqb_spec (fst t) (fst x)); cbn.
  - destruct (pystr_eq_dec (snd t) (snd x)); cbn.
    + intros [= <-]. destruct t, x; cbn in *; subst. reflexivity.
    + destruct remove_task; [|discriminate]. intros [= <-]. rewrite (IH l0 eq_refl). apply perm_swap.
  - destruct remove_task; [|discriminate]. intros [= <-]. rewrite (IH l0 eq_refl). apply perm_swap.
Qed.

Definition acc_of (m : at_) : list (item A) := match m with Idle => [] | Loop _ _ acc => acc | Copied _ _ _ _ acc => acc end.
(** Between copy and clear the queue still begins with the copy. *)
Definition window s : Prop :=
  match main s with Copied f l q _ _ => exists w, dlist (queue_of s f) l = q ++ w | _ => True end.
Definition tight s : Prop :=
  match main s with Copied f l q _ _ => dlist (queue_of s f) l = q | _ => True end.
Definition inv s (sch : list pystr) (del : list (item A)) (esc : list pystr) (lost : list (item A)) : Prop :=
  Permutation del (reported s ++ acc_of (main s) ++ all_items (good s) ++ all_items (bad s) ++ lost)
  /\ Permutation sch (map snd (tasks s) ++ map fst del ++ esc)
  /\ running s = (Z.of_nat (length sch) - Z.of_nat (length (reported s)) - Z.of_nat (length (acc_of (main s))))%Z
  /\ window s /\ NoDup (dkeys (good s)) /\ NoDup (dkeys (bad s)).

Lemma inv_init : inv init [] [] [] [].
Proof. unfold inv, window; cbn. ands; auto; constructor. Qed.

Lemma step_inv s l s' sch del esc lost :
  inv s sch del esc lost -> cstep s l = Some s' ->
  exists e lo, inv s' (sch ++ scheduled [l]) (del ++ delivered [l]) (esc ++ e) (lost ++ lo)
  /\ (escapes l = false -> e = [])
  /\ (tight s -> lo = []).
Proof.
  intros (P & T & R & W & Ng & Nb) H. destruct l as [lv id|lv id w|]; cbn in H.
  - (* schedule *)
    destruct (main s) eqn:M; try discriminate. injection H as <-. exists [], []. cbn [scheduled delivered flat_map]. rewrite !app_nil_r.
    ands; auto. unfold inv, window, reported in *; cbn in *. rewrite ?app_nil_r in *. ands; auto.
    + rewrite map_app; cbn. rewrite T. rewrite <- !app_assoc. apply Permutation_app_head. cbn.
      rewrite app_assoc. symmetry. apply Permutation_cons_append.
    + rewrite app_length; cbn. lia.
  - (* deliver *)
    destruct (alive s); [|discriminate]. destruct (remove_task (lv, id) (tasks s)) as [ts|] eqn:RT; [|discriminate].
    apply remove_task_perm in RT.
    destruct w as [a|m|]; injection H as <-; cbn [scheduled delivered flat_map]; rewrite ?app_nil_r.
    + exists [], []. rewrite !app_nil_r. ands; auto. unfold inv in *; cbn. ands; auto.
      * rewrite all_put, P. unfold reported; cbn. rewrite <- !app_assoc. do 3 apply Permutation_app_head. cbn.
        rewrite app_assoc. symmetry. apply Permutation_cons_append.
      * rewrite T, (Permutation_map snd RT), map_app; cbn. rewrite <- !app_assoc; cbn.
        rewrite !(app_assoc (map snd ts)).
        apply Permutation_middle.
      * unfold window in *; cbn. destruct (main s) as [|?|f l q todo acc] eqn:M; auto. destruct W as [w W].
        destruct f; cbn in *; [now exists w|]. destruct (Nat.eq_dec lv l) as [->|NE].
        -- exists (w ++ [(id, inl a)]). rewrite dlist_put_eq, W. now rewrite app_assoc.
        -- exists w. now rewrite dlist_put_neq.
      * now apply NoDup_put.
    + exists [], []. rewrite !app_nil_r. ands; auto. unfold inv in *; cbn. ands; auto.
      * rewrite all_put, P. unfold reported; cbn. rewrite <- !app_assoc. do 4 apply Permutation_app_head. cbn.
        symmetry. apply Permutation_cons_append.
      * rewrite T, (Permutation_map snd RT), map_app; cbn. rewrite <- !app_assoc; cbn.
        rewrite !(app_assoc (map snd ts)).
        apply Permutation_middle.
      * unfold window in *; cbn. destruct (main s) as [|?|f l q todo acc] eqn:M; auto. destruct W as [w W].
        destruct f; cbn in *; [|now exists w]. destruct (Nat.eq_dec lv l) as [->|NE].
        -- exists (w ++ [(id, inr m)]). rewrite dlist_put_eq, W. now rewrite app_assoc.
        -- exists w. now rewrite dlist_put_neq.
      * now apply NoDup_put.
    + exists [id], []. rewrite !app_nil_r. ands; auto; [|intros [=]]. unfold inv in *; cbn. ands; auto.
      rewrite T, (Permutation_map snd RT); cbn. rewrite !app_assoc. apply Permutation_cons_append.
  - (* main *)
    cbn [scheduled delivered flat_map]. rewrite !app_nil_r. unfold inv, window in *.
    destruct (main s) as [|f [|l todo] acc|f l q todo acc] eqn:M; cbn in *.
    + injection H as <-. exists [], []. rewrite !app_nil_r. unfold reported in *; cbn in *. ands; auto.
    + destruct f; injection H as <-; exists [], []; rewrite !app_nil_r; cbn; ands; auto.
      * unfold reported in *; cbn in *. rewrite flat_map_app; cbn. rewrite app_nil_r, <- app_assoc. exact P.
      * unfold reported in *; cbn in *. rewrite flat_map_app; cbn. rewrite app_nil_r, app_length. lia.
    + injection H as <-. exists [], []. rewrite !app_nil_r. unfold reported in *; cbn in *.
      destruct (dlist (queue_of s f) l) eqn:Q; cbn; ands; auto. exists []. rewrite app_nil_r.
      unfold queue_of in *; cbn. exact Q.
    + injection H as <-. destruct W as [w W]. exists [], w. rewrite app_nil_r.
      assert (Permutation (reported s ++ acc ++ all_items (good s) ++ all_items (bad s) ++ lost)
               (reported s ++ (acc ++ q) ++ all_items (if f then good s else dset (good s) l [])
                 ++ all_items (if f then dset (bad s) l [] else bad s) ++ lost ++ w)) as PP.
      { apply Permutation_app_head. rewrite <- app_assoc. apply Permutation_app_head.
        destruct f; cbn in *.
        - rewrite (all_clear (bad s) l), W. psolve.
        - rewrite (all_clear (good s) l), W. psolve. }
      assert (tight s -> w = []) as TW.
      { unfold tight. rewrite M, W. intros HT. apply (f_equal (@length _)) in HT. rewrite app_length in HT.
        destruct w; [auto|cbn in HT; lia]. }
      destruct f; unfold reported in *; cbn in *; ands; auto using dkeys_dset_nodup;
        first [rewrite P; exact PP|rewrite app_length; lia|apply (dkeys_dset_nodup _ _ []); assumption].
Qed.

Lemma step_tight s l s' :
  tight s -> in_window s l = false -> cstep s l = Some s' -> tight s'.
Proof.
  unfold tight, in_window. intros W IW H. destruct l as [lv id|lv id w|]; cbn in H.
  - destruct (main s); try discriminate. now injection H as <-.
  - destruct (alive s); [|discriminate]. destruct (remove_task (lv, id) (tasks s)) as [ts|]; [|discriminate].
    destruct (main s) as [|?|f l q todo acc] eqn:M; destruct w; injection H as <-; cbn; rewrite ?M; auto;
      destruct f; cbn in *; auto; destruct (Nat.eqb_spec l lv); cbn in IW; try discriminate;
      rewrite dlist_put_neq; auto.
  - destruct (main s) as [|f [|l todo] acc|f l q todo acc] eqn:M; cbn in *.
    + now injection H as <-.
    + destruct f; now injection H as <-.
    + injection H as <-; cbn. destruct (dlist (queue_of s f) l) eqn:Q; auto.
    + injection H as <-. now destruct f.
Qed.

Lemma step_alive s l s' : escapes l = false -> cstep s l = Some s' -> alive s' = alive s.
Proof.
  intros E H. destruct l as [lv id|lv id w|]; cbn in H.
  - destruct (main s); try discriminate. now injection H as <-.
  - destruct (alive s); [|discriminate]. destruct (remove_task (lv, id) (tasks s)) as [ts|]; [|discriminate]. destruct w; try discriminate; now injection H as <-.
  - destruct (main s) as [|f [|l todo] acc|f l q todo acc]; [..|]; try destruct f; now injection H as <-.
Qed.

Lemma run_inv ls s s' sch del esc lost :
  inv s sch del esc lost -> crun s ls = Some s' ->
  exists e lo, inv s' (sch ++ scheduled ls) (del ++ delivered ls) (esc ++ e) (lost ++ lo)
  /\ (tight s -> quiet s ls = true -> e = [] /\ lo = [] /\ tight s' /\ alive s' = alive s).
Proof.
  revert s sch del esc lost. induction ls as [|l ls IH]; intros s sch del esc lost I H; cbn in H.
  - injection H as <-. exists [], []. cbn. rewrite !app_nil_r. auto.
  - destruct (cstep s l) as [s1|] eqn:St; [|discriminate].
    destruct (step_inv _ _ _ _ _ _ _ I St) as (e1 & lo1 & I1 & E1 & L1).
    destruct (IH _ _ _ _ _ I1 H) as (e2 & lo2 & I2 & Q2).
    exists (e1 ++ e2), (lo1 ++ lo2). split.
    + unfold scheduled, delivered in *. cbn [flat_map] in *. rewrite !app_nil_r in I2. rewrite !app_assoc. exact I2.
    + intros T Q. cbn [quiet] in Q. rewrite St in Q. apply andb_prop in Q as [Q Q3]. apply andb_prop in Q as [Q1 Q4].
      apply negb_true_iff in Q1, Q4. destruct (Q2 (step_tight _ _ _ T Q1 St) Q3) as (-> & -> & T' & Al).
      rewrite (E1 Q4), (L1 T). ands; auto. rewrite Al. eapply step_alive; eauto.
Qed.

Lemma crun_app s l1 l2 : crun s (l1 ++ l2) = match crun s l1 with Some s1 => crun s1 l2 | None => None end.
Proof. revert s; induction l1 as [|l l1 IH]; intros s; cbn; [reflexivity|]. destruct (cstep s l); auto. Qed.

Lemma drain todo : forall s f acc,
  main s = Loop f todo acc -> (forall k, In k todo -> In k (dkeys (queue_of s f))) ->
  exists n s', crun s (repeat Main n) = Some s' /\ (exists acc', main s' = Loop f [] acc') /\ answers s' = answers s
  /\ dkeys (queue_of s' f) = dkeys (queue_of s f) /\ queue_of s' (negb f) = queue_of s (negb f)
  /\ (forall k, In k todo \/ dlist (queue_of s f) k = [] -> dlist (queue_of s' f) k = [])
  /\ quiet s (repeat Main n) = true.
Proof.
  induction todo as [|k todo IH]; intros s f acc M K.
  - exists 0, s. cbn. ands; eauto. intros k [[]|]; auto.
  - remember (mkC (running s) (good s) (bad s) (tasks s) (alive s)
                (match dlist (queue_of s f) k with [] => Loop f todo acc | q => Copied f k q todo acc end) (answers s)) as s1 eqn:E1.
    assert (cstep s Main = Some s1) as S1 by (cbn; rewrite M; subst; reflexivity).
    assert (queue_of s1 = queue_of s) as QE by (subst s1; reflexivity).
    destruct (dlist (queue_of s f) k) as [|x q] eqn:Q.
    + assert (main s1 = Loop f todo acc) as M1 by (subst; reflexivity).
      destruct (IH s1 f acc M1) as (n & s' & R & M' & An & Kq & O & D & Qt).
      { rewrite QE. intros k' Hk. apply K. now right. }
      exists (S n), s'. cbn [repeat crun quiet]. rewrite S1. rewrite QE in *. ands; auto.
      * rewrite An; subst; reflexivity.
      * intros k' [[->|Hk]|Hk]; auto.
      * unfold in_window. rewrite M. cbn. exact Qt.
    + remember (set_queue s1 f (dset (queue_of s1 f) k []) (running s1 - Z.of_nat (length (x :: q)))
                  (Loop f todo (acc ++ x :: q)) (answers s1)) as s2 eqn:E2.
      assert (main s1 = Copied f k (x :: q) todo acc) as M1 by (subst s1; reflexivity).
      assert (cstep s1 Main = Some s2) as S2 by (cbn; rewrite M1; subst s2; reflexivity).
      assert (queue_of s2 f = dset (queue_of s f) k []) as Q2 by (rewrite <- QE; subst s2; destruct f; reflexivity).
      assert (queue_of s2 (negb f) = queue_of s (negb f)) as Q3 by (rewrite <- QE; subst s2; destruct f; reflexivity).
      assert (main s2 = Loop f todo (acc ++ x :: q)) as M2 by (subst s2; destruct f; reflexivity).
      assert (dkeys (queue_of s2 f) = dkeys (queue_of s f)) as KK by (rewrite Q2; apply dkeys_dset_same, K; now left).
      destruct (IH s2 f _ M2) as (n & s' & R & M' & An & Kq & O & D & Qt).
      { rewrite KK. intros k' Hk. apply K. now right. }
      exists (S (S n)), s'. cbn [repeat crun quiet]. rewrite S1. rewrite S2. rewrite KK, Q3 in *. ands; auto.
      * rewrite An; subst s2 s1; destruct f; reflexivity.
      * intros k' Hk. apply D. rewrite Q2. destruct (Nat.eq_dec k k') as [->|NE].
        -- right. apply dlist_dset_eq.
        -- rewrite dlist_dset_neq by exact NE. destruct Hk as [[E|Hk]|Hk]; [congruence|auto|auto].
      * unfold in_window. rewrite M, M1. cbn. exact Qt.
Qed.

Lemma quiet_app s l1 l2 s1 : crun s l1 = Some s1 -> quiet s (l1 ++ l2) = (quiet s l1 && quiet s1 l2)%bool.
Proof.
  revert s; induction l1 as [|l l1 IH]; intros s H; cbn in *; [now injection H as ->|].
  destruct (cstep s l) as [s2|]; [|discriminate]. rewrite (IH _ H). now rewrite andb_assoc.
Qed.

Lemma finish s : main s = Idle -> NoDup (dkeys (good s)) -> NoDup (dkeys (bad s)) ->
  exists n s', crun s (repeat Main (S n)) = Some s' /\ main s' = Idle
  /\ (exists r, answers s' = answers s ++ [(r, running s')])
  /\ all_items (good s') = [] /\ all_items (bad s') = []
  /\ quiet s (repeat Main (S n)) = true.
Proof.
  intros M Ng Nb.
  set (s1 := mkC (running s) (good s) (bad s) (tasks s) (alive s) (Loop false (dkeys (good s)) []) (answers s)).
  assert (cstep s Main = Some s1) as S1 by (cbn; now rewrite M).
  destruct (drain (dkeys (good s)) s1 false [] eq_refl) as (n & s2 & R2 & (acc2 & M2) & A2 & K2 & O2 & D2 & Q2); [now cbn|].
  set (s3 := mkC (running s2) (good s2) (bad s2) (tasks s2) (alive s2) (Loop true (dkeys (bad s2)) acc2) (answers s2)).
  assert (cstep s2 Main = Some s3) as S3 by (cbn; now rewrite M2).
  destruct (drain (dkeys (bad s2)) s3 true acc2 eq_refl) as (m & s4 & R4 & (acc4 & M4) & A4 & K4 & O4 & D4 & Q4); [now cbn|].
  set (s5 := mkC (running s4) (good s4) (bad s4) (tasks s4) (alive s4) Idle (answers s4 ++ [(acc4, running s4)])).
  assert (cstep s4 Main = Some s5) as S5 by (cbn; now rewrite M4).
  cbn -[dkeys] in K2, O2, D2, K4, O4, D4.
  assert (repeat (@Main A) (S (n + S (m + 1))) = Main :: repeat Main n ++ Main :: repeat Main m ++ [Main]) as Er.
  { cbn. f_equal. rewrite repeat_app. cbn. now rewrite repeat_app. }
  exists (n + S (m + 1)), s5. rewrite Er. cbn [crun quiet]. rewrite S1.
  rewrite crun_app, R2. cbn [crun]. rewrite S3, crun_app, R4. cbn [crun]. rewrite S5. ands; auto.
  - exists acc4. cbn. rewrite A4. cbn. now rewrite A2.
  - cbn. rewrite O4. apply all_nil; [now rewrite K2|]. rewrite K2. intros k Hk. apply D2. now left.
  - cbn. apply all_nil; [now rewrite K4, O2|]. rewrite K4. intros k Hk. apply D4. now left.
  - unfold in_window. rewrite M. cbn [negb escapes andb]. rewrite (quiet_app _ _ _ _ R2), Q2. cbn [quiet andb].
    rewrite S3, (quiet_app _ _ _ _ R4), Q4. cbn [quiet andb]. rewrite S5. unfold in_window. now rewrite M2, M4.
Qed.
End Proofs.
