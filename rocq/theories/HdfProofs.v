From Verif Require Import Base BaseFacts HdfModel.

Section HdfProofs.
Context {V : Type}.
Implicit Types (gs : list (lgroup V)) (o : hobj).

(** A storage with L levels whose groups are gs. *)
Definition Full (L : nat) (o : hobj) (f : hfile V) gs : Prop :=
  o_groups o = seq 0 L /\ f = mkFile (Some L) (map GFull gs) /\ length gs = L.

Lemma Full_get L o f gs l g :
  Full L o f gs -> nth_error gs l = Some g -> get_group o f l = Ok (l, g).
Proof.
  intros (Ho & -> & Hl) H. unfold get_group.
  assert (l < L) by (rewrite <- Hl; apply nth_error_Some; congruence).
  rewrite Ho, nth_error_seq. destruct (Nat.ltb_spec l L); [|lia]. cbn [plus f_groups].
  rewrite nth_error_map, H. reflexivity.
Qed.

Lemma upd_map {A B} (h : A -> B) (l : list A) i (k : A -> A) (k' : B -> B) :
  (forall x, nth_error l i = Some x -> k' (h x) = h (k x)) ->
  upd (map h l) i k' = map h (upd l i k).
Proof.
  revert i. induction l as [|x l IH]; intros [|i] H; cbn; auto.
  - f_equal. apply H. reflexivity.
  - f_equal. apply IH. intros y Hy. apply H. exact Hy.
Qed.

Lemma Full_set L o f gs l g g' :
  Full L o f gs -> nth_error gs l = Some g ->
  Full L o (set_group f l g') (upd gs l (fun _ => g')).
Proof.
  intros (Ho & -> & Hl) H. repeat split; auto.
  - unfold set_group. cbn [f_params f_groups]. f_equal. apply upd_map. reflexivity.
  - now rewrite upd_length.
Qed.

Lemma Full_nth L o f gs l : Full L o f gs -> l < L -> exists g, nth_error gs l = Some g.
Proof.
  intros (_ & _ & Hl) H. rewrite <- Hl in H. apply nth_error_Some in H.
  destruct (nth_error gs l) as [g|]; [eauto|congruence].
Qed.

Lemma with_group_Full L o f gs l g k :
  Full L o f gs -> nth_error gs l = Some g ->
  exists f', with_group o l k f = (f', Ok tt) /\ Full L o f' (upd gs l (fun _ => k g)).
Proof.
  intros HF H. unfold with_group. rewrite (Full_get _ _ _ _ _ _ HF H).
  eexists; split; [reflexivity|]. now apply Full_set with (g := g).
Qed.

Lemma nth_upd_const gs l g' i :
  l < length gs ->
  nth_error (upd gs l (fun _ => g')) i = if Nat.eqb i l then Some g' else nth_error gs i.
Proof.
  intros H. destruct (Nat.eqb_spec i l) as [->|N].
  - rewrite nth_error_upd_eq. apply nth_error_Some in H. now destruct (nth_error gs l).
  - now rewrite nth_error_upd_neq by auto.
Qed.

(** A loop of group updates over a dictionary. *)
Lemma sfor_groups L o {A} (body : nat * A -> st (hfile V) unit) (k : A -> lgroup V -> lgroup V) :
  (forall l x f gs g, Full L o f gs -> nth_error gs l = Some g ->
     exists f' gs', body (l, x) f = (f', Ok tt) /\ Full L o f' gs'
       /\ forall i, nth_error gs' i = if Nat.eqb i l then Some (k x g) else nth_error gs i) ->
  forall (d : dict A) f gs, Full L o f gs -> NoDup (dkeys d) -> (forall l, In l (dkeys d) -> l < L) ->
  exists f' gs', sfor d body f = (f', Ok tt) /\ Full L o f' gs'
    /\ forall l g, nth_error gs l = Some g ->
         nth_error gs' l = Some (match dget d l with Some x => k x g | None => g end).
Proof.
  intros Hbody d. induction d as [|[l x] d IH]; intros f gs HF Hn Hk.
  - exists f, gs. cbn. auto.
  - assert (Hl : l < L) by (apply Hk; cbn; auto).
    destruct (Full_nth _ _ _ _ _ HF Hl) as [g Hg].
    destruct (Hbody l x f gs g HF Hg) as (f1 & gs1 & E1 & HF1 & H1).
    inversion Hn; subst.
    destruct (IH f1 gs1 HF1) as (f2 & gs2 & E2 & HF2 & H2'); auto.
    { intros l' Hl'. apply Hk. cbn; auto. }
    exists f2, gs2. cbn [sfor]. unfold sbind. rewrite E1, E2. repeat split; auto.
    + apply HF2. + apply HF2. + apply HF2.
    + intros l' g' Hg'. cbn [dget]. specialize (H1 l'). destruct (Nat.eqb_spec l' l) as [e|N]; [subst l'|].
      * rewrite Hg in Hg'. injection Hg' as <-.
        rewrite (H2' _ _ H1). apply dget_None in H2. now rewrite H2.
      * rewrite Hg' in H1. apply H2'. exact H1.
Qed.

Definition app_level {A} (app : list A -> lgroup V -> lgroup V) (xs : list A) (g : lgroup V) : lgroup V :=
  match xs with [] => g | _ => app xs g end.

Lemma save_level_body L o {A} (app : list A -> lgroup V -> lgroup V) :
  forall l x f gs g, Full L o f gs -> nth_error gs l = Some g ->
     exists f' gs', save_level o app (l, x) f = (f', Ok tt) /\ Full L o f' gs'
       /\ forall i, nth_error gs' i = if Nat.eqb i l then Some (app_level app x g) else nth_error gs i.
Proof.
  intros l x f gs g HF Hg. unfold save_level. cbn [fst snd]. destruct x as [|a x].
  - exists f, gs. repeat split; try apply HF. intros i. cbn [app_level].
    destruct (Nat.eqb_spec i l); congruence.
  - destruct (with_group_Full _ _ _ _ _ _ (app (a :: x)) HF Hg) as (f' & E & HF').
    exists f', (upd gs l (fun _ => app (a :: x) g)). repeat split; try apply HF'; auto.
    intros i. apply nth_upd_const. apply nth_error_Some. congruence.
Qed.

Definition saved (ok : dict (list (pystr * V))) (bad : dict (list (pystr * pystr))) (l : nat) (g : lgroup V) :=
  app_level append_failed (dlist bad l) (app_level append_successful (dlist ok l) g).

Lemma save_samples_Full L o f gs ok bad :
  Full L o f gs ->
  NoDup (dkeys ok) -> (forall l, In l (dkeys ok) -> l < L) ->
  NoDup (dkeys bad) -> (forall l, In l (dkeys bad) -> l < L) ->
  exists f' gs', save_samples o ok bad f = (f', Ok tt) /\ Full L o f' gs'
    /\ forall l g, nth_error gs l = Some g -> nth_error gs' l = Some (saved ok bad l g).
Proof.
  intros HF N1 K1 N2 K2. unfold save_samples, sbind.
  destruct (sfor_groups L o _ _ (save_level_body L o append_successful) ok f gs HF N1 K1)
    as (f1 & gs1 & E1 & HF1 & H1).
  destruct (sfor_groups L o _ _ (save_level_body L o append_failed) bad f1 gs1 HF1 N2 K2)
    as (f2 & gs2 & E2 & HF2 & H2).
  rewrite E1, E2. exists f2, gs2. repeat split; try apply HF2.
  intros l g Hg. unfold saved. rewrite (H2 _ _ (H1 _ _ Hg)). unfold dlist.
  destruct (dget bad l), (dget ok l); reflexivity.
Qed.

Lemma save_n_ops_Full L o f gs ts :
  Full L o f gs -> NoDup (dkeys ts) -> (forall l, In l (dkeys ts) -> l < L) ->
  exists f' gs', save_n_ops o ts f = (f', Ok tt) /\ Full L o f' gs'
    /\ forall l g, nth_error gs l = Some g ->
         nth_error gs' l = Some (match dget ts l with Some (t, n) => add_n_ops t n g | None => g end).
Proof.
  intros HF N K. unfold save_n_ops.
  destruct (sfor_groups L o (fun '(level, (t, n)) => with_group o level (add_n_ops t n))
              (fun tn => add_n_ops (fst tn) (snd tn))) with (d := ts) (f := f) (gs := gs)
    as (f' & gs' & E & HF' & H); auto.
  - intros l [t n] f0 gs0 g HF0 Hg.
    destruct (with_group_Full _ _ _ _ _ _ (add_n_ops t n) HF0 Hg) as (f' & E & HF').
    exists f', (upd gs0 l (fun _ => add_n_ops t n g)). repeat split; try apply HF'; auto.
    intros i. apply nth_upd_const. apply nth_error_Some. congruence.
  - exists f', gs'. repeat split; try apply HF'; auto.
    intros l g Hg. rewrite (H _ _ Hg). destruct (dget ts l) as [[t n]|]; reflexivity.
Qed.

Lemma save_scheduled_Full L o f gs l ids g :
  Full L o f gs -> nth_error gs l = Some g ->
  exists f' gs', save_scheduled o l ids f = (f', Ok tt) /\ Full L o f' gs'
    /\ forall i, nth_error gs' i = if Nat.eqb i l then Some (append_scheduled ids g) else nth_error gs i.
Proof.
  intros HF Hg. unfold save_scheduled. destruct ids as [|a ids].
  - destruct HF as (Ho & Hf & Hl).
    assert (l < L) by (rewrite <- Hl; apply nth_error_Some; congruence).
    rewrite Ho, nth_error_seq. destruct (Nat.ltb_spec l L); [|lia].
    exists f, gs. repeat split; auto. intros i. destruct (Nat.eqb_spec i l); auto.
    subst i. rewrite Hg. destruct g; unfold append_scheduled; cbn. now rewrite app_nil_r.
  - destruct (with_group_Full _ _ _ _ _ _ (append_scheduled (a :: ids)) HF Hg) as (f' & E & HF').
    exists f', (upd gs l (fun _ => append_scheduled (a :: ids) g)).
    repeat split; try apply HF'; auto.
    intros i. apply nth_upd_const. apply nth_error_Some. congruence.
Qed.

(** Reading *)
Fixpoint index_from {A} (i : nat) (l : list A) : list (nat * A) :=
  match l with [] => [] | x :: r => (i, x) :: index_from (S i) r end.

Lemma read_groups_seq (gs : list (lgroup V)) : forall pre L,
  read_groups (mkFile L (map GFull (pre ++ gs))) (seq (length pre) (length gs))
  = Ok (index_from (length pre) gs).
Proof.
  induction gs as [|g gs IH]; intros pre L; [reflexivity|].
  cbn [length seq read_groups f_groups].
  rewrite nth_error_map, nth_error_app2, Nat.sub_diag by lia. cbn [nth_error option_map].
  specialize (IH (pre ++ [g]) L). rewrite <- app_assoc in IH. cbn [app] in IH.
  rewrite app_length in IH. cbn [length] in IH. rewrite Nat.add_1_r in IH.
  rewrite IH. reflexivity.
Qed.

Lemma groups_of_Full L o f gs : Full L o f gs -> groups_of o f = Ok (index_from 0 gs).
Proof.
  intros (Ho & -> & Hl). unfold groups_of. rewrite Ho, <- Hl. exact (read_groups_seq gs [] (Some (length gs))).
Qed.

Lemma fold_dset_index {A B} (h : A -> B) (gs : list A) : forall i (d : dict B),
  (forall k, In k (dkeys d) -> k < i) ->
  fold_left (fun d x => dset d (fst x) (h (snd x))) (index_from i gs) d
  = d ++ index_from i (map h gs).
Proof.
  induction gs as [|g gs IH]; intros i d Hd; cbn [index_from fold_left map].
  - now rewrite app_nil_r.
  - cbn [fst snd]. assert (E : dset d i (h g) = d ++ [(i, h g)]).
    { clear IH. induction d as [|[k v] d IHd]; auto. cbn [dset].
      assert (k < i) by (apply Hd; cbn; auto). destruct (Nat.eqb_spec i k); [lia|].
      cbn [app]. f_equal. apply IHd. intros; apply Hd; cbn; auto. }
    rewrite E, IH.
    + now rewrite <- app_assoc.
    + intros k. unfold dkeys. rewrite map_app, in_app_iff. cbn. intros [H|[H|[]]]; [|lia].
      apply Hd in H. lia.
Qed.

Lemma load_scheduled_Full L o f gs :
  Full L o f gs -> load_scheduled o f = Ok (index_from 0 (map g_sched gs)).
Proof.
  intros HF. unfold load_scheduled. rewrite (groups_of_Full _ _ _ _ HF). cbn [bind].
  f_equal. exact (fold_dset_index g_sched gs 0 [] (fun k H => match H with end)).
Qed.

Lemma failed_samples_Full L o f gs :
  Full L o f gs -> failed_samples o f = Ok (index_from 0 (map (fun g => map fst (g_failed g)) gs)).
Proof.
  intros HF. unfold failed_samples. rewrite (groups_of_Full _ _ _ _ HF). cbn [bind].
  f_equal. exact (fold_dset_index (fun g => map fst (g_failed g)) gs 0 [] (fun k H => match H with end)).
Qed.

Lemma map_snd_index {A} (l : list A) i : map snd (index_from i l) = l.
Proof. revert i; induction l as [|x l IH]; intros i; cbn; congruence. Qed.
Lemma map_fst_index {A} (l : list A) i : map fst (index_from i l) = seq i (length l).
Proof. revert i; induction l as [|x l IH]; intros i; cbn; congruence. Qed.
Lemma dget_index {A} (l : list A) : forall i k, dget (index_from i l) k =
  if Nat.ltb k i then None else nth_error l (k - i).
Proof.
  induction l as [|x l IH]; intros i k; cbn [index_from dget].
  - destruct (Nat.ltb k i); auto. now destruct (k - i).
  - destruct (Nat.eqb_spec k i) as [->|N].
    + destruct (Nat.ltb_spec i i); [lia|]. now rewrite Nat.sub_diag.
    + rewrite IH. destruct (Nat.ltb_spec k i), (Nat.ltb_spec k (S i)); try lia; auto.
      replace (k - i) with (S (k - S i)) by lia. reflexivity.
Qed.

Lemma flat_map_index {A B} (h : A -> list B) (l : list A) i :
  flat_map (fun x => h (snd x)) (index_from i l) = flat_map h l.
Proof. revert i; induction l as [|x l IH]; intros i; cbn; auto. now rewrite IH. Qed.

Lemma unfinished_ids_Full L o f gs :
  Full L o f gs -> unfinished_ids o f = Ok (flat_map unfinished_level gs).
Proof.
  intros HF. unfold unfinished_ids. rewrite (groups_of_Full _ _ _ _ HF). cbn [bind].
  now rewrite flat_map_index.
Qed.

Lemma upd_app_r {A} (l1 l2 : list A) x k : upd (l1 ++ x :: l2) (length l1) k = l1 ++ k x :: l2.
Proof. induction l1 as [|y l1 IH]; cbn; congruence. Qed.

Lemma n_finished_fold (gs : list (lgroup V)) : forall pre,
  fold_left (fun r x => bind r (fun a =>
        if Nat.ltb (fst x) (length a)
        then Ok (upd a (fst x) (fun n => n + length (finished_ids (snd x))))
        else Err IndexError))
      (index_from (length pre) gs) (Ok (pre ++ repeat 0 (length gs)))
  = Ok (pre ++ map (fun g => length (finished_ids g)) gs).
Proof.
  induction gs as [|g gs IH]; intros pre; cbn [index_from fold_left map length repeat]; auto.
  cbn [bind fst snd]. rewrite app_length. cbn [length].
  destruct (Nat.ltb_spec (length pre) (length pre + S (length (repeat 0 (length gs))))); [|lia].
  rewrite upd_app_r. cbn [plus].
  specialize (IH (pre ++ [length (finished_ids g)])).
  rewrite app_length in IH. cbn [length] in IH. rewrite Nat.add_1_r, <- !app_assoc in IH. exact IH.
Qed.

Lemma n_finished_Full L o f gs :
  Full L o f gs -> n_finished o f = Ok (map (fun g => length (finished_ids g)) gs).
Proof.
  intros HF. unfold n_finished. rewrite (groups_of_Full _ _ _ _ HF). cbn [bind].
  destruct HF as (Ho & _ & Hl). rewrite Ho, seq_length, <- Hl.
  exact (n_finished_fold gs []).
Qed.

Lemma clear_failed_Full_aux L o (r : list nat) : forall f gs,
  Full L o f gs -> NoDup r -> (forall l, In l r -> l < L) ->
  exists f' gs', sfor r (fun lid f =>
    match nth_error (f_groups f) lid with
    | Some (GFull g) => (set_group f lid (clear_failed_group g), Ok tt)
    | Some GBare => (f, Ok tt)
    | None => (f, Err KeyError)
    end) f = (f', Ok tt) /\ Full L o f' gs'
   /\ forall l g, nth_error gs l = Some g ->
       nth_error gs' l = Some (if in_dec Nat.eq_dec l r then clear_failed_group g else g).
Proof.
  induction r as [|l r IH]; intros f gs HF Hn Hk.
  - exists f, gs. cbn. auto.
  - destruct (Full_nth L o f gs l HF) as [g Hg]; [apply Hk; cbn; auto|].
    inversion Hn; subst.
    destruct (IH (set_group f l (clear_failed_group g)) (upd gs l (fun _ => clear_failed_group g)))
      as (f' & gs' & E & HF' & H); auto.
    { now apply Full_set with (g := g). }
    { intros; apply Hk; cbn; auto. }
    exists f', gs'. cbn [sfor]. unfold sbind at 1.
    assert (Hf : nth_error (f_groups f) l = Some (GFull g)).
    { destruct HF as (_ & -> & _). cbn [f_groups]. now rewrite nth_error_map, Hg. }
    rewrite Hf, E. repeat split; try apply HF'.
    intros l' g' Hg'.
    assert (Hlen : l < length gs) by (apply nth_error_Some; congruence).
    pose proof (nth_upd_const gs l (clear_failed_group g) l' Hlen) as Hu.
    destruct (Nat.eqb_spec l' l) as [->|N].
    + rewrite (H _ _ Hu). rewrite Hg in Hg'. injection Hg' as <-.
      destruct (in_dec Nat.eq_dec l r); [contradiction|].
      destruct (in_dec Nat.eq_dec l (l :: r)) as [_|n0]; [reflexivity|exfalso; apply n0; cbn; auto].
    + rewrite Hg' in Hu. rewrite (H _ _ Hu).
      destruct (in_dec Nat.eq_dec l' r) as [i|i], (in_dec Nat.eq_dec l' (l :: r)) as [j|j]; auto.
      * exfalso; apply j; cbn; auto.
      * exfalso; destruct j; congruence.
Qed.

Lemma clear_failed_Full L o f gs :
  Full L o f gs ->
  exists f', clear_failed o f = (f', Ok tt) /\ Full L o f' (map clear_failed_group gs).
Proof.
  intros HF. unfold clear_failed.
  destruct (clear_failed_Full_aux L o (o_groups o) f gs HF) as (f' & gs' & E & HF' & H).
  - destruct HF as (-> & _). apply seq_NoDup.
  - destruct HF as (-> & _). intros l Hl. apply in_seq in Hl. lia.
  - exists f'. split; auto. replace (map clear_failed_group gs) with gs'; auto.
    apply nth_error_ext. intros i. rewrite nth_error_map.
    destruct (nth_error gs i) as [g|] eqn:Eg; cbn.
    + rewrite (H _ _ Eg). destruct (in_dec Nat.eq_dec i (o_groups o)) as [j|j]; auto.
      exfalso; apply j. destruct HF as (-> & _ & Hl). apply in_seq.
      assert (i < length gs) by (apply nth_error_Some; congruence). lia.
    + apply nth_error_None in Eg. apply nth_error_None.
      destruct HF as (_ & _ & Hl), HF' as (_ & _ & Hl'). lia.
Qed.

(** Opening and creating *)
Lemma add_groups_fresh n : forall k P,
  fold_left (add_level_group false) (seq k n) (mkFile P (map GFull (repeat empty_group k)))
  = mkFile P (map GFull (repeat (@empty_group V) (k + n))).
Proof.
  induction n as [|n IH]; intros k P; cbn [seq fold_left].
  - now rewrite Nat.add_0_r.
  - assert (E : add_level_group false (mkFile P (map GFull (repeat (@empty_group V) k))) k
               = mkFile P (map GFull (repeat empty_group (S k)))).
    { unfold add_level_group. cbn [f_groups f_params].
      rewrite map_length, repeat_length. destruct (Nat.ltb_spec k k); [lia|].
      f_equal. cbn [repeat]. rewrite (repeat_cons k (@empty_group V)).
      rewrite map_app. cbn [map].
      pose proof (upd_app_r (map GFull (repeat (@empty_group V) k)) [] GBare make_datasets) as H'.
      rewrite map_length, repeat_length in H'. exact H'. }
    rewrite E, IH. do 3 f_equal. lia.
Qed.

Lemma add_groups_loaded n : forall k (f : hfile V),
  k + n <= length (f_groups f) -> fold_left (add_level_group true) (seq k n) f = f.
Proof.
  induction n as [|n IH]; intros k f H; cbn [seq fold_left]; auto.
  assert (E : add_level_group true f k = f).
  { unfold add_level_group. destruct (Nat.ltb_spec k (length (f_groups f))); [|lia]. now destruct f. }
  rewrite E. apply IH. lia.
Qed.

Lemma hdf_open_Full L o f gs : Full L o f gs ->
  hdf_open f = Ok (mkObj true (seq 0 L), f).
Proof.
  intros (Ho & -> & Hl). unfold hdf_open. cbn [f_params].
  destruct (Nat.eqb_spec L 0) as [->|N]; [reflexivity|].
  unfold add_level_groups. cbn [o_loaded o_groups app].
  rewrite add_groups_loaded by (cbn [f_groups]; rewrite map_length; lia). reflexivity.
Qed.

Lemma save_global_loaded L o f gs : Full L o f gs -> o_loaded o = true ->
  save_global_data L (o, f) = ((o, f), Ok tt).
Proof.
  intros (Ho & -> & Hl) Hld. unfold save_global_data. rewrite Hld, Ho, seq_length, Nat.eqb_refl. reflexivity.
Qed.

Lemma save_global_fresh (f0 : hfile V) L : exists o f,
  save_global_data L (hdf_new, f0) = ((o, f), Ok tt) /\ Full L o f (repeat empty_group L).
Proof.
  unfold save_global_data, hdf_new. cbn [o_loaded o_groups length].
  destruct (Nat.eqb_spec 0 L) as [<-|N].
  - eexists _, _. split; [reflexivity|]. repeat split.
  - eexists _, _. split; [reflexivity|]. unfold add_level_groups. cbn [o_groups o_loaded app].
    repeat split; cbn [o_groups].
    + exact (add_groups_fresh L 0 (Some L)).
    + apply repeat_length.
Qed.

End HdfProofs.
