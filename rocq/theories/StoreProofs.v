From Verif Require Import Base BaseFacts HdfModel HdfProofs StoreModel StoreSpec.

Section Proofs.
Context {X : Type}.
Notation pairx := (list X * list X)%type.
Notation G := (lgroup pairx).
Notation H_ := (list (sop X)).

Definition vals_of (c : list (pystr * pairx)) : option (list pairx) :=
  match c with [] => None | _ => Some (map snd c) end.

(** The cost record after adding the pairs (time, number of samples) one by one. *)
Definition add_record (c : Q * Q) (r : Q * nat) : Q * Q :=
  match snd r with 0 => c | S _ => ((fst c + fst r)%Q, (snd c + inject_Z (Z.of_nat (snd r)))%Q) end.
Definition nops_of (rs : list (Q * nat)) : option (Q * Q) :=
  match rs with [] => None | _ => Some (fold_left add_record rs (0%Q, 0%Q)) end.

Record holds (l : nat) (h : H_) (g : G) : Prop := {
  ho_sched : g_sched g = scheduled_on l h;
  ho_cids : g_cids g = map fst (collected_on l h);
  ho_cvals : g_cvals g = vals_of (collected_on l h);
  ho_failed : g_failed g = failed_on l h;
  ho_nops : g_nops g = nops_of (time_records l h) }.

Definition SInv (L : nat) (h : H_) (o : hobj) (f : hfile pairx) : Prop :=
  exists gs, Full L o f gs /\ forall l g, nth_error gs l = Some g -> holds l h g.

Lemma failed_snoc l h (x : sop X) : failed_on l (h ++ [x])
  = match x with SSave _ bad => failed_on l h ++ dlist bad l | SClear => [] | _ => failed_on l h end.
Proof. unfold failed_on. rewrite fold_left_app. reflexivity. Qed.
Lemma sched_snoc l h (x : sop X) : scheduled_on l (h ++ [x])
  = scheduled_on l h ++ match x with SSched l' ids => if Nat.eqb l l' then ids else [] | _ => [] end.
Proof. unfold scheduled_on. rewrite flat_map_app. cbn. now rewrite app_nil_r. Qed.
Lemma coll_snoc l h (x : sop X) : collected_on l (h ++ [x])
  = collected_on l h ++ match x with SSave ok _ => dlist ok l | _ => [] end.
Proof. unfold collected_on. rewrite flat_map_app. cbn. now rewrite app_nil_r. Qed.

Lemma times_snoc l h (x : sop X) : time_records l (h ++ [x])
  = time_records l h ++ match x with SOps ts => match dget ts l with Some r => [r] | None => [] end | _ => [] end.
Proof. unfold time_records. rewrite flat_map_app. cbn. now rewrite app_nil_r. Qed.
Lemma nops_snoc rs r : nops_of (rs ++ [r]) = Some (add_record (match nops_of rs with None => (0%Q, 0%Q) | Some c => c end) r).
Proof. unfold nops_of. destruct rs as [|x rs]; [reflexivity|]. cbn [app]. f_equal. rewrite app_comm_cons, fold_left_app. reflexivity. Qed.

Lemma append_successful_eq (s : list (pystr * pairx)) (g : G) : append_successful s g =
  mkLG (g_sched g) (g_cids g ++ map fst s)
    (Some (match g_cvals g with None => [] | Some v => v end ++ map snd s)) (g_failed g) (g_nops g).
Proof.
  destruct g as [a b c d e]. unfold append_successful, succ_writes. cbn [fold_left write_ids make_values write_values g_sched g_cids g_cvals g_failed g_nops].
  destruct c; reflexivity.
Qed.

Lemma saved_holds l h g ok bad : holds l h g -> holds l (h ++ [SSave ok bad]) (saved ok bad l g).
Proof.
  intros [H1 H2 H3 H4 H5]. unfold saved.
  assert (B : let g1 := app_level append_successful (dlist ok l) g in
     g_sched g1 = g_sched g /\ g_cids g1 = map fst (collected_on l h ++ dlist ok l)
     /\ g_cvals g1 = vals_of (collected_on l h ++ dlist ok l) /\ g_failed g1 = g_failed g /\ g_nops g1 = g_nops g).
  { cbv zeta. unfold app_level. destruct (dlist ok l) as [|x s].
    - rewrite app_nil_r. auto.
    - rewrite append_successful_eq. cbn [g_sched g_cids g_cvals g_failed]. rewrite H2, H3, map_app. ands; auto.
      unfold vals_of. destruct (collected_on l h) as [|y c]; [reflexivity|]. cbn [app]. now rewrite app_comm_cons, map_app. }
  cbv zeta in B. destruct B as (B1 & B2 & B3 & B4 & B5).
  set (g1 := app_level append_successful (dlist ok l) g) in *.
  assert (C : g_sched (app_level append_failed (dlist bad l) g1) = g_sched g1
     /\ g_cids (app_level append_failed (dlist bad l) g1) = g_cids g1
     /\ g_cvals (app_level append_failed (dlist bad l) g1) = g_cvals g1
     /\ g_failed (app_level append_failed (dlist bad l) g1) = g_failed g1 ++ dlist bad l
     /\ g_nops (app_level append_failed (dlist bad l) g1) = g_nops g1).
  { unfold app_level. destruct (dlist bad l); cbn; rewrite ?app_nil_r; auto. }
  destruct C as (C1 & C2 & C3 & C4 & C5).
  split; rewrite ?sched_snoc, ?coll_snoc, ?failed_snoc, ?times_snoc, ?C1, ?C2, ?C3, ?C4, ?C5, ?B1, ?B2, ?B3, ?B4, ?B5, ?H1, ?H4, ?H5, ?app_nil_r; auto.
Qed.

Lemma hdf_step_SInv L h o f x : SInv L h o f -> good_op L x ->
  exists o' f', hdf_step (o, f) x = ((o', f'), Ok tt) /\ SInv L (h ++ [x]) o' f'
    /\ o_groups o' = o_groups o.
Proof.
  intros (gs & HF & Hg) Hx. destruct x as [l ids|ok bad|ts| |]; cbn [hdf_step].
  - destruct (Full_nth _ _ _ _ _ HF Hx) as [g Eg].
    destruct (save_scheduled_Full L o f gs l ids g HF Eg) as (f' & gs' & E & HF' & H'). rewrite E.
    exists o, f'. ands; auto. exists gs'. split; auto. intros k gk Hk. rewrite H' in Hk.
    destruct (Nat.eqb_spec k l) as [e|N].
    + subst k. injection Hk as <-. destruct (Hg _ _ Eg) as [A B C D F].
      split; rewrite ?sched_snoc, ?coll_snoc, ?failed_snoc, ?times_snoc, ?Nat.eqb_refl, ?app_nil_r; cbn; congruence.
    + destruct (Hg _ _ Hk) as [A B C D F]. apply Nat.eqb_neq in N.
      split; rewrite ?sched_snoc, ?coll_snoc, ?failed_snoc, ?times_snoc, ?N, ?app_nil_r; auto.
  - destruct Hx as [[N1 K1] [N2 K2]].
    destruct (save_samples_Full L o f gs ok bad HF N1 K1 N2 K2) as (f' & gs' & E & HF' & H'). rewrite E.
    exists o, f'. ands; auto. exists gs'. split; auto. intros k gk Hk.
    assert (Hlt : k < length gs).
    { destruct HF as (_ & _ & ->). destruct HF' as (_ & _ & <-). apply nth_error_Some. congruence. }
    apply nth_error_Some in Hlt. destruct (nth_error gs k) as [g|] eqn:Eg; [|congruence].
    rewrite (H' _ _ Eg) in Hk. injection Hk as <-. apply saved_holds; auto.
  - destruct Hx as [N1 K1].
    destruct (save_n_ops_Full L o f gs ts HF N1 K1) as (f' & gs' & E & HF' & H'). rewrite E.
    exists o, f'. ands; auto. exists gs'. split; auto. intros k gk Hk.
    assert (Hlt : k < length gs).
    { destruct HF as (_ & _ & ->). destruct HF' as (_ & _ & <-). apply nth_error_Some. congruence. }
    apply nth_error_Some in Hlt. destruct (nth_error gs k) as [g|] eqn:Eg; [|congruence].
    rewrite (H' _ _ Eg) in Hk. injection Hk as <-. destruct (Hg _ _ Eg) as [A B C D F].
    split; rewrite ?sched_snoc, ?coll_snoc, ?failed_snoc, ?times_snoc, ?app_nil_r; destruct (dget ts k) as [[t n]|] eqn:Ek; rewrite ?app_nil_r; auto.
    rewrite nops_snoc, <- F. unfold add_n_ops, add_record. cbn [g_nops snd fst]. destruct n; reflexivity.
  - destruct (clear_failed_Full L o f gs HF) as (f' & E & HF'). rewrite E.
    exists o, f'. ands; auto. exists (map clear_failed_group gs). split; auto. intros k gk Hk.
    rewrite nth_error_map in Hk. destruct (nth_error gs k) as [g|] eqn:Eg; [|discriminate].
    injection Hk as <-. destruct (Hg _ _ Eg) as [A B C D F].
    split; rewrite ?sched_snoc, ?coll_snoc, ?failed_snoc, ?times_snoc, ?app_nil_r; auto.
  - rewrite (hdf_open_Full L o f gs HF). eexists _, f. split; [reflexivity|]. split.
    + exists gs. split; [destruct HF as (_ & B & C); unfold Full; auto|]. intros k gk Hk. destruct (Hg _ _ Hk) as [A B C D F].
      split; rewrite ?sched_snoc, ?coll_snoc, ?failed_snoc, ?times_snoc, ?app_nil_r; auto.
    + destruct HF as (-> & _). reflexivity.
Qed.

Lemma hdf_run_SInv L h : Forall (good_op L) h ->
  exists o f, hdf_run L h = ((o, f), Ok tt) /\ SInv L h o f.
Proof.
  intros Hh. unfold hdf_run. destruct (@save_global_fresh pairx no_file L) as (o0 & f0 & E0 & HF0). rewrite E0. cbn [fst].
  assert (H : forall h1 h2 o f, SInv L h1 o f -> Forall (good_op L) h2 ->
     exists o' f', sfor h2 (fun x s => hdf_step s x) (o, f) = ((o', f'), Ok tt) /\ SInv L (h1 ++ h2) o' f').
  { intros h1 h2. revert h1. induction h2 as [|x h2 IH]; intros h1 o f HI Hf.
    - exists o, f. rewrite app_nil_r. auto.
    - inversion_clear Hf. destruct (hdf_step_SInv L h1 o f x HI) as (o1 & f1 & E1 & HI1 & _); auto.
      cbn [sfor]. unfold sbind. rewrite E1. destruct (IH _ _ _ HI1) as (o2 & f2 & E2 & HI2); auto.
      exists o2, f2. rewrite <- app_assoc in HI2. auto. }
  apply (H [] h o0 f0); auto. exists (repeat empty_group L). split; auto.
  intros l g Hg. apply nth_error_In, repeat_spec in Hg. subst g. split; reflexivity.
Qed.

Lemma SInv_level L h o f l : SInv L h o f -> l < L -> exists g, get_group o f l = Ok (l, g) /\ holds l h g.
Proof.
  intros (gs & HF & Hg) Hl. destruct (Full_nth _ _ _ _ _ HF Hl) as [g Eg]. exists g. split; auto.
  eapply Full_get; eauto.
Qed.

Lemma index_seq {A} (k : nat -> A) n : forall i, index_from i (map k (seq i n)) = map (fun l => (l, k l)) (seq i n).
Proof. induction n as [|n IH]; intros i; cbn; auto. now rewrite IH. Qed.

(** Reads *)
Lemma holds_map {A} L h o f (k : G -> A) (k' : nat -> A) : SInv L h o f ->
  (forall l g, holds l h g -> k g = k' l) ->
  forall gs, Full L o f gs -> (forall l g, nth_error gs l = Some g -> holds l h g) -> map k gs = map k' (seq 0 L).
Proof.
  intros _ Hk gs (_ & _ & Hl) Hg. apply nth_error_ext. intros i. rewrite !nth_error_map, nth_error_seq.
  destruct (nth_error gs i) as [g|] eqn:Eg.
  - assert (i < L) by (rewrite <- Hl; apply nth_error_Some; congruence).
    destruct (Nat.ltb_spec i L); [|lia]. cbn. f_equal. apply Hk. auto.
  - apply nth_error_None in Eg. destruct (Nat.ltb_spec i L); [lia|reflexivity].
Qed.

Lemma hdf_n_finished L h o f : SInv L h o f ->
  n_finished o f = Ok (map (fun l => length (collected_on l h) + length (failed_on l h)) (seq 0 L)).
Proof.
  intros HI. destruct HI as (gs & HF & Hg). rewrite (n_finished_Full _ _ _ _ HF). f_equal.
  apply (holds_map L h o f); eauto; [exists gs; auto|].
  intros l g [H1 H2 H3 H4 H5]. unfold finished_ids. rewrite app_length, H2, H4, !map_length. reflexivity.
Qed.

Lemma hdf_load_scheduled L h o f : SInv L h o f ->
  load_scheduled o f = Ok (map (fun l => (l, scheduled_on l h)) (seq 0 L)).
Proof.
  intros (gs & HF & Hg). rewrite (load_scheduled_Full _ _ _ _ HF). f_equal.
  assert (E : map g_sched gs = map (fun l => scheduled_on l h) (seq 0 L)).
  { apply (holds_map L h o f); eauto; [exists gs; auto|]. intros l g [H1 _ _ _ _]. auto. }
  rewrite E. apply index_seq.
Qed.

Lemma hdf_failed_samples L h o f : SInv L h o f ->
  failed_samples o f = Ok (map (fun l => (l, map fst (failed_on l h))) (seq 0 L)).
Proof.
  intros (gs & HF & Hg). rewrite (failed_samples_Full _ _ _ _ HF). f_equal.
  assert (E : map (fun g => map fst (g_failed g)) gs = map (fun l => map fst (failed_on l h)) (seq 0 L)).
  { apply (holds_map L h o f); eauto; [exists gs; auto|]. intros l g [_ _ _ H4 _]. now rewrite H4. }
  rewrite E. apply index_seq.
Qed.

Lemma hdf_n_collected L h o f : SInv L h o f ->
  get_n_collected o f = Ok (map (fun l => match collected_on l h with [] => None | c => Some (length c) end) (seq 0 L)).
Proof.
  intros (gs & HF & Hg). unfold get_n_collected. rewrite (groups_of_Full _ _ _ _ HF). cbn [bind].
  pose proof HF as (Ho & _ & Hl). rewrite Ho, seq_length, <- Hl.
  assert (H : forall (gs0 : list G) pre, fold_left (fun r x => bind r (fun a =>
        if Nat.ltb (fst x) (length a)
        then Ok (upd a (fst x) (fun _ => option_map (@length _) (g_cvals (snd x))))
        else Err IndexError)) (index_from (length pre) gs0) (Ok (pre ++ repeat (Some 0) (length gs0)))
     = Ok (pre ++ map (fun g => option_map (@length _) (g_cvals g)) gs0)).
  { induction gs0 as [|g gs0 IH]; intros pre; cbn [index_from fold_left map length repeat]; auto.
    cbn [bind fst snd]. rewrite app_length. cbn [length].
    destruct (Nat.ltb_spec (length pre) (length pre + S (length (repeat (Some 0) (length gs0))))); [|lia].
    rewrite upd_app_r. specialize (IH (pre ++ [option_map (@length _) (g_cvals g)])).
    rewrite <- !app_assoc, app_length in IH. cbn [app length] in IH. rewrite Nat.add_1_r in IH. exact IH. }
  specialize (H gs []). cbn [app length] in H. rewrite H. f_equal. rewrite Hl.
  apply (holds_map L h o f); eauto; [exists gs; auto|].
  intros l g [_ _ H3 _ _]. rewrite H3. unfold vals_of. destruct (collected_on l h) as [|x c]; cbn; auto. now rewrite map_length.
Qed.

(** C13 *)
Definition unfinished_on (h : H_) (l : nat) (id : pystr) : Prop :=
  In id (scheduled_on l h) /\ ~ In id (map fst (collected_on l h)) /\ ~ In id (map fst (failed_on l h)).

Lemma unfinished_level_spec l h g : holds l h g ->
  NoDup (unfinished_level g) /\ forall id, In id (unfinished_level g) <-> unfinished_on h l id.
Proof.
  intros [H1 H2 H3 H4 H5]. unfold unfinished_level. split.
  - apply NoDup_filter, NoDup_nodup.
  - intros id. rewrite filter_In, nodup_In, H1. unfold finished_ids, mem_str, unfinished_on.
    destruct (in_dec pystr_eq_dec id (g_cids g ++ map fst (g_failed g))) as [Hi|Hi]; rewrite in_app_iff, H2, H4 in Hi; cbn; intuition (auto; discriminate).
Qed.

Lemma hdf_unfinished L h o f : SInv L h o f ->
  exists per_level : list (list pystr), unfinished_ids o f = Ok (concat per_level)
    /\ length per_level = L
    /\ forall l ids, nth_error per_level l = Some ids -> NoDup ids /\ forall id, In id ids <-> unfinished_on h l id.
Proof.
  intros (gs & HF & Hg). exists (map unfinished_level gs). rewrite (unfinished_ids_Full _ _ _ _ HF), flat_map_concat_map.
  ands; auto.
  - rewrite map_length. apply HF.
  - intros l ids Hl. rewrite nth_error_map in Hl. destruct (nth_error gs l) as [g|] eqn:Eg; [|discriminate].
    injection Hl as <-. apply unfinished_level_spec. auto.
Qed.

Lemma concat_NoDup {A} (ls : list (list A)) : (forall i l, nth_error ls i = Some l -> NoDup l) ->
  (forall i j l l' x, nth_error ls i = Some l -> nth_error ls j = Some l' -> In x l -> In x l' -> i = j) -> NoDup (concat ls).
Proof.
  induction ls as [|l ls IH]; intros H1 H2; cbn; [constructor|]. apply NoDup_app_iff. ands.
  - apply (H1 0). reflexivity.
  - apply IH; [intros i; apply (H1 (S i))|]. intros i j a b x Ha Hb Hx Hy. specialize (H2 (S i) (S j) a b x Ha Hb Hx Hy). lia.
  - intros x Hx Hc. apply in_concat in Hc as (l' & Hl' & Hx'). apply In_nth_error in Hl' as [j Hj].
    specialize (H2 0 (S j) l l' x eq_refl Hj Hx Hx'). lia.
Qed.

Lemma hdf_unfinished_all L h o f : SInv L h o f ->
  (forall l l' id, In id (scheduled_on l h) -> In id (scheduled_on l' h) -> l = l') ->
  exists u, unfinished_ids o f = Ok u /\ NoDup u
    /\ (forall id, In id u <-> exists l, l < L /\ unfinished_on h l id)
    /\ (u = [] <-> forall l id, l < L -> In id (scheduled_on l h) ->
                     In id (map fst (collected_on l h)) \/ In id (map fst (failed_on l h))).
Proof.
  intros HI Hd. destruct (hdf_unfinished _ _ _ _ HI) as (pl & E & Hl & Hp). exists (concat pl).
  assert (Hin : forall id, In id (concat pl) <-> exists l, l < L /\ unfinished_on h l id).
  { intros id. rewrite in_concat. split.
    - intros (ids & A & B). apply In_nth_error in A as [l A]. exists l. split.
      + rewrite <- Hl. apply nth_error_Some. congruence.
      + now apply (Hp l ids A).
    - intros (l & A & B). rewrite <- Hl in A. apply nth_error_Some in A.
      destruct (nth_error pl l) as [ids|] eqn:En; [|congruence]. exists ids. split; [eapply nth_error_In; eauto|].
      now apply (Hp l ids En). }
  ands; auto.
  - apply concat_NoDup.
    + intros i l Hi. apply (Hp i l Hi).
    + intros i j l l' x Hi Hj Hx Hy. apply (Hp i l Hi) in Hx as [Hx _]. apply (Hp j l' Hj) in Hy as [Hy _]. eauto.
  - split.
    + intros K l id Hll Hs. destruct (in_dec pystr_eq_dec id (map fst (collected_on l h))); auto.
      destruct (in_dec pystr_eq_dec id (map fst (failed_on l h))); auto. exfalso.
      assert (In id (concat pl)) by (apply Hin; exists l; unfold unfinished_on; auto). rewrite K in H. destruct H.
    + intros K. destruct (concat pl) as [|x u] eqn:Ec; auto. exfalso.
      assert (Hx : In x (x :: u)) by now left. apply Hin in Hx as (l & A & B & C & D). destruct (K l x A B); contradiction.
Qed.

(** C19 *)
Lemma skipn_skipn' {A} (l : list A) : forall a b, skipn a (skipn b l) = skipn (b + a) l.
Proof. intros a b. revert l. induction b as [|b IH]; intros l; [reflexivity|]. destruct l; cbn; [now rewrite skipn_nil|apply IH]. Qed.
Lemma iter_chunks_concat {A} (vs : list A) c : 0 < c -> forall fuel start, length vs - start <= fuel ->
  concat (map (fun s => slice vs (fst s) (snd s)) (iter_chunks fuel c start (length vs))) = skipn start vs.
Proof.
  intros Hc. induction fuel as [|fuel IH]; intros start Hf; cbn [iter_chunks].
  - cbn. symmetry. apply skipn_all2. lia.
  - destruct (Nat.ltb_spec start (length vs)) as [Hs|Hs]; [|cbn; symmetry; now apply skipn_all2].
    cbn [map concat fst snd]. rewrite IH by lia. unfold slice.
    rewrite <- (firstn_skipn (Nat.min (start + c) (length vs) - start) (skipn start vs)) at 2. f_equal.
    rewrite skipn_skipn'. destruct (Nat.le_gt_cases (start + c) (length vs)) as [H|H].
    + rewrite Nat.min_l by auto. f_equal. lia.
    + rewrite Nat.min_r by lia. rewrite !skipn_all2; auto; lia.
Qed.

Lemma number_map {A B C} (k : nat -> A -> B) (g : B -> C) (l : list A) : forall i,
  map g (number k i l) = number (fun j x => g (k j x)) i l.
Proof. induction l as [|x l IH]; intros i; cbn; auto. now rewrite IH. Qed.
Lemma number_const {A B} (k : A -> B) (l : list A) : forall i, number (fun _ x => k x) i l = map k l.
Proof. induction l as [|x l IH]; intros i; cbn; auto. now rewrite IH. Qed.

Definition row (d : X) (lid m : nat) (v : pairx) : list X :=
  if Nat.eqb lid 0 then [nth m (fst v) d] else [nth m (fst v) d; nth m (snd v) d].

Lemma transpose_nth d M lid rows m : m < M ->
  nth_error (transpose d M lid rows) m = Some (map (row d lid m) rows).
Proof.
  intros H. unfold transpose. rewrite nth_error_map, nth_error_seq. destruct (Nat.ltb_spec m M); [|lia].
  reflexivity.
Qed.

Lemma hdf_chunks L h o f l c : SInv L h o f -> l < L -> 0 < c -> collected_on l h <> [] ->
  exists g cs, get_group o f l = Ok (l, g) /\ chunks c l g None = Ok cs
    /\ (forall i s, nth_error cs i = Some s -> c_id s = i /\ c_level s = l /\ c_start s < c_stop s)
    /\ concat (map (fun s => match collected_slice g (c_start s) (c_stop s) with Some r => r | None => [] end) cs)
       = map snd (collected_on l h)
    /\ forall d M m, m < M ->
       exists rows, Forall2 (fun s r => exists t, sample_pairs_level d M o f s = Ok t /\ length t = M /\ nth_error t m = Some r) cs rows
         /\ concat rows = map (fun x => row d l m (snd x)) (collected_on l h).
Proof.
  intros HI Hl Hc Hne. destruct (SInv_level _ _ _ _ _ HI Hl) as (g & Hg & Hh). exists g.
  pose proof (ho_cvals _ _ _ Hh) as Hv. unfold vals_of in Hv.
  assert (Hv' : g_cvals g = Some (map snd (collected_on l h))) by (destruct (collected_on l h); congruence).
  clear Hv. unfold chunks. rewrite Hv'. eexists. ands; [auto|reflexivity| | |].
  - set (vs := map snd (collected_on l h)).
    assert (Hst : forall fuel start s, In s (iter_chunks fuel c start (length vs)) -> fst s < snd s).
    { induction fuel as [|fuel IH]; intros start s Hs; cbn [iter_chunks] in Hs; [destruct Hs|].
      destruct (Nat.ltb_spec start (length vs)); [|destruct Hs]. destruct Hs as [<-|Hs]; [cbn; lia|eauto]. }
    specialize (Hst (length vs) 0). revert Hst. generalize (iter_chunks (length vs) c 0 (length vs)). intros its Hst.
    assert (Hnum : forall its i0, (forall s, In s its -> fst s < snd s) -> forall i s,
       nth_error (number (fun i s => mkChunk i (fst s) (snd s) l) i0 its) i = Some s ->
       c_id s = i0 + i /\ c_level s = l /\ c_start s < c_stop s).
    { clear. induction its as [|x its IH]; intros i0 Hs [|i] s Hi; cbn in Hi; try discriminate.
      - injection Hi as <-. cbn. ands; auto. apply Hs. now left.
      - replace (i0 + S i) with (S i0 + i) by lia. apply IH; auto. intros y Hy. apply Hs. now right. }
    intros i s Hi. apply (Hnum its 0); auto.
  - rewrite number_map. rewrite (number_const (fun s => match collected_slice g (fst s) (snd s) with Some r => r | None => [] end)).
    unfold collected_slice. rewrite Hv'. cbn [option_map].
    rewrite iter_chunks_concat by lia. reflexivity.
  - intros d M m Hm. set (vs := map snd (collected_on l h)) in *.
    exists (map (fun s => map (row d l m) (slice vs (fst s) (snd s))) (iter_chunks (length vs) c 0 (length vs))). split.
    + generalize (iter_chunks (length vs) c 0 (length vs)). generalize 0 as i0. intros i0 its. revert i0.
      induction its as [|x its IH]; intros i0; cbn [number map]; constructor; auto.
      unfold sample_pairs_level. cbn [c_level c_start c_stop]. rewrite Hg. cbn [bind snd].
      unfold collected_slice. rewrite Hv'. cbn [option_map]. eexists. split; [reflexivity|]. split.
      * unfold transpose. now rewrite map_length, seq_length.
      * now apply transpose_nth.
    + rewrite <- (map_map (fun s => slice vs (fst s) (snd s)) (map (row d l m))), <- concat_map, iter_chunks_concat by lia.
      unfold vs. cbn [skipn]. now rewrite map_map.
Qed.

Lemma hdf_first_n L h o f l c n : SInv L h o f -> l < L -> collected_on l h <> [] ->
  exists g s, get_group o f l = Ok (l, g) /\ chunks c l g (Some n) = Ok [s]
    /\ collected_slice g (c_start s) (c_stop s) = Some (firstn n (map snd (collected_on l h)))
    /\ forall d M m, m < M -> exists t, sample_pairs_level d M o f s = Ok t /\ length t = M
         /\ nth_error t m = Some (map (fun x => row d l m (snd x)) (firstn n (collected_on l h))).
Proof.
  intros HI Hl Hne. destruct (SInv_level _ _ _ _ _ HI Hl) as (g & Hg & Hh). exists g.
  pose proof (ho_cvals _ _ _ Hh) as Hv. unfold vals_of in Hv.
  assert (Hv' : g_cvals g = Some (map snd (collected_on l h))) by (destruct (collected_on l h); congruence).
  unfold chunks. rewrite Hv'. eexists. ands; [auto|reflexivity| |].
  - unfold collected_slice, slice. rewrite Hv'. cbn [c_start c_stop option_map skipn]. now rewrite Nat.sub_0_r.
  - intros d M m Hm. unfold sample_pairs_level. cbn [c_level c_start c_stop]. rewrite Hg. cbn [bind snd].
    unfold collected_slice, slice. rewrite Hv'. cbn [option_map skipn]. rewrite Nat.sub_0_r. eexists. ands; [reflexivity| |].
    + unfold transpose. now rewrite map_length, seq_length.
    + rewrite transpose_nth by auto. f_equal. rewrite firstn_map, map_map. reflexivity.
Qed.

Lemma hdf_empty_level L h o f l c n d M k a b : SInv L h o f -> l < L -> collected_on l h = [] ->
  exists g, get_group o f l = Ok (l, g) /\ chunks c l g n = Err AttributeError
    /\ exists e, sample_pairs_level d M o f (mkChunk k a b l) = Err e.
Proof.
  intros HI Hl He. destruct (SInv_level _ _ _ _ _ HI Hl) as (g & Hg & Hh). exists g.
  pose proof (ho_cvals _ _ _ Hh) as Hv. rewrite He in Hv. cbn in Hv. unfold chunks, sample_pairs_level, collected_slice.
  cbn [c_level c_start c_stop]. rewrite Hg. cbn [bind snd]. rewrite Hv. cbn [option_map]. eauto.
Qed.

End Proofs.
