From Verif Require Import Base BaseFacts HdfModel HdfProofs StoreModel StoreSpec StoreProofs.

Section Mem.
Context {X : Type}.
Notation pairx := (list X * list X)%type.
Notation H_ := (list (sop X)).

Record view := mkView {
  v_results : option (list pairx); v_ids : list pystr; v_failed : list (pystr * pystr);
  v_sched : list pystr; v_nfin : option nat }.
Definition vw (m : memory X) (l : nat) : view :=
  mkView (dget (m_results m) l) (dlist (m_ids m) l) (dlist (m_failed m) l) (dlist (m_sched m) l) (dget (m_nfin m) l).

Definition v_ok (s : list (pystr * pairx)) (v : view) : view :=
  mkView (Some (match v_results v with None => [] | Some r => r end ++ map snd s)) (v_ids v ++ map fst s)
    (v_failed v) (v_sched v) (Some (match v_nfin v with None => 0 | Some n => n end + length s)).
Definition v_bad (s : list (pystr * pystr)) (v : view) : view :=
  mkView (v_results v) (v_ids v) (v_failed v ++ s) (v_sched v)
    (Some (match v_nfin v with None => 0 | Some n => n + length s end)).

Lemma dict_for {A} (P : A -> Prop) (body : nat * A -> st (memory X) unit) (k : A -> view -> view) :
  (forall l x m, P x -> NoDup (dkeys (m_results m)) -> exists m', body (l, x) m = (m', Ok tt) /\ NoDup (dkeys (m_results m'))
      /\ forall i, vw m' i = if Nat.eqb i l then k x (vw m i) else vw m i) ->
  forall (d : dict A) m, NoDup (dkeys d) -> (forall l x, In (l, x) d -> P x) -> NoDup (dkeys (m_results m)) ->
  exists m', sfor d body m = (m', Ok tt) /\ NoDup (dkeys (m_results m'))
    /\ forall i, vw m' i = match dget d i with Some x => k x (vw m i) | None => vw m i end.
Proof.
  intros Hb. induction d as [|[l x] d IH]; intros m Hd HP Hm.
  - exists m. ands; auto.
  - inversion_clear Hd as [|? ? Hl Hd']. destruct (Hb l x m) as (m1 & E1 & N1 & V1); auto; [eapply HP; now left|].
    cbn [sfor]. unfold sbind. rewrite E1. destruct (IH m1) as (m2 & E2 & N2 & V2); auto; [intros l' x' Hx; eapply HP; right; eauto|].
    exists m2. ands; auto. intros i. rewrite V2, V1. cbn [dget].
    destruct (Nat.eqb_spec i l) as [e|N]; auto. subst i. apply dget_None in Hl. cbn [fst] in Hl. now rewrite Hl.
Qed.

Lemma save_ok_view l x m : snd (l, x) <> [] -> NoDup (dkeys (m_results m)) ->
  exists m', mem_save_ok (l, x) m = (m', Ok tt) /\ NoDup (dkeys (m_results m'))
    /\ forall i, vw m' i = if Nat.eqb i l then v_ok x (vw m i) else vw m i.
Proof.
  intros Hx Hm. unfold mem_save_ok. cbn [fst snd] in *. destruct x as [|y s]; [congruence|]. eexists. split; [reflexivity|].
  cbn [m_results]. split.
  - destruct (dget (m_results m) l); now apply dkeys_dset_nodup.
  - intros i. unfold vw, v_ok. cbn [m_results m_ids m_failed m_sched m_nfin v_results v_ids v_failed v_sched v_nfin].
    unfold dextend. destruct (Nat.eqb_spec i l) as [e|N].
    + subst i. rewrite dlist_dset_eq, dget_dset_eq. destruct (dget (m_results m) l); rewrite dget_dset_eq; reflexivity.
    + rewrite dlist_dset_neq, dget_dset_neq by auto. destruct (dget (m_results m) l); rewrite dget_dset_neq by auto; reflexivity.
Qed.

Lemma save_failed_view l x m : NoDup (dkeys (m_results m)) ->
  exists m', mem_save_failed (l, x) m = (m', Ok tt) /\ NoDup (dkeys (m_results m'))
    /\ forall i, vw m' i = if Nat.eqb i l then v_bad x (vw m i) else vw m i.
Proof.
  intros Hm. unfold mem_save_failed. cbn [fst snd] in *. eexists. split; [reflexivity|]. split; [exact Hm|].
  intros i. unfold vw, v_bad. cbn [m_results m_ids m_failed m_sched m_nfin v_results v_ids v_failed v_sched v_nfin].
  unfold dextend. destruct (Nat.eqb_spec i l) as [e|N].
  - subst i. rewrite dlist_dset_eq. destruct (dget (m_nfin m) l); rewrite dget_dset_eq; reflexivity.
  - rewrite dlist_dset_neq by auto. destruct (dget (m_nfin m) l); rewrite dget_dset_neq by auto; reflexivity.
Qed.

Lemma n_ops_view ts m : NoDup (dkeys (m_results m)) -> NoDup (dkeys (m_results (mem_save_n_ops ts m))) /\ forall i, vw (mem_save_n_ops ts m) i = vw m i.
Proof.
  unfold mem_save_n_ops. revert m. induction ts as [|[l [t n]] ts IH]; intros m Hm; cbn [fold_left]; auto.
  match goal with |- context [fold_left _ ts ?m1] => destruct (IH m1) as [A B]; [exact Hm|] end.
  split; [exact A|]. intros i. rewrite B. reflexivity.
Qed.

Record mholds (l : nat) (h : H_) (v : view) : Prop := {
  mh_results : v_results v = vals_of (collected_on l h);
  mh_ids : v_ids v = map fst (collected_on l h);
  mh_failed : v_failed v = failed_on l h;
  mh_sched : v_sched v = scheduled_on l h;
  mh_nfin : if touched l h
            then exists n, v_nfin v = Some n /\ n + first_failures l h = length (collected_on l h) + length (failed_on l h)
            else v_nfin v = None;
  mh_none : touched l h = false -> collected_on l h = [] /\ failed_on l h = [] }.

Lemma existsb_keys {A} (d : dict A) l : existsb (Nat.eqb l) (dkeys d) = match dget d l with Some _ => true | None => false end.
Proof.
  induction d as [|[k x] d IH]; cbn; auto. destruct (Nat.eqb_spec l k); cbn; auto.
Qed.

Lemma touched_snoc l (h : H_) x : touched l (h ++ [x]) = (touched l h || touched l [x])%bool.
Proof. induction h as [|y h IH]; cbn; auto. destruct y; cbn in *; auto. rewrite IH. now rewrite !Bool.orb_assoc. Qed.
Lemma first_failures_snoc l (h : H_) x : first_failures l (h ++ [x]) = if touched l h then first_failures l h else first_failures l [x].
Proof.
  induction h as [|y h IH]; cbn [app first_failures touched]; auto. destruct y; auto.
  destruct (existsb (Nat.eqb l) (dkeys ok)); cbn [orb]; auto. destruct (existsb (Nat.eqb l) (dkeys bad)); cbn [orb]; auto.
Qed.

Lemma mem_save_view ok bad m : NoDup (dkeys ok) -> NoDup (dkeys bad) -> (forall l, In l (dkeys ok) -> dlist ok l <> []) ->
  NoDup (dkeys (m_results m)) ->
  exists m', mem_save_samples ok bad m = (m', Ok tt) /\ NoDup (dkeys (m_results m'))
    /\ forall i, vw m' i = let v := match dget ok i with Some s => v_ok s (vw m i) | None => vw m i end in
                           match dget bad i with Some s => v_bad s v | None => v end.
Proof.
  intros N1 N2 He Hm. unfold mem_save_samples, sbind.
  destruct (dict_for (fun s => s <> []) mem_save_ok v_ok save_ok_view ok m N1) as (m1 & E1 & M1 & V1); auto.
  { intros l x Hx. pose proof (He l) as A. unfold dlist in A. rewrite (In_dget _ _ _ N1 Hx) in A. apply A.
    apply in_map_iff. exists (l, x). auto. }
  rewrite E1.
  destruct (dict_for (fun _ => True) mem_save_failed v_bad (fun l x m _ => save_failed_view l x m) bad m1 N2) as (m2 & E2 & M2 & V2); auto.
  exists m2. ands; auto. intros i. rewrite V2, V1. reflexivity.
Qed.

Definition MInv (h : H_) (m : memory X) : Prop := NoDup (dkeys (m_results m)) /\ forall l, mholds l h (vw m l).

Lemma mem_step_MInv L h m x : MInv h m -> good_op L x -> mem_op x ->
  exists m', mem_step m x = (m', Ok tt) /\ MInv (h ++ [x]) m'.
Proof.
  intros [Hm HV] Hx Ho. destruct x as [l ids|ok bad|ts| |]; cbn [mem_step mem_op] in *; try tauto.
  - eexists. split; [reflexivity|]. split; [exact Hm|]. intros i. destruct (HV i) as [A B C D F K].
    unfold vw, mem_save_scheduled, dextend in *.
    cbn [m_results m_ids m_failed m_sched m_nfin] in *.
    split; rewrite ?touched_snoc, ?sched_snoc, ?coll_snoc, ?failed_snoc, ?first_failures_snoc, ?app_nil_r, ?Bool.orb_false_r;
      cbn [v_results v_ids v_failed v_sched v_nfin touched first_failures] in *; rewrite ?Bool.orb_false_r; auto.
    + destruct (Nat.eqb_spec i l) as [e|N].
      * subst i. rewrite dlist_dset_eq. now rewrite D.
      * rewrite dlist_dset_neq by auto. now rewrite D, app_nil_r.
    + destruct (touched i h); auto.
  - destruct Hx as [[N1 _] [N2 _]]. destruct (mem_save_view ok bad m N1 N2 Ho Hm) as (m' & E & M' & V').
    exists m'. ands; auto. split; auto. intros i. destruct (HV i) as [A B C D F K]. rewrite V'.
    pose proof (Ho i) as Hne.
    split; rewrite ?touched_snoc, ?sched_snoc, ?coll_snoc, ?failed_snoc, ?first_failures_snoc, ?app_nil_r;
      cbn [touched first_failures]; rewrite ?existsb_keys, ?Bool.orb_false_r; unfold dlist in *; rewrite <- ?existsb_keys.
    + destruct (dget ok i) as [s|] eqn:Eo; destruct (dget bad i); cbn [v_ok v_bad v_results]; rewrite ?app_nil_r; auto;
      (assert (Hs : s <> []) by (apply Hne; destruct (in_dec Nat.eq_dec i (dkeys ok)) as [|nn]; auto; apply dget_None in nn; congruence));
      rewrite A; unfold vals_of; destruct (collected_on i h) as [|y c]; cbn [app map]; (destruct s; [congruence|]); auto;
      now rewrite <- map_app.
    + destruct (dget ok i) as [s|] eqn:Eo; destruct (dget bad i); cbn [v_ok v_bad v_ids]; rewrite ?app_nil_r, ?map_app, ?B; auto.
    + destruct (dget ok i) as [s|] eqn:Eo; destruct (dget bad i); cbn [v_ok v_bad v_failed]; rewrite ?app_nil_r, ?C; auto.
    + destruct (dget ok i) as [s|] eqn:Eo; destruct (dget bad i); cbn [v_ok v_bad v_sched]; auto.
    + rewrite !existsb_keys.
      destruct (touched i h) eqn:Et; cbn [orb].
      * destruct F as (n & Fn & Fe).
        destruct (dget ok i) as [s|] eqn:Eo; destruct (dget bad i) as [b|]; cbn [v_ok v_bad v_nfin]; rewrite Fn;
          (eexists; split; [reflexivity|]); rewrite ?app_length; cbn [length]; lia.
      * destruct (K eq_refl) as [K1 K2].
        destruct (dget ok i) as [s|] eqn:Eo; destruct (dget bad i) as [b|]; cbn [v_ok v_bad v_nfin orb]; rewrite ?F, ?K1, ?K2; auto;
          (eexists; split; [reflexivity|]); cbn [app]; rewrite ?app_length; cbn [length]; lia.
    + rewrite !existsb_keys.
      destruct (touched i h) eqn:Et; cbn [orb]; [discriminate|]. destruct (K eq_refl) as [K1 K2].
      destruct (dget ok i) as [s|] eqn:Eo; destruct (dget bad i) as [b|]; cbn [orb]; try discriminate. rewrite K1, K2. auto.
  - eexists. split; [reflexivity|]. destruct (n_ops_view ts m Hm) as [M' V']. split; auto. intros i. rewrite V'.
    destruct (HV i) as [A B C D F K].
    split; rewrite ?touched_snoc, ?sched_snoc, ?coll_snoc, ?failed_snoc, ?first_failures_snoc, ?app_nil_r;
      cbn [touched first_failures]; rewrite ?Bool.orb_false_r; auto.
    destruct (touched i h); auto.
Qed.

Lemma mem_run_MInv L h : Forall (good_op L) h -> Forall mem_op h ->
  exists m, mem_run h = (m, Ok tt) /\ MInv h m.
Proof.
  intros H1 H2. unfold mem_run.
  assert (H : forall h1 h2 m, MInv h1 m -> Forall (good_op L) h2 -> Forall mem_op h2 ->
     exists m', sfor h2 (fun x m => mem_step m x) m = (m', Ok tt) /\ MInv (h1 ++ h2) m').
  { intros h1 h2. revert h1. induction h2 as [|x h2 IH]; intros h1 m HI Hf Hf'.
    - exists m. rewrite app_nil_r. auto.
    - inversion_clear Hf. inversion_clear Hf'. destruct (mem_step_MInv L h1 m x HI) as (m1 & E1 & HI1); auto.
      cbn [sfor]. unfold sbind. rewrite E1. destruct (IH _ _ HI1) as (m2 & E2 & HI2); auto.
      exists m2. rewrite <- app_assoc in HI2. auto. }
  apply (H [] h mem_new); auto. split; [constructor|]. intros l. split; cbn; auto.
Qed.

(** Reads of the in-memory storage. *)
Lemma MInv_results h m l : MInv h m -> dget (m_results m) l = vals_of (collected_on l h).
Proof. intros [_ H]. apply (mh_results _ _ _ (H l)). Qed.
Lemma MInv_sched h m l : MInv h m -> dlist (mem_load_scheduled m) l = scheduled_on l h.
Proof. intros [_ H]. apply (mh_sched _ _ _ (H l)). Qed.

Lemma mem_n_finished_spec h m v l : MInv h m -> mem_n_finished m = Ok v -> l < length v ->
  exists e, nth_error v l = Some e
    /\ if touched l h then exists n, e = Some n /\ n + first_failures l h = length (collected_on l h) + length (failed_on l h)
       else e = None.
Proof.
  intros [_ HV] E Hl. unfold mem_n_finished in E. destruct (m_nfin m) as [|x d] eqn:En; [discriminate|]. rewrite <- En in E.
  apply (f_equal (fun r => match r with Ok a => a | Err _ => [] end)) in E. cbv beta iota in E. subst v.
  rewrite map_length, seq_length in Hl. rewrite nth_error_map, nth_error_seq.
  destruct (Nat.ltb_spec l (S (list_max (dkeys (m_nfin m))))) as [_|]; [|lia]. cbn [option_map plus].
  eexists. split; [reflexivity|]. exact (mh_nfin _ _ _ (HV l)).
Qed.
Lemma mem_n_finished_len h m l : MInv h m -> touched l h = true -> exists v, mem_n_finished m = Ok v /\ l < length v.
Proof.
  intros [_ HV] Ht. pose proof (mh_nfin _ _ _ (HV l)) as F. rewrite Ht in F. destruct F as (n & Fn & _). cbn in Fn.
  unfold mem_n_finished. destruct (m_nfin m) as [|x d] eqn:En; [discriminate|]. rewrite <- En in *. eexists. split; [reflexivity|].
  rewrite map_length, seq_length. assert (In l (dkeys (m_nfin m))).
  { destruct (in_dec Nat.eq_dec l (dkeys (m_nfin m))) as [|nn]; auto. apply dget_None in nn. congruence. }
  pose proof (proj1 (list_max_le (dkeys (m_nfin m)) _) (le_n _)) as Hm. rewrite Forall_forall in Hm. apply Hm in H. lia.
Qed.

Lemma mem_n_collected_spec h m K : MInv h m -> (forall l, collected_on l h <> [] <-> l < K) ->
  mem_get_n_collected m = Ok (map (fun l => length (collected_on l h)) (seq 0 K)).
Proof.
  intros HI HK. pose proof HI as [Hd _].
  assert (Hin : forall l, In l (dkeys (m_results m)) <-> l < K).
  { intros l. rewrite <- HK. pose proof (MInv_results h m l HI) as E. unfold vals_of in E.
    destruct (in_dec Nat.eq_dec l (dkeys (m_results m))) as [i|n].
    - split; auto. intros _ C. rewrite C in E. apply dget_None in E. contradiction.
    - split; [contradiction|]. apply dget_None in n. rewrite n in E. destruct (collected_on l h); [congruence|discriminate]. }
  assert (Hlen : length (m_results m) = K).
  { rewrite <- (map_length fst). apply Nat.le_antisymm.
    - rewrite <- (seq_length K 0). apply NoDup_incl_length; auto. intros l Hl. apply in_seq. apply Hin in Hl. lia.
    - rewrite <- (seq_length K 0). apply NoDup_incl_length; [apply seq_NoDup|]. intros l Hl. apply in_seq in Hl. apply Hin. lia. }
  unfold mem_get_n_collected. rewrite Hlen.
  assert (H : forall ks (a : list nat), length a = K -> (forall l, In l ks -> l < K) ->
     exists b, fold_left (fun r l => bind r (fun a =>
        if Nat.ltb l (length a) then Ok (upd a l (fun _ => length (dlist (m_results m) l))) else Err IndexError)) ks (Ok a) = Ok b
       /\ length b = K /\ forall i, nth_error b i = if existsb (Nat.eqb i) ks then (if Nat.ltb i K then Some (length (dlist (m_results m) i)) else None) else nth_error a i).
  { induction ks as [|k ks IH]; intros a Ha Hk; cbn [fold_left].
    - exists a. ands; auto.
    - cbn [bind]. rewrite Ha. assert (k < K) by (apply Hk; now left). destruct (Nat.ltb_spec k K); [|lia].
      destruct (IH (upd a k (fun _ => length (dlist (m_results m) k)))) as (b & E & Hb & Hn).
      { now rewrite upd_length. } { intros l Hl. apply Hk. now right. }
      exists b. ands; auto. intros i. rewrite Hn. cbn [existsb]. destruct (Nat.eqb_spec i k) as [e|N]; cbn [orb].
      + subst i. destruct (existsb (Nat.eqb k) ks); auto. rewrite nth_error_upd_eq.
        destruct (Nat.ltb_spec k K); [|lia]. destruct (nth_error a k) eqn:Ea; [reflexivity|]. apply nth_error_None in Ea. lia.
      + destruct (existsb (Nat.eqb i) ks); auto. now rewrite nth_error_upd_neq by auto. }
  destruct (H (dkeys (m_results m)) (repeat 0 K) (repeat_length _ _)) as (b & E & Hb & Hn); [intros l; apply Hin|].
  rewrite E. f_equal. apply nth_error_ext. intros i. rewrite Hn, nth_error_map, nth_error_seq.
  destruct (Nat.ltb_spec i K) as [Hi|Hi].
  - rewrite existsb_keys. pose proof (proj2 (Hin i) Hi) as Hk. destruct (dget (m_results m) i) as [r|] eqn:Er; [|apply dget_None in Er; contradiction].
    cbn. unfold dlist. rewrite Er. rewrite (MInv_results h m i HI) in Er. unfold vals_of in Er.
    destruct (collected_on i h) as [|y c]; [discriminate|]. replace r with (map snd (y :: c)) by congruence. now rewrite map_length.
  - destruct (existsb (Nat.eqb i) (dkeys (m_results m))); auto. cbn. apply nth_error_None. rewrite repeat_length. lia.
Qed.

Lemma mem_chunk_all h m l n d M : MInv h m -> collected_on l h <> [] ->
  exists s t, mem_chunks m l n = Ok [s] /\ mem_sample_pairs_level d M m s = Ok t /\ length t = M
    /\ forall i, i < M -> nth_error t i = Some (map (fun x => row d l i (snd x))
         (match n with None => collected_on l h | Some k => firstn k (collected_on l h) end)).
Proof.
  intros HI Hne. pose proof (MInv_results h m l HI) as E. unfold vals_of in E.
  assert (E' : dget (m_results m) l = Some (map snd (collected_on l h))) by (destruct (collected_on l h); congruence).
  unfold mem_chunks. rewrite E'. do 2 eexists. split; [reflexivity|].
  unfold mem_sample_pairs_level. cbn [c_level c_start c_stop]. rewrite E'. split; [reflexivity|].
  split; [unfold transpose; now rewrite map_length, seq_length|]. intros i Hi. rewrite transpose_nth by auto. f_equal.
  unfold slice. cbn [skipn]. rewrite Nat.sub_0_r. destruct n as [k|].
  - rewrite map_length. destruct (Nat.le_gt_cases k (length (collected_on l h))) as [H|H].
    + rewrite Nat.min_l by auto. now rewrite firstn_map, map_map.
    + rewrite Nat.min_r by lia. rewrite firstn_all2, (firstn_all2 (n := k)) by (rewrite ?map_length; lia). now rewrite map_map.
  - rewrite firstn_all. now rewrite map_map.
Qed.

End Mem.
