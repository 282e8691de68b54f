From Verif Require Import Base BaseFacts TagModel TagProofs PoolModel PoolProofs HdfModel HdfProofs SamplerModel.

Definition fupd {A} (f : nat -> A) (l : nat) (x : A) : nat -> A := fun k => if Nat.eqb k l then x else f k.
Lemma fupd_eq {A} (f : nat -> A) l x : fupd f l x l = x.
Proof. unfold fupd. now rewrite Nat.eqb_refl. Qed.
Lemma fupd_neq {A} (f : nat -> A) l x k : k <> l -> fupd f l x k = f k.
Proof. unfold fupd. intros. destruct (Nat.eqb_spec k l); congruence. Qed.

Definition tagn (l n : nat) : pystr := sample_tag (N.of_nat l) (N.of_nat n).

Lemma tagn_inj l n l' n' : tagn l n = tagn l' n' -> l = l' /\ n = n'.
Proof. intros H. apply sample_tag_inj in H. lia. Qed.

Section Inv.
Context (E : env) (ps : list (param E)).
Notation pairv := (arr (value E) * arr (value E))%type.
Notation L := (length ps).
Notation S_ := (sampler E).
Notation G := (lgroup pairv).

(** A record of level l is an answer of the simulation of level l at the seed of its id. *)
Definition is_answer (l : nat) (id : pystr) (o : sample_out E) : Prop :=
  exists ls k, nth_error (create_level_sims E ps) l = Some ls
            /\ fst (calculate_sample k id ls 0) = o.
Definition rec_ok (l : nat) (r : pystr * pairv) : Prop :=
  is_answer l (fst r) (SOk (fst (snd r)) (snd (snd r))).
Definition rec_bad (l : nat) (r : pystr * pystr) : Prop := is_answer l (fst r) (SErr (snd r)).

Lemma calculate_sample_fst k id ls t t' :
  fst (@calculate_sample E k id ls t) = fst (calculate_sample k id ls t').
Proof.
  unfold calculate_sample.
  destruct (calculate E k (ls_config ls) (seed_of E id)) as [[f|f] [c|c]|m]; auto.
  now destruct (_ && _)%bool.
Qed.

(** A simulation whose answer does not depend on when it is called. *)
Definition det : Prop := forall k k' c x, calculate E k c x = calculate E k' c x.
(** Does sample id of level l succeed (when first called)? *)
Definition good (l : nat) (id : pystr) : bool :=
  match nth_error (create_level_sims E ps) l with
  | Some ls => match fst (calculate_sample 0 id ls 0) with SOk _ _ => true | SErr _ => false end
  | None => false
  end.

Lemma det_sample k k' id ls t : det -> @calculate_sample E k id ls t = calculate_sample k' id ls t.
Proof. intros H. unfold calculate_sample. now rewrite (H k k'). Qed.

Lemma good_ok l r : det -> rec_ok l r -> good l (fst r) = true.
Proof.
  intros Hd (ls & k & Hls & Hc). unfold good. rewrite Hls, (det_sample 0 k _ _ _ Hd), Hc. reflexivity.
Qed.
Lemma good_bad l r : det -> rec_bad l r -> good l (fst r) = false.
Proof.
  intros Hd (ls & k & Hls & Hc). unfold good. rewrite Hls, (det_sample 0 k _ _ _ Hd), Hc. reflexivity.
Qed.

Definition vals_ok (l : nat) (g : G) : Prop :=
  match g_cvals g with
  | None => g_cids g = []
  | Some vs => length vs = length (g_cids g) /\ Forall (rec_ok l) (combine (g_cids g) vs)
  end.

Record LInv (l n : nat) (g : G) (q : list (pystr * pairv)) (fq : list (pystr * pystr))
    (pend F lost : list pystr) : Prop := {
  li_sched : g_sched g ++ pend = map (tagn l) (seq 0 n);
  li_perm : Permutation (g_sched g ++ pend) (g_cids g ++ F ++ map fst q ++ map fst fq ++ lost);
  li_vals : vals_ok l g;
  li_q : Forall (rec_ok l) q;
  li_fq : Forall (rec_bad l) fq;
  li_bad : Forall (rec_bad l) (g_failed g);
  li_F : Forall (fun id => exists m, rec_bad l (id, m)) F;
  li_det : det -> lost = [] -> g_cids g ++ map fst q = filter (good l) (g_sched g ++ pend) }.

Record Inv (s : S_) (gs : list G) (pend F lost : nat -> list pystr) : Prop := {
  iv_full : Full L (s_obj s) (s_file s) gs;
  iv_sims : s_sims s = create_level_sims E ps;
  iv_len : length (s_nsched s) = L;
  iv_q : NoDup (dkeys (queues (s_pool s))) /\ forall l, In l (dkeys (queues (s_pool s))) -> l < L;
  iv_fq : NoDup (dkeys (failed_queues (s_pool s))) /\ forall l, In l (dkeys (failed_queues (s_pool s))) -> l < L;
  iv_t : NoDup (dkeys (times (s_pool s))) /\ forall l, In l (dkeys (times (s_pool s))) -> l < L;
  iv_run : n_running (s_pool s) = Z.of_nat (qtotal (queues (s_pool s)) + qtotal (failed_queues (s_pool s)));
  iv_lev : forall l g n, nth_error gs l = Some g -> nth_error (s_nsched s) l = Some n ->
           LInv l n g (dlist (queues (s_pool s)) l) (dlist (failed_queues (s_pool s)) l)
                (pend l) (F l) (lost l) }.

Definition none : nat -> list pystr := fun _ => [].
Definition failed_of (gs : list G) (l : nat) : list pystr :=
  match nth_error gs l with Some g => map fst (g_failed g) | None => [] end.
Definition BInv (s : S_) (gs : list G) (lost : nat -> list pystr) : Prop :=
  Inv s gs none (failed_of gs) lost.

Lemma level_sims_length p i (l : list (param E)) : length (level_sims E p i l) = length l.
Proof. revert p i; induction l as [|x l IH]; intros; cbn; auto. Qed.

Lemma level_sims_nth (l : list (param E)) : forall p i k ls,
  nth_error (level_sims E p i l) k = Some ls -> ls_level ls = i + k.
Proof.
  induction l as [|x l IH]; intros p i [|k] ls; cbn; try discriminate.
  - intros [= <-]. cbn. lia.
  - intros H. apply IH in H. lia.
Qed.

Lemma sims_nth l : l < L -> exists ls, nth_error (create_level_sims E ps) l = Some ls /\ ls_level ls = l.
Proof.
  intros H. unfold create_level_sims. rewrite <- (level_sims_length (zero_param E) 0 ps) in H.
  apply nth_error_Some in H.
  destruct (nth_error (level_sims E (zero_param E) 0 ps) l) as [ls|] eqn:Els; [|congruence].
  exists ls. split; auto. now apply level_sims_nth in Els.
Qed.

(** Effect of scheduling one sample in the pool *)
Definition pool_ok (p : pool E) : Prop :=
  (NoDup (dkeys (queues p)) /\ forall l, In l (dkeys (queues p)) -> l < L)
  /\ (NoDup (dkeys (failed_queues p)) /\ forall l, In l (dkeys (failed_queues p)) -> l < L)
  /\ (NoDup (dkeys (times p)) /\ forall l, In l (dkeys (times p)) -> l < L)
  /\ n_running p = Z.of_nat (qtotal (queues p) + qtotal (failed_queues p)).

Lemma pool_schedule_ok p id l ls :
  pool_ok p -> nth_error (create_level_sims E ps) l = Some ls ->
  pool_ok (pool_schedule p id ls) /\
  ((exists v, rec_ok l (id, v)
     /\ (forall k, dlist (queues (pool_schedule p id ls)) k
                   = if Nat.eqb k l then dlist (queues p) l ++ [(id, v)] else dlist (queues p) k)
     /\ failed_queues (pool_schedule p id ls) = failed_queues p)
   \/ (exists m, rec_bad l (id, m)
     /\ (forall k, dlist (failed_queues (pool_schedule p id ls)) k
                   = if Nat.eqb k l then dlist (failed_queues p) l ++ [(id, m)] else dlist (failed_queues p) k)
     /\ queues (pool_schedule p id ls) = queues p)).
Proof.
  intros (Hq & Hf & Ht & Hr) Hls.
  assert (Hl : l < L).
  { rewrite <- (level_sims_length (zero_param E) 0 ps). apply nth_error_Some.
    unfold create_level_sims in Hls. congruence. }
  assert (Hlev : ls_level ls = l).
  { destruct (sims_nth l Hl) as (ls' & H1 & H2). congruence. }
  unfold pool_schedule.
  destruct (calculate_sample (n_calls p) id ls (duration E (n_calls p))) as [o t] eqn:Ec.
  assert (Ho : fst (calculate_sample (n_calls p) id ls 0) = o).
  { rewrite (calculate_sample_fst _ _ _ 0 (duration E (n_calls p))), Ec. reflexivity. }
  assert (HT : NoDup (dkeys (save_running_time (times p) (ls_level ls) t)) /\
               forall k, In k (dkeys (save_running_time (times p) (ls_level ls) t)) -> k < L).
  { split; [apply save_running_time_nodup, Ht|]. intros k Hk.
    apply save_running_time_keys in Hk. destruct Hk as [->|Hk]; [lia|now apply Ht]. }
  assert (HP : forall A (qs : dict (list A)) x, 
      (NoDup (dkeys qs) /\ (forall l, In l (dkeys qs) -> l < L)) ->
      NoDup (dkeys (put qs (ls_level ls) x)) /\ (forall l, In l (dkeys (put qs (ls_level ls) x)) -> l < L)).
  { intros A qs x [H1 H2]. split; [now apply NoDup_put|]. intros k Hk.
    apply dkeys_put in Hk. destruct Hk as [->|Hk]; [lia|auto]. }
  destruct o as [f c|m]; unfold process_result; cbn [queues failed_queues n_running times].
  - split.
    + unfold pool_ok; cbn [queues failed_queues n_running times].
      repeat (split; [solve [auto | apply HP; auto] |]). rewrite qtotal_put. lia.
    + left. exists (f, c). split; [exists ls, (n_calls p); auto|]. split; auto.
      intros k. rewrite Hlev. destruct (Nat.eqb_spec k l) as [->|N].
      * apply dlist_put_eq.
      * apply dlist_put_neq; auto.
  - split.
    + unfold pool_ok; cbn [queues failed_queues n_running times].
      repeat (split; [solve [auto | apply HP; auto] |]). rewrite qtotal_put. lia.
    + right. exists m. split; [exists ls, (n_calls p); auto|]. split; auto.
      intros k. rewrite Hlev. destruct (Nat.eqb_spec k l) as [->|N].
      * apply dlist_put_eq.
      * apply dlist_put_neq; auto.
Qed.

Lemma Inv_pool_ok s gs pend F lost : Inv s gs pend F lost -> pool_ok (s_pool s).
Proof. intros []. unfold pool_ok. auto. Qed.

(** One new sample *)
Lemma schedule_one_Inv s gs pend F lost l :
  Inv s gs pend F lost -> l < L ->
  exists n s', nth_error (s_nsched s) l = Some n /\ schedule_one E l s = (s', Ok (tagn l n))
    /\ Inv s' gs (fupd pend l (pend l ++ [tagn l n])) F lost
    /\ s_nsched s' = upd (s_nsched s) l S /\ s_targets s' = s_targets s /\ s_tint s' = s_tint s
    /\ s_handed s' = s_handed s ++ [tagn l n] /\ s_file s' = s_file s /\ s_obj s' = s_obj s.
Proof.
  intros HI Hl. pose proof (Inv_pool_ok _ _ _ _ _ HI) as Hp.
  destruct HI as [Hfull Hsims Hlen _ _ _ _ Hlev].
  assert (Hn : exists n, nth_error (s_nsched s) l = Some n).
  { rewrite <- Hlen in Hl. apply nth_error_Some in Hl. destruct (nth_error (s_nsched s) l); [eauto|congruence]. }
  destruct Hn as [n Hn]. destruct (sims_nth l Hl) as (ls & Hls & Hlsl).
  unfold schedule_one. rewrite Hn, Hsims, Hls.
  eexists n, _. split; [reflexivity|]. split; [reflexivity|].
  split; [|cbn; ands; reflexivity].
  fold (tagn l n).
  destruct (pool_schedule_ok (s_pool s) (tagn l n) l ls Hp Hls) as [(A1 & A2 & A3 & A4) Hcase].
  constructor; cbn [s_obj s_file s_sims s_nsched s_pool]; auto.
  - now rewrite upd_length.
  - intros k g n' Hg Hn'.
    destruct (Nat.eq_dec k l) as [e|Nkl].
    + subst k. rewrite nth_error_upd_eq, Hn in Hn'. injection Hn' as <-. rewrite fupd_eq.
      destruct (Hlev l g n Hg Hn) as [B1 B2 B3 B4 B5 B6 B7 B8].
      destruct Hcase as [(v & C1 & C2 & C3)|(m & C1 & C2 & C3)].
      * rewrite C3, C2, Nat.eqb_refl. constructor; auto.
        -- rewrite seq_app1, map_app, app_assoc, B1. reflexivity.
        -- rewrite app_assoc, B2, map_app. cbn [map fst]. rewrite <- !app_assoc.
           do 3 apply Permutation_app_head. cbn [app].
           rewrite app_assoc. rewrite Permutation_app_comm. reflexivity.
        -- apply Forall_app; split; auto.
        -- intros Hd Hlost. rewrite map_app, !app_assoc, filter_app, <- (B8 Hd Hlost). cbn [map fst filter].
           pose proof (good_ok l _ Hd C1) as Hg1. cbn [fst] in Hg1. rewrite Hg1. reflexivity.
      * rewrite C3, C2, Nat.eqb_refl. constructor; auto.
        -- rewrite seq_app1, map_app, app_assoc, B1. reflexivity.
        -- rewrite app_assoc, B2, map_app. cbn [map fst]. rewrite <- !app_assoc.
           do 4 apply Permutation_app_head. cbn [app].
           rewrite Permutation_app_comm. reflexivity.
        -- apply Forall_app; split; auto.
        -- intros Hd Hlost. rewrite !app_assoc, filter_app, <- (B8 Hd Hlost). cbn [filter].
           pose proof (good_bad l _ Hd C1) as Hg1. cbn [fst] in Hg1. rewrite Hg1, app_nil_r. reflexivity.
    + rewrite nth_error_upd_neq in Hn' by auto. rewrite fupd_neq by auto.
      pose proof (Hlev k g n' Hg Hn') as HL.
      destruct Hcase as [(v & C1 & C2 & C3)|(m & C1 & C2 & C3)]; rewrite C3, C2;
        destruct (Nat.eqb_spec k l); try congruence; exact HL.
Qed.

Lemma Inv_ext s gs pend pend' F F' lost lost' :
  Inv s gs pend F lost -> (forall l, l < L -> pend l = pend' l) -> (forall l, l < L -> F l = F' l) ->
  (forall l, l < L -> lost l = lost' l) -> Inv s gs pend' F' lost'.
Proof.
  intros [] H1 H2 H3. constructor; auto. intros l g n Hg Hn.
  assert (l < L). { destruct iv_full0 as (_ & _ & Hl). rewrite <- Hl. apply nth_error_Some. congruence. }
  rewrite <- H1, <- H2, <- H3 by auto. auto.
Qed.

Definition bump (v : list nat) (l c : nat) : list nat := upd v l (fun n => n + c).

Lemma upd_upd {A} (v : list A) l f g : upd (upd v l f) l g = upd v l (fun x => g (f x)).
Proof. revert l; induction v as [|x v IH]; intros [|l]; cbn; congruence. Qed.
Lemma upd_ext {A} (v : list A) l f g : (forall x, f x = g x) -> upd v l f = upd v l g.
Proof. intros H; revert l; induction v as [|x v IH]; intros [|l]; cbn; congruence. Qed.
Lemma upd_id {A} (v : list A) l f : (forall x, f x = x) -> upd v l f = v.
Proof. intros H; revert l; induction v as [|x v IH]; intros [|l]; cbn; congruence. Qed.

Lemma schedule_many_Inv c : forall s gs pend F lost l n,
  Inv s gs pend F lost -> l < L -> nth_error (s_nsched s) l = Some n ->
  exists s', schedule_many E l c (pend l) s = (s', Ok (pend l ++ map (tagn l) (seq n c)))
    /\ Inv s' gs (fupd pend l (pend l ++ map (tagn l) (seq n c))) F lost
    /\ s_nsched s' = bump (s_nsched s) l c /\ s_targets s' = s_targets s /\ s_tint s' = s_tint s
    /\ s_handed s' = s_handed s ++ map (tagn l) (seq n c) /\ s_file s' = s_file s /\ s_obj s' = s_obj s.
Proof.
  induction c as [|c IH]; intros s gs pend F lost l n HI Hl Hn; cbn [schedule_many seq map].
  - exists s. rewrite !app_nil_r. ands; auto.
    + eapply Inv_ext; eauto. intros k _. destruct (Nat.eq_dec k l) as [->|N];
        [now rewrite fupd_eq|now rewrite fupd_neq].
    + unfold bump. rewrite upd_id; auto.
  - destruct (schedule_one_Inv _ _ _ _ _ l HI Hl) as (n' & s1 & Hn' & E1 & HI1 & D1 & D2 & D3 & D4 & D5 & D6).
    rewrite Hn in Hn'. injection Hn' as <-.
    assert (Hn1 : nth_error (s_nsched s1) l = Some (S n)) by (rewrite D1, nth_error_upd_eq, Hn; reflexivity).
    destruct (IH s1 gs _ F lost l (S n) HI1 Hl Hn1) as (s2 & E2 & HI2 & G1 & G2 & G3 & G4 & G5 & G6).
    rewrite fupd_eq in E2, HI2. 
    exists s2. unfold sbind. rewrite E1, E2. rewrite <- !app_assoc. cbn [app].
    split; [reflexivity|]. split.
    { eapply Inv_ext; [exact HI2| | |]; auto. intros k _. rewrite <- app_assoc.
      destruct (Nat.eq_dec k l) as [->|N]; [now rewrite !fupd_eq|now rewrite !fupd_neq]. }
    ands; try congruence.
    + rewrite G1, D1. unfold bump. rewrite upd_upd. apply upd_ext. intros; lia.
    + rewrite G4, D4, <- app_assoc. reflexivity.
Qed.

Lemma save_sched_Inv s gs pend F lost l :
  Inv s gs pend F lost -> l < L ->
  exists s' gs', save_sched E l (pend l) s = (s', Ok tt)
    /\ Inv s' gs' (fupd pend l []) F lost
    /\ (forall k, failed_of gs' k = failed_of gs k)
    /\ (forall k g, nth_error gs k = Some g -> exists g', nth_error gs' k = Some g'
          /\ g_sched g' = (if Nat.eqb k l then g_sched g ++ pend l else g_sched g)
          /\ g_cids g' = g_cids g /\ g_cvals g' = g_cvals g /\ g_failed g' = g_failed g)
    /\ s_nsched s' = s_nsched s /\ s_targets s' = s_targets s /\ s_tint s' = s_tint s
    /\ s_handed s' = s_handed s /\ s_pool s' = s_pool s.
Proof.
  intros [Hfull Hsims Hlen Hq Hf Ht Hr Hlev] Hl.
  destruct (Full_nth _ _ _ _ _ Hfull Hl) as [g Hg].
  destruct (save_scheduled_Full _ _ _ _ _ (pend l) _ Hfull Hg) as (f' & gs' & Es & HF' & Hnth).
  unfold save_sched. rewrite Es. eexists _, gs'. split; [reflexivity|].
  split.
  - constructor; cbn [s_obj s_file s_sims s_nsched s_pool set_file]; auto.
    intros k g' n Hg' Hn. rewrite Hnth in Hg'. destruct (Nat.eqb_spec k l) as [e|N].
    + subst k. injection Hg' as <-. rewrite fupd_eq.
      destruct (Hlev l g n Hg Hn) as [B1 B2 B3 B4 B5 B6 B7 B8].
      constructor; cbn [append_scheduled g_sched g_cids g_cvals g_failed]; auto.
      * now rewrite app_nil_r.
      * now rewrite app_nil_r.
      * now rewrite app_nil_r.
    + rewrite fupd_neq by auto. auto.
  - split; [|split; [|cbn; ands; reflexivity]].
    + intros k. unfold failed_of. rewrite Hnth. destruct (Nat.eqb_spec k l); auto. subst. now rewrite Hg.
    + intros k g0 Hg0. rewrite Hnth. destruct (Nat.eqb_spec k l) as [e|N].
      * subst. rewrite Hg in Hg0. injection Hg0 as <-. eexists; split; [reflexivity|]. cbn. auto.
      * eauto 8.
Qed.

Fixpoint bump_all (v : list nat) (plan : list Q) : list nat :=
  match v, plan with
  | n :: v', q :: plan' => (n + Z.to_nat (Qtrunc q)) :: bump_all v' plan'
  | v, _ => v
  end.

Fixpoint new_ids (level : nat) (v : list nat) (plan : list Q) : list pystr :=
  match v, plan with
  | n :: v', q :: plan' => map (tagn level) (seq n (Z.to_nat (Qtrunc q))) ++ new_ids (S level) v' plan'
  | _, _ => []
  end.

Lemma upd_app_mid {A} (pre : list A) x post f :
  upd (pre ++ x :: post) (length pre) f = pre ++ f x :: post.
Proof. induction pre; cbn; congruence. Qed.

Lemma schedule_levels_Inv plan : forall pre post s gs F lost,
  Inv s gs none F lost -> s_nsched s = pre ++ post ->
  exists s' gs', schedule_levels E (length pre) plan s
      = (s', if Nat.leb (length plan) (length post) then Ok tt else Err IndexError)
    /\ Inv s' gs' none F lost
    /\ (forall k, failed_of gs' k = failed_of gs k)
    /\ (forall k g, nth_error gs k = Some g -> exists g' more, nth_error gs' k = Some g'
          /\ g_sched g' = g_sched g ++ more
          /\ g_cids g' = g_cids g /\ g_cvals g' = g_cvals g /\ g_failed g' = g_failed g)
    /\ s_nsched s' = pre ++ bump_all post plan /\ s_targets s' = s_targets s /\ s_tint s' = s_tint s
    /\ s_handed s' = s_handed s ++ new_ids (length pre) post plan.
Proof.
  induction plan as [|q plan IH]; intros pre post s gs F lost HI Hns.
  - exists s, gs.
    assert (E1 : bump_all post [] = post) by now destruct post.
    assert (E2 : new_ids (length pre) post [] = []) by now destruct post.
    rewrite E1, E2. cbn [schedule_levels length Nat.leb].
    split; [reflexivity|]. split; [auto|]. split; [auto|]. split.
    { intros k g Hg. exists g, []. rewrite app_nil_r. auto. }
    ands; auto. now rewrite app_nil_r.
  - destruct post as [|n post].
    { assert (Hbad : nth_error (s_nsched s) (length pre) = None)
        by (apply nth_error_None; rewrite Hns, app_length; cbn; lia).
      exists s, gs. cbn [bump_all new_ids length Nat.leb schedule_levels]. split.
      { destruct (Z.to_nat (Qtrunc q)) as [|c]; cbn [schedule_many]; unfold sbind, sret.
        - unfold save_sched, save_scheduled.
          destruct (iv_full _ _ _ _ _ HI) as (Ho & _ & _). rewrite Ho, nth_error_seq.
          rewrite <- (iv_len _ _ _ _ _ HI), Hns, app_nil_r, Nat.ltb_irrefl. destruct s; reflexivity.
        - unfold schedule_one. rewrite Hbad. reflexivity. }
      split; [auto|]. split; [auto|]. split.
      { intros k g Hg. exists g, []. rewrite app_nil_r. auto. }
      ands; auto. now rewrite app_nil_r. }
    assert (Hl : length pre < L).
    { rewrite <- (iv_len _ _ _ _ _ HI), Hns, app_length. cbn [length]. lia. }
    assert (Hn : nth_error (s_nsched s) (length pre) = Some n).
    { rewrite Hns, nth_error_app2, Nat.sub_diag by lia. reflexivity. }
    destruct (schedule_many_Inv (Z.to_nat (Qtrunc q)) _ _ _ _ _ _ _ HI Hl Hn)
      as (s1 & E1 & HI1 & A1 & A2 & A3 & A4 & A5 & A6).
    change (none (length pre)) with (@nil pystr) in *. cbn [app] in *.
    destruct (save_sched_Inv _ _ _ _ _ (length pre) HI1 Hl)
      as (s2 & gs2 & E2 & HI2 & B0 & BG & B1 & B2 & B3 & B4 & B5).
    rewrite fupd_eq in E2, BG.
    assert (HI2' : Inv s2 gs2 none F lost).
    { eapply Inv_ext; [exact HI2| | |]; auto. intros k _. unfold none.
      destruct (Nat.eq_dec k (length pre)) as [->|N]; [now rewrite fupd_eq|now rewrite !fupd_neq]. }
    assert (Hns2 : s_nsched s2 = (pre ++ [n + Z.to_nat (Qtrunc q)]) ++ post).
    { rewrite B1, A1, Hns. unfold bump. rewrite upd_app_mid, <- app_assoc. reflexivity. }
    destruct (IH (pre ++ [n + Z.to_nat (Qtrunc q)]) post s2 gs2 F lost HI2' Hns2)
      as (s3 & gs3 & E3 & HI3 & C0 & CG & C1 & C2 & C3 & C4).
    rewrite app_length in E3, C4. cbn [length] in E3, C4. rewrite Nat.add_1_r in E3, C4.
    exists s3, gs3. cbn [schedule_levels length Nat.leb]. unfold sbind. rewrite E1, E2, E3.
    split; [reflexivity|]. split; [auto|]. split; [congruence|]. split.
    { intros k g Hg. destruct (BG k g Hg) as (g2 & H1 & H2 & H3 & H4 & H5).
      destruct (CG k g2 H1) as (g3 & more & K1 & K2 & K3 & K4 & K5).
      destruct (Nat.eqb k (length pre)).
      - eexists g3, _. split; [eassumption|]. rewrite K2, H2, <- app_assoc. split; [reflexivity|].
        ands; congruence.
      - exists g3, more. ands; congruence. }
    split; [|ands; try congruence].
    + rewrite C1, <- app_assoc. reflexivity.
    + rewrite C4, B4, A4, <- app_assoc. reflexivity.
Qed.

(** Polling *)
Definition empty_queues (p : pool E) : Prop := qtotal (queues p) = 0 /\ qtotal (failed_queues p) = 0.

Lemma combine_app {A B} (a a' : list A) (b b' : list B) : length a = length b ->
  combine (a ++ a') (b ++ b') = combine a b ++ combine a' b'.
Proof. revert b; induction a as [|x a IH]; intros [|y b] H; cbn in *; try lia; auto. f_equal. apply IH. lia. Qed.

Lemma combine_map_fst_snd {A B} (l : list (A * B)) : combine (map fst l) (map snd l) = l.
Proof. induction l as [|[a b] l IH]; cbn; congruence. Qed.

Lemma app_level_succ_ids q (g : G) : g_cids (app_level append_successful q g) = g_cids g ++ map fst q.
Proof. destruct q; cbn; auto. now rewrite app_nil_r. Qed.
Lemma app_level_succ_sched q (g : G) : g_sched (app_level append_successful q g) = g_sched g.
Proof. destruct q; reflexivity. Qed.
Lemma app_level_succ_failed q (g : G) : g_failed (app_level append_successful q g) = g_failed g.
Proof. destruct q; reflexivity. Qed.
Lemma app_level_succ_vals q (g : G) :
  g_cvals (app_level append_successful q g)
  = match q with [] => g_cvals g | _ => Some (match g_cvals g with Some v => v | None => [] end ++ map snd q) end.
Proof. destruct q; cbn; auto. destruct (g_cvals g); reflexivity. Qed.
Lemma app_level_fail_failed q (g : G) : g_failed (app_level append_failed q g) = g_failed g ++ q.
Proof. destruct q; cbn; auto. now rewrite app_nil_r. Qed.
Lemma app_level_fail_other q (g : G) : let g' := app_level append_failed q g in
  g_cids g' = g_cids g /\ g_sched g' = g_sched g /\ g_cvals g' = g_cvals g.
Proof. destruct q; cbn; auto. Qed.

Lemma vals_ok_append l (g : G) q :
  vals_ok l g -> Forall (rec_ok l) q -> vals_ok l (app_level append_successful q g).
Proof.
  unfold vals_ok. rewrite app_level_succ_vals, app_level_succ_ids. intros Hv Hq.
  destruct q as [|r q]; [cbn [map]; now rewrite app_nil_r|].
  destruct (g_cvals g) as [vs|].
  - destruct Hv as [H1 H2]. split.
    + rewrite !app_length, !map_length. lia.
    + rewrite combine_app by auto. apply Forall_app; split; auto. now rewrite combine_map_fst_snd.
  - rewrite Hv. cbn [app]. split; [now rewrite !map_length|]. now rewrite combine_map_fst_snd.
Qed.

(** What a poll does to one level group: results and failures appended, costs changed. *)
Definition polled (q : list (pystr * pairv)) (fq : list (pystr * pystr)) (g g' : G) : Prop :=
  g_sched g' = g_sched g /\ g_cids g' = g_cids g ++ map fst q /\ g_failed g' = g_failed g ++ fq
  /\ g_cvals g' = match q with [] => g_cvals g
                  | _ => Some (match g_cvals g with Some v => v | None => [] end ++ map snd q) end.

Lemma poll_store_Inv s gs F lost :
  Inv s gs none F lost ->
  exists s' gs', poll_store E s = (s', Ok 0%Z)
    /\ Inv s' gs' none (fun l => F l ++ map fst (dlist (failed_queues (s_pool s)) l)) lost
    /\ empty_queues (s_pool s')
    /\ (forall l g, nth_error gs l = Some g -> exists g', nth_error gs' l = Some g'
         /\ polled (dlist (queues (s_pool s)) l) (dlist (failed_queues (s_pool s)) l) g g')
    /\ s_nsched s' = s_nsched s /\ s_targets s' = s_targets s /\ s_tint s' = s_tint s
    /\ s_handed s' = s_handed s.
Proof.
  intros [Hfull Hsims Hlen [Hq1 Hq2] [Hf1 Hf2] [Ht1 Ht2] Hr Hlev].
  unfold poll_store, get_finished.
  destruct (queues_to_list_ok (queues (s_pool s))) as (r & c & Eq & A1 & A2 & A3 & A4 & A5 & A6).
  destruct (queues_to_list_ok (failed_queues (s_pool s))) as (r' & c' & Eq' & B1 & B2 & B3 & B4 & B5 & B6).
  rewrite Eq, Eq'. cbn [fin_ok fin_failed fin_times fin_running].
  specialize (A5 Hq1). specialize (B5 Hf1). specialize (A4 Hq1). specialize (B4 Hf1).
  destruct (save_samples_Full L (s_obj s) (s_file s) gs r r') as (f1 & gs1 & E1 & HF1 & H1); auto.
  destruct (save_n_ops_Full L (s_obj s) f1 gs1 (times (s_pool s))) as (f2 & gs2 & E2 & HF2 & H2); auto.
  cbn [set_pool s_obj s_file]. rewrite E1. cbn [fin_times fin_running]. rewrite E2.
  eexists _, gs2. split; [f_equal; f_equal; lia|].
  assert (Hpol : forall l g, nth_error gs l = Some g -> exists g', nth_error gs2 l = Some g'
         /\ polled (dlist (queues (s_pool s)) l) (dlist (failed_queues (s_pool s)) l) g g').
  { intros l g Hg. rewrite (H2 _ _ (H1 _ _ Hg)). eexists. split; [reflexivity|].
    assert (HP : polled (dlist (queues (s_pool s)) l) (dlist (failed_queues (s_pool s)) l) g (saved r r' l g)).
    { unfold polled, saved. rewrite A5, B5.
      destruct (app_level_fail_other (dlist (failed_queues (s_pool s)) l)
                  (app_level append_successful (dlist (queues (s_pool s)) l) g)) as (K1 & K2 & K3).
      rewrite K1, K2, K3, app_level_fail_failed, app_level_succ_ids, app_level_succ_sched,
        app_level_succ_failed, app_level_succ_vals. auto. }
    destruct (dget (times (s_pool s)) l) as [[t n]|]; auto. }
  split; [|split; [|split; [exact Hpol|cbn; ands; reflexivity]]].
  - constructor; cbn [set_file set_pool s_obj s_file s_sims s_nsched s_pool queues failed_queues times n_running]; auto.
    + rewrite A1. auto.
    + rewrite B1. auto.
    + rewrite A2, B2. lia.
    + intros l g' n Hg' Hn.
      assert (Hl : l < L).
      { destruct HF2 as (_ & _ & Hl). rewrite <- Hl. apply nth_error_Some. congruence. }
      destruct (Full_nth _ _ _ _ _ Hfull Hl) as [g Hg].
      destruct (Hpol l g Hg) as (g2 & Hg2 & P1 & P2 & P3 & P4).
      rewrite Hg2 in Hg'. injection Hg' as <-.
      destruct (Hlev l g n Hg Hn) as [C1 C2 C3 C4 C5 C6 C7 C8].
      rewrite (qtotal_zero c A2), (qtotal_zero c' B2).
      constructor; auto.
      * now rewrite P1.
      * rewrite P1, C2, P2. cbn [map app]. rewrite <- !app_assoc.
        apply Permutation_app_head.
        rewrite (app_assoc (F l)), (Permutation_app_comm (F l)), <- app_assoc. reflexivity.
      * unfold vals_ok. rewrite P2, P4.
        pose proof (vals_ok_append l g _ C3 C4) as Hv. unfold vals_ok in Hv.
        rewrite app_level_succ_ids, app_level_succ_vals in Hv. exact Hv.
      * rewrite P3. apply Forall_app; auto.
      * apply Forall_app; split; auto. apply Forall_map. eapply Forall_impl; [|exact C5].
        intros [id m] Hr'. exists m. exact Hr'.
      * intros Hd Hlost. rewrite P2, P1. cbn [map]. rewrite app_nil_r. auto.
  - unfold empty_queues. cbn. auto.
Qed.

Lemma failed_of_polled s gs gs' :
  (forall l g, nth_error gs l = Some g -> exists g', nth_error gs' l = Some g'
         /\ polled (dlist (queues (s_pool s)) l) (dlist (failed_queues (s_pool s)) l) g g') ->
  length gs = L ->
  forall l, l < L -> failed_of gs l ++ map fst (dlist (failed_queues (s_pool s)) l) = failed_of gs' l.
Proof.
  intros H Hlen l Hl. unfold failed_of. rewrite <- Hlen in Hl. apply nth_error_Some in Hl.
  destruct (nth_error gs l) as [g|] eqn:Eg; [|congruence].
  destruct (H l g Eg) as (g' & Eg' & _ & _ & P3 & _). rewrite Eg', P3, map_app. reflexivity.
Qed.

(** Asking: either nothing happens (timeout <= 0, no fuel) or exactly one poll. *)
Inductive asked (s : S_) (gs : list G) (s' : S_) (gs' : list G) : Prop :=
| asked_not : s' = s -> gs' = gs -> asked s gs s' gs'
| asked_once : poll_store E s = (s', Ok 0%Z) -> empty_queues (s_pool s') ->
    (forall l g, nth_error gs l = Some g -> exists g', nth_error gs' l = Some g'
         /\ polled (dlist (queues (s_pool s)) l) (dlist (failed_queues (s_pool s)) l) g g') ->
    asked s gs s' gs'.

Lemma ask_Inv clk t fuel s gs lost :
  BInv s gs lost -> exists s' gs' r, ask_pool E clk t fuel s = (s', r)
    /\ BInv s' gs' lost /\ asked s gs s' gs'
    /\ match r with
       | None => fuel = 0 /\ s' = s
       | Some (Err _) => False
       | Some (Ok n) => (n = 1%Z /\ s' = s /\ exists q, t = Some q /\ (q <= 0)%Q)
                        \/ (n = 0%Z /\ empty_queues (s_pool s') /\ poll_store E s = (s', Ok 0%Z)
                            /\ forall q, t = Some q -> (0 < q)%Q)
       end
    /\ s_nsched s' = s_nsched s /\ s_targets s' = s_targets s /\ s_tint s' = s_tint s
    /\ s_handed s' = s_handed s.
Proof.
  intros HI. unfold ask_pool, ask.
  destruct (poll_store_Inv s gs (failed_of gs) lost HI) as (s' & gs' & Ep & HI' & He & Hp & D).
  assert (HB : BInv s' gs' lost).
  { eapply Inv_ext; [exact HI'| | |]; auto.
    apply failed_of_polled with (s := s); auto. apply (iv_full _ _ _ _ _ HI). }
  assert (Hloop : forall tmo, (forall q, t = Some q -> (0 < q)%Q) -> exists s' gs' r, ask_loop (poll_store E) clk tmo fuel 0 s = (s', r)
    /\ BInv s' gs' lost /\ asked s gs s' gs'
    /\ match r with
       | None => fuel = 0 /\ s' = s
       | Some (Err _) => False
       | Some (Ok n) => (n = 1%Z /\ s' = s /\ exists q, t = Some q /\ (q <= 0)%Q)
                        \/ (n = 0%Z /\ empty_queues (s_pool s') /\ poll_store E s = (s', Ok 0%Z)
                            /\ forall q, t = Some q -> (0 < q)%Q)
       end
    /\ s_nsched s' = s_nsched s /\ s_targets s' = s_targets s /\ s_tint s' = s_tint s
    /\ s_handed s' = s_handed s).
  { intros tmo Ht. destruct fuel as [|fuel]; cbn [ask_loop].
    - exists s, gs, None. ands; auto; try apply HI. now apply asked_not.
    - rewrite Ep. exists s', gs', (Some (Ok 0%Z)).
      split. { destruct (_ && _)%bool; reflexivity. }
      split; [auto|]. split; [now apply asked_once|]. split; [right; auto|exact D]. }
  destruct t as [q|].
  - destruct (Qle_bool q 0) eqn:Eq.
    + exists s, gs, (Some (Ok 1%Z)). split; [reflexivity|]. split; [auto|].
      split; [now apply asked_not|]. split; [|auto]. left. ands; auto.
      exists q. split; auto. now apply Qle_bool_iff.
    + apply Hloop. intros q' [= <-]. apply Qnot_le_lt. intros H. apply Qle_bool_iff in H. congruence.
  - apply Hloop. discriminate.
Qed.

(** schedule_samples *)
Lemma minus_vec_length t n : length t = length n -> length (minus_vec t n) = length n.
Proof. revert n; induction t as [|x t IH]; intros [|y n] H; cbn in *; try lia; auto. Qed.

Definition sched_grows (gs gs' : list G) : Prop :=
  forall k g, nth_error gs k = Some g -> exists g' more, nth_error gs' k = Some g'
     /\ g_sched g' = g_sched g ++ more
     /\ g_cids g' = g_cids g /\ g_cvals g' = g_cvals g /\ g_failed g' = g_failed g.

Lemma plan_samples_same s s' : s_targets s' = s_targets s -> s_nsched s' = s_nsched s ->
  plan_samples E s' = plan_samples E s.
Proof. intros H1 H2. unfold plan_samples. now rewrite H1, H2. Qed.

Lemma schedule_samples_Inv clk t fuel s gs lost :
  BInv s gs lost -> exists s1 gs1 s' gs' r, schedule_samples E clk t fuel s = (s', r)
    /\ fst (ask_pool E clk t fuel s) = s1
    /\ BInv s1 gs1 lost /\ asked s gs s1 gs1
    /\ BInv s' gs' lost /\ sched_grows gs1 gs'
    /\ s_targets s' = s_targets s /\ s_tint s' = s_tint s
    /\ ((r = ORunning /\ fuel = 0 /\ s' = s)
        \/ (exists plan, plan_samples E s = Ok plan
                 /\ r = (if Nat.leb (length plan) L then ONone else OErr IndexError)
                 /\ s_nsched s' = bump_all (s_nsched s) plan
                 /\ s_handed s' = s_handed s ++ new_ids 0 (s_nsched s) plan)
        \/ (exists e, plan_samples E s = Err e /\ r = OErr e /\ s' = s1
                   /\ s_nsched s' = s_nsched s /\ s_handed s' = s_handed s)).
Proof.
  intros HI. destruct (ask_Inv clk t fuel s gs lost HI) as (s1 & gs1 & r1 & Ea & HI1 & Hask & Hr & D1 & D2 & D3 & D4).
  unfold schedule_samples. rewrite Ea.
  assert (Hrefl : sched_grows gs1 gs1).
  { intros k g Hg. exists g, []. rewrite app_nil_r. auto. }
  destruct r1 as [[n|e]|].
  - rewrite (plan_samples_same s s1) by auto. destruct (plan_samples E s) as [plan|e] eqn:Ep.
    + destruct (schedule_levels_Inv plan [] (s_nsched s1) s1 gs1
                  (failed_of gs1) lost HI1 eq_refl) as (s2 & gs2 & E2 & HI2 & C0 & CG & C1 & C2 & C3 & C4).
      cbn [length] in E2, C4. rewrite E2, (iv_len _ _ _ _ _ HI1).
      exists s1, gs1, s2, gs2, (if Nat.leb (length plan) L then ONone else OErr IndexError).
      split; [now destruct (Nat.leb (length plan) L)|]. split; [reflexivity|]. split; [auto|]. split; [auto|].
      split. { eapply Inv_ext; [exact HI2| | |]; auto. }
      split; [exact CG|]. split; [congruence|]. split; [congruence|].
      rewrite D1 in *. cbn [app length] in *. rewrite <- D4.
      right; left. exists plan. auto.
    + exists s1, gs1, s1, gs1, (OErr e).
      repeat (split; [solve [reflexivity|auto]|]). right. right. exists e. ands; auto.
  - contradiction.
  - destruct Hr as [Hr1 Hr2]. subst s1. exists s, gs1, s, gs1, ORunning.
    repeat (split; [solve [reflexivity|auto]|]). auto.
Qed.

(** renew_failed_samples *)
Lemma renew_one_Inv s gs F lost l id rest :
  Inv s gs none F lost -> l < L -> F l = id :: rest ->
  exists s', renew_one E l id s = (s', Ok tt) /\ Inv s' gs none (fupd F l rest) lost
    /\ s_nsched s' = s_nsched s /\ s_targets s' = s_targets s /\ s_tint s' = s_tint s
    /\ s_handed s' = s_handed s ++ [id] /\ s_file s' = s_file s /\ s_obj s' = s_obj s.
Proof.
  intros HI Hl HF. pose proof (Inv_pool_ok _ _ _ _ _ HI) as Hp.
  destruct HI as [Hfull Hsims Hlen _ _ _ _ Hlev].
  destruct (sims_nth l Hl) as (ls & Hls & Hlsl).
  unfold renew_one. rewrite Hsims, Hls. eexists. split; [reflexivity|].
  split; [|cbn; ands; reflexivity].
  destruct (pool_schedule_ok (s_pool s) id l ls Hp Hls) as [(A1 & A2 & A3 & A4) Hcase].
  constructor; cbn [s_obj s_file s_sims s_nsched s_pool]; auto.
  intros k g n Hg Hn. destruct (Nat.eq_dec k l) as [e|Nkl].
  - subst k. rewrite fupd_eq. destruct (Hlev l g n Hg Hn) as [B1 B2 B3 B4 B5 B6 B7 B8].
    rewrite HF in B2.
    destruct Hcase as [(v & C1 & C2 & C3)|(m & C1 & C2 & C3)].
    + rewrite C3, C2, Nat.eqb_refl. constructor; auto.
      * rewrite B2, map_app. cbn [map fst]. apply Permutation_app_head.
        rewrite <- !app_assoc. cbn [app].
        rewrite (app_assoc rest). rewrite (app_assoc rest _ (id :: _)).
        apply Permutation_cons_app. now rewrite <- !app_assoc.
      * apply Forall_app; auto.
      * rewrite HF in B7. now inversion B7.
      * intros Hd Hlost. rewrite HF in B7. apply Forall_inv in B7. destruct B7 as [m Hm].
        pose proof (good_ok l _ Hd C1). pose proof (good_bad l _ Hd Hm). cbn [fst] in *. congruence.
    + rewrite C3, C2, Nat.eqb_refl. constructor; auto.
      * rewrite B2, map_app. cbn [map fst]. apply Permutation_app_head.
        rewrite <- !app_assoc. cbn [app].
        rewrite !(app_assoc rest). rewrite !(app_assoc (rest ++ _)).
        apply Permutation_cons_app. now rewrite <- !app_assoc.
      * apply Forall_app; auto.
      * rewrite HF in B7. now inversion B7.
  - rewrite fupd_neq by auto. pose proof (Hlev k g n Hg Hn) as HL.
    destruct Hcase as [(v & C1 & C2 & C3)|(m & C1 & C2 & C3)]; rewrite C3, C2;
        destruct (Nat.eqb_spec k l); try congruence; exact HL.
Qed.

Lemma renew_ids_Inv ids : forall s gs F lost l,
  Inv s gs none F lost -> l < L -> F l = ids ->
  exists s', sfor ids (renew_one E l) s = (s', Ok tt) /\ Inv s' gs none (fupd F l []) lost
    /\ s_nsched s' = s_nsched s /\ s_targets s' = s_targets s /\ s_tint s' = s_tint s
    /\ s_handed s' = s_handed s ++ ids /\ s_file s' = s_file s /\ s_obj s' = s_obj s.
Proof.
  induction ids as [|id ids IH]; intros s gs F lost l HI Hl HF; cbn [sfor].
  - exists s. rewrite app_nil_r. split; [reflexivity|]. split; [|ands; reflexivity].
    eapply Inv_ext; [exact HI| | |]; auto. intros k _.
    destruct (Nat.eq_dec k l) as [->|N]; [now rewrite fupd_eq|now rewrite fupd_neq].
  - destruct (renew_one_Inv s gs F lost l id ids HI Hl HF) as (s1 & E1 & HI1 & A1 & A2 & A3 & A4 & A5 & A6).
    destruct (IH s1 gs _ lost l HI1 Hl) as (s2 & E2 & HI2 & B1 & B2 & B3 & B4 & B5 & B6); [apply fupd_eq|].
    exists s2. unfold sbind. rewrite E1, E2. split; [reflexivity|]. split.
    { eapply Inv_ext; [exact HI2| | |]; auto. intros k _.
      destruct (Nat.eq_dec k l) as [->|N]; [now rewrite !fupd_eq|now rewrite !fupd_neq]. }
    ands; try congruence. rewrite B4, A4, <- app_assoc. reflexivity.
Qed.

Lemma renew_all_Inv (fs : list (list pystr)) : forall i s gs F lost,
  Inv s gs none F lost -> i + length fs <= L -> (forall k ids, nth_error fs k = Some ids -> F (i + k) = ids) ->
  exists s', sfor (index_from i fs) (fun '(level, ids) => sfor ids (renew_one E level)) s = (s', Ok tt)
    /\ Inv s' gs none (fun k => if (Nat.leb i k && Nat.ltb k (i + length fs))%bool then [] else F k) lost
    /\ s_nsched s' = s_nsched s /\ s_targets s' = s_targets s /\ s_tint s' = s_tint s
    /\ s_handed s' = s_handed s ++ concat fs /\ s_file s' = s_file s /\ s_obj s' = s_obj s.
Proof.
  induction fs as [|ids fs IH]; intros i s gs F lost HI Hi HF; cbn [index_from sfor length concat].
  - exists s. rewrite app_nil_r. split; [reflexivity|]. split; [|ands; reflexivity].
    eapply Inv_ext; [exact HI| | |]; auto. intros k _.
    destruct (Nat.leb_spec i k), (Nat.ltb_spec k (i + 0)); cbn; auto; lia.
  - cbn [length] in Hi.
    destruct (renew_ids_Inv ids s gs F lost i HI) as (s1 & E1 & HI1 & A1 & A2 & A3 & A4 & A5 & A6); [lia| |].
    { rewrite <- (HF 0 ids eq_refl). f_equal; lia. }
    destruct (IH (S i) s1 gs _ lost HI1) as (s2 & E2 & HI2 & B1 & B2 & B3 & B4 & B5 & B6); [lia| |].
    { intros k x Hk. rewrite fupd_neq by lia. rewrite <- (HF (S k) x Hk). f_equal; lia. }
    exists s2. unfold sbind. rewrite E1, E2. split; [reflexivity|]. split.
    { eapply Inv_ext; [exact HI2| | |]; auto. intros k _. unfold fupd.
      destruct (Nat.leb_spec (S i) k), (Nat.ltb_spec k (S i + length fs)), (Nat.leb_spec i k),
        (Nat.ltb_spec k (i + S (length fs))), (Nat.eqb_spec k i); cbn; auto; lia. }
    ands; try congruence. rewrite B4, A4, <- app_assoc. reflexivity.
Qed.

Lemma renew_failed_Inv s gs lost :
  BInv s gs lost -> exists s' , renew_failed E s = (s', Ok tt)
    /\ BInv s' (map clear_failed_group gs) lost
    /\ s_nsched s' = s_nsched s /\ s_targets s' = s_targets s /\ s_tint s' = s_tint s
    /\ s_handed s' = s_handed s ++ concat (map (fun g => map fst (g_failed g)) gs).
Proof.
  intros HI. unfold renew_failed. rewrite (failed_samples_Full _ _ _ _ (iv_full _ _ _ _ _ HI)).
  assert (Hgl : length gs = L) by apply (iv_full _ _ _ _ _ HI).
  destruct (renew_all_Inv (map (fun g => map fst (g_failed g)) gs) 0 s gs _ lost HI)
    as (s1 & E1 & HI1 & A1 & A2 & A3 & A4 & A5 & A6).
  { rewrite map_length. lia. }
  { intros k ids Hk. cbn [plus]. unfold failed_of. rewrite nth_error_map in Hk.
    destruct (nth_error gs k); [|discriminate]. cbn in Hk. congruence. }
  unfold sbind at 1. rewrite E1. unfold clear_all_failed.
  destruct (clear_failed_Full _ _ _ _ (iv_full _ _ _ _ _ HI1)) as (f' & E2 & HF2).
  rewrite E2. eexists. split; [reflexivity|]. split; [|cbn; ands; auto].
  destruct HI1 as [Hfull Hsims Hlen Hq Hf Ht Hr Hlev].
  constructor; cbn [set_file s_obj s_file s_sims s_nsched s_pool]; auto.
  intros l g' n Hg' Hn. rewrite nth_error_map in Hg'.
  destruct (nth_error gs l) as [g|] eqn:Eg; [|discriminate]. cbn in Hg'. injection Hg' as <-.
  assert (Hl : l < L) by (rewrite <- Hgl; apply nth_error_Some; congruence).
  destruct (Hlev l g n Eg Hn) as [B1 B2 B3 B4 B5 B6 B7 B8].
  cbn [plus] in B2. rewrite map_length, Hgl in B2.
  destruct (Nat.ltb_spec l L); [|lia]. cbn [Nat.leb andb] in B2.
  assert (EF : failed_of (map clear_failed_group gs) l = []).
  { unfold failed_of. rewrite nth_error_map, Eg. reflexivity. }
  rewrite EF. constructor; cbn [clear_failed_group g_sched g_cids g_failed]; auto.
Qed.

(** restart *)
Lemma index_from_lens (l : list (list pystr)) i :
  map (fun x => length (snd x)) (index_from i l) = map (@length _) l.
Proof. revert i; induction l as [|x l IH]; intros i; cbn; congruence. Qed.

Lemma sampler_init_Full o f gs calls handed : Full L o f gs -> o_loaded o = true ->
  sampler_init E o f ps calls handed =
  Ok (mkS E o f (new_pool calls) (create_level_sims E ps) (repeat 0%Q L) false
        (map (fun g => length (g_sched g)) gs) handed).
Proof.
  intros HF Ho. unfold sampler_init. rewrite (save_global_loaded _ _ _ _ HF Ho).
  rewrite (load_scheduled_Full _ _ _ _ HF). cbn [bind].
  rewrite (unfinished_ids_Full _ _ _ _ HF). cbn [bind]. rewrite index_from_lens, map_map.
  do 2 f_equal. destruct gs as [|g gs]; [|reflexivity].
  destruct HF as (_ & _ & <-). reflexivity.
Qed.

Lemma restart_Inv s gs lost :
  BInv s gs lost -> exists s', restart E ps s = (s', ONone)
    /\ BInv s' gs (fun l => map fst (dlist (queues (s_pool s)) l)
                            ++ map fst (dlist (failed_queues (s_pool s)) l) ++ lost l)
    /\ s_file s' = s_file s /\ s_nsched s' = s_nsched s /\ s_targets s' = repeat 0%Q L
    /\ s_handed s' = s_handed s /\ empty_queues (s_pool s').
Proof.
  intros [Hfull Hsims Hlen Hq Hf Ht Hr Hlev].
  unfold restart. rewrite (hdf_open_Full _ _ _ _ Hfull). cbn [bind].
  assert (HF' : Full L (mkObj true (seq 0 L)) (s_file s) gs).
  { destruct Hfull as (_ & H2 & H3). unfold Full. ands; auto. }
  rewrite (sampler_init_Full _ _ _ _ _ HF' eq_refl). eexists. split; [reflexivity|].
  assert (Hns : map (fun g => length (g_sched g)) gs = s_nsched s).
  { apply nth_error_ext. intros i. rewrite nth_error_map.
    destruct (nth_error gs i) as [g|] eqn:Eg; cbn.
    - destruct (nth_error (s_nsched s) i) as [n|] eqn:En.
      + destruct (Hlev i g n Eg En) as [B1 _ _ _ _ _ _ _]. unfold none in B1. rewrite app_nil_r in B1.
        rewrite B1, map_length, seq_length. reflexivity.
      + exfalso. apply nth_error_None in En. destruct Hfull as (_ & _ & Hl).
        assert (i < length gs) by (apply nth_error_Some; congruence). lia.
    - symmetry. apply nth_error_None. apply nth_error_None in Eg. destruct Hfull as (_ & _ & Hl). lia. }
  split; [|cbn; unfold empty_queues; cbn; ands; auto].
  constructor; cbn [s_obj s_file s_sims s_nsched s_pool new_pool queues failed_queues times n_running]; auto.
  - rewrite Hns. auto.
  - split; [constructor|intros ? []].
  - split; [constructor|intros ? []].
  - split; [constructor|intros ? []].
  - intros l g n Hg Hn. rewrite Hns in Hn. destruct (Hlev l g n Hg Hn) as [B1 B2 B3 B4 B5 B6 B7 B8].
    constructor; auto; try (constructor; fail).
    intros Hd Hlost. apply app_eq_nil in Hlost as [H1 H2]. apply app_eq_nil in H2 as [H2 H3].
    rewrite <- (B8 Hd H3), H1. reflexivity.
Qed.

(** Targets *)
Lemma set_targets_Inv s gs pend F lost t b :
  Inv s gs pend F lost -> Inv (set_targets E s t b) gs pend F lost.
Proof. intros []. constructor; auto. Qed.

Lemma set_level_target_Inv v s gs lost :
  BInv s gs lost -> exists t r, set_level_target E v s = (set_targets E s t (s_tint s), r)
    /\ raise_targets (s_tint s) (s_targets s) v = (t, r) /\ BInv (set_targets E s t (s_tint s)) gs lost.
Proof.
  intros HI. unfold set_level_target.
  destruct (raise_targets (s_tint s) (s_targets s) v) as [t r]. exists t, r.
  ands; auto. now apply set_targets_Inv.
Qed.

(** process_adding_samples keeps the invariant *)
Definition grew (s s' : S_) : Prop := exists plan,
  s_nsched s' = bump_all (s_nsched s) plan /\ s_handed s' = s_handed s ++ new_ids 0 (s_nsched s) plan.

Lemma grew_same s s' : s_nsched s' = s_nsched s -> s_handed s' = s_handed s -> grew s s'.
Proof.
  intros H1 H2. exists []. rewrite H1, H2. split; [now destruct (s_nsched s)|].
  destruct (s_nsched s); cbn; now rewrite app_nil_r.
Qed.

Lemma wait_half_Inv clk t af items plan : forall fuel k s gs lost,
  BInv s gs lost -> exists s' gs' r, wait_half E clk t af fuel k items plan s = (s', r) /\ BInv s' gs' lost
    /\ s_nsched s' = s_nsched s /\ s_targets s' = s_targets s /\ s_tint s' = s_tint s
    /\ s_handed s' = s_handed s.
Proof.
  induction fuel as [|fuel IH]; intros k s gs lost HI; cbn [wait_half];
    rewrite (n_finished_Full _ _ _ _ (iv_full _ _ _ _ _ HI));
    destruct (any_below items (map (fun g => length (finished_ids g)) gs) plan) as [[|]|e]; eauto 10.
  destruct (ask_Inv (clk k) t af s gs lost HI) as (s1 & gs1 & r1 & Ea & HI1 & _ & _ & D1 & D2 & D3 & D4).
  rewrite Ea. destruct r1 as [[n|e]|]; eauto 10.
  destruct (IH (S k) s1 gs1 lost HI1) as (s2 & gs2 & r2 & E2 & HI2 & F1 & F2 & F3 & F4).
  exists s2, gs2, r2. ands; auto; congruence.
Qed.

Lemma set_scheduled_and_wait_Inv clk t af fuel plan items s gs lost :
  BInv s gs lost -> exists s' gs' r, set_scheduled_and_wait E clk t af fuel plan items s = (s', r)
    /\ BInv s' gs' lost /\ grew s s'.
Proof.
  intros HI. unfold set_scheduled_and_wait.
  destruct (set_level_target_Inv plan s gs lost HI) as (tg & r & -> & _ & HI1).
  assert (G0 : grew s (set_targets E s tg (s_tint s))) by now apply grew_same.
  destruct r as [u|e]; [|eauto 8].
  destruct (schedule_samples_Inv (clk 1) t af _ gs lost HI1)
    as (s1 & gs1 & s2 & gs2 & r2 & -> & _ & _ & _ & HI2 & _ & _ & _ & Hr).
  assert (G2 : grew s s2).
  { destruct Hr as [(_ & _ & ->)|[(pl & _ & _ & H1 & H2)|(e & _ & _ & _ & H1 & H2)]];
      [exact G0|exists pl; auto|now apply grew_same]. }
  destruct r2; eauto 8.
  destruct (wait_half_Inv clk t af items plan fuel 2 s2 gs2 lost HI2) as (s3 & gs3 & r3 & -> & HI3 & H1 & _ & _ & H4).
  exists s3, gs3, r3. ands; auto. destruct G2 as (pl & K1 & K2). exists pl. split; congruence.
Qed.

Lemma process_adding_Inv clk t af fuel c est s gs lost :
  BInv s gs lost -> exists s' gs' r, process_adding E clk t af fuel c est s = (s', r)
    /\ BInv s' gs' lost /\ grew s s'.
Proof.
  intros HI. unfold process_adding.
  destruct (ask_Inv (clk 0) t af s gs lost HI) as (s1 & gs1 & r1 & Ea & HI1 & _ & _ & D1 & _ & _ & D4).
  assert (G0 : grew s s1) by now apply grew_same.
  rewrite Ea. destruct r1 as [[n|e]|]; eauto 8.
  destruct (Nat.eqb (length est) (length (s_nsched s1))); [|eauto 8].
  destruct (set_scheduled_and_wait_Inv clk t af fuel (planned_vec c est (s_nsched s1))
     (greater_items 0 est (planned_vec c est (s_nsched s1))) s1 gs1 lost HI1) as (s2 & gs2 & r2 & -> & HI2 & G2).
  assert (G : grew s s2).
  { destruct G2 as (pl & K1 & K2). exists pl. rewrite <- D1, <- D4. auto. }
  destruct r2; eauto 8.
Qed.

(** Every operation keeps the invariant; only a restart loses (the un-polled) samples. *)
Definition lost_after (s : S_) (lost : nat -> list pystr) (o : op) : nat -> list pystr :=
  match o with
  | Restart => fun l => map fst (dlist (queues (s_pool s)) l)
                        ++ map fst (dlist (failed_queues (s_pool s)) l) ++ lost l
  | _ => lost
  end.

Definition handed_after (s s' : S_) (gs : list G) (o : op) : Prop :=
  match o with
  | Renew => s_nsched s' = s_nsched s
             /\ s_handed s' = s_handed s ++ concat (map (fun g => map fst (g_failed g)) gs)
  | _ => grew s s'
  end.

Lemma step_Inv fuel s o gs lost :
  BInv s gs lost -> exists gs', BInv (fst (step E ps fuel s o)) gs' (lost_after s lost o)
    /\ handed_after s (fst (step E ps fuel s o)) gs o.
Proof.
  intros HI. destruct o as [v|v|clk t|clk t| |clk t c est|]; cbn [step lost_after handed_after].
  - exists gs. unfold set_initial. cbn [fst].
    destruct (match v with Some x => nums_Q x | None => _ end) as [b w].
    split; destruct w as [|x [|y [|z w]]]; try (apply set_targets_Inv; auto); now apply grew_same.
  - destruct (set_level_target_Inv v s gs lost HI) as (t & r & E1 & _ & HI1). rewrite E1.
    exists gs. destruct r; (split; [exact HI1|now apply grew_same]).
  - destruct (schedule_samples_Inv clk t fuel s gs lost HI)
      as (s1 & gs1 & s' & gs' & r & E1 & _ & _ & _ & HI' & _ & _ & _ & Hr).
    rewrite E1. exists gs'. split; [exact HI'|]. cbn [fst].
    destruct Hr as [(_ & _ & ->)|[(pl & _ & _ & H1 & H2)|(e & _ & _ & _ & H1 & H2)]];
      [now apply grew_same|exists pl; auto|now apply grew_same].
  - destruct (ask_Inv clk t fuel s gs lost HI) as (s' & gs' & r & E1 & HI' & _ & _ & D1 & _ & _ & D4).
    rewrite E1. exists gs'. destruct r as [[n|e]|]; (split; [exact HI'|now apply grew_same]).
  - destruct (renew_failed_Inv s gs lost HI) as (s' & E1 & HI' & D1 & _ & _ & D4). rewrite E1.
    eexists. split; [exact HI'|]. cbn. auto.
  - destruct (process_adding_Inv clk t fuel fuel c est s gs lost HI) as (s' & gs' & r & E1 & HI' & HG).
    rewrite E1. exists gs'. split; [exact HI'|exact HG].
  - destruct (restart_Inv s gs lost HI) as (s' & E1 & HI' & _ & D1 & _ & D4 & _). rewrite E1. exists gs.
    split; [exact HI'|now apply grew_same].
Qed.

Fixpoint lost_run (fuel : nat) (s : S_) (lost : nat -> list pystr) (ops : list op) : nat -> list pystr :=
  match ops with
  | [] => lost
  | o :: r => lost_run fuel (fst (step E ps fuel s o)) (lost_after s lost o) r
  end.

Lemma run_Inv fuel ops : forall s gs lost, BInv s gs lost ->
  exists gs', BInv (run E ps fuel s ops) gs' (lost_run fuel s lost ops).
Proof.
  induction ops as [|o ops IH]; intros s gs lost HI; [exists gs; exact HI|].
  destruct (step_Inv fuel s o gs lost HI) as (gs1 & HI1 & _).
  exact (IH _ gs1 _ HI1).
Qed.

Lemma start_Inv : exists s, start E ps = Ok s /\ BInv s (repeat empty_group L) none
  /\ s_handed s = [] /\ s_nsched s = repeat 0 L /\ s_targets s = repeat 0%Q L.
Proof.
  unfold start, sampler_init.
  destruct (@save_global_fresh pairv no_file L) as (o & f & Es & HF). rewrite Es.
  rewrite (load_scheduled_Full _ _ _ _ HF). cbn [bind].
  rewrite (unfinished_ids_Full _ _ _ _ HF). cbn [bind].
  eexists. split; [reflexivity|].
  rewrite index_from_lens, map_map.
  assert (E0 : map (fun x : lgroup pairv => length (g_sched x)) (repeat empty_group L) = repeat 0 L).
  { generalize L as k. induction k as [|k IH]; cbn; [reflexivity|now rewrite IH]. }
  rewrite E0.
  assert (Hn : match repeat 0 L with [] => repeat 0 L | _ :: _ => repeat 0 L end = repeat 0 L)
    by now destruct (repeat 0 L).
  rewrite Hn. split; [|cbn; auto].
  constructor; cbn [s_obj s_file s_sims s_nsched s_pool new_pool queues failed_queues times n_running]; auto.
  - apply repeat_length.
  - split; [constructor|intros ? []].
  - split; [constructor|intros ? []].
  - split; [constructor|intros ? []].
  - intros l g n Hg Hn'. apply nth_error_In in Hn', Hg as Hg'. apply repeat_spec in Hn', Hg'. subst.
    assert (EF : failed_of (repeat (@empty_group pairv) L) l = []) by (unfold failed_of; now rewrite Hg).
    rewrite EF. constructor; cbn; try constructor; reflexivity.
Qed.

End Inv.
