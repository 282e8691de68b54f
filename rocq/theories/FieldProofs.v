(** Proofs about sets of fields. *)
From Verif Require Import Base BaseFacts FieldModel FieldSpec.

Lemma pget_pset_eq {A} (d : list (pystr * A)) k v : pget (pset d k v) k = Some v.
Proof.
  induction d as [|[n w] d IH]; cbn; [destruct pystr_eq_dec; congruence|].
  destruct (pystr_eq_dec k n) as [->|N]; cbn; [destruct pystr_eq_dec; congruence|]. destruct pystr_eq_dec; [contradiction|exact IH].
Qed.
Lemma pget_pset_neq {A} (d : list (pystr * A)) k k' v : k <> k' -> pget (pset d k v) k' = pget d k'.
Proof.
  intros N. induction d as [|[n w] d IH]; cbn; [destruct pystr_eq_dec; congruence|].
  destruct (pystr_eq_dec k n) as [<-|]; cbn; [destruct pystr_eq_dec; congruence|]. destruct pystr_eq_dec; [reflexivity|exact IH].
Qed.
Lemma pset_keys {A} (d : list (pystr * A)) k v n : In n (map fst (pset d k v)) <-> n = k \/ In n (map fst d).
Proof.
  induction d as [|[m w] d IH]; cbn; [intuition congruence|]. destruct (pystr_eq_dec k m) as [->|N]; cbn; [intuition congruence|].
  rewrite IH. intuition congruence.
Qed.

Section Proofs.
Context {V P : Type}.
Variable zero : V.
Variable fmt : V -> pystr.
Variable rf_ok : nat -> list P -> bool.
Variable rf_draw : nat -> nat -> list P -> list V.
Notation obj := (obj zero).

(** ** Construction *)
Record wf (fs : @fset V) : Prop := {
  w_nodup : NoDup (order fs);
  w_in : forall id, In id (order fs) <-> id < length (heap fs);
  w_before : evaluated_before zero fs;
  w_names : forall n id, pget (names fs) n = Some id -> In id (order fs);
  w_leaf : forall id a h, In id (order fs) -> f_kind (obj fs id) = KFunc a h -> f_params (obj fs id) <> [] }.

Lemma obj_app fs f o n id : id < length (heap fs) -> obj (mkFS (heap fs ++ [f]) o n) id = obj fs id.
Proof. intros H. unfold FieldModel.obj. cbn. now apply app_nth1. Qed.
Lemma obj_new fs f o n : obj (mkFS (heap fs ++ [f]) o n) (length (heap fs)) = f.
Proof. unfold FieldModel.obj. cbn. rewrite app_nth2, Nat.sub_diag by lia. reflexivity. Qed.

Lemma wf_empty : wf (mkFS [] [] []).
Proof.
  constructor; cbn; [constructor|intros id; split; [intros []|lia]| |discriminate|intros ? ? ? []].
  intros l1 id l2 E. destruct l1; discriminate.
Qed.
Lemma wf_get fs regions p fs1 id : wf fs -> get_field_obj fmt fs regions p = Ok (fs1, id) ->
  wf fs1 /\ In id (order fs1) /\ (forall x, In x (order fs) -> In x (order fs1) /\ obj fs1 x = obj fs x)
  /\ (forall x, In x (order fs1) -> In x (order fs) \/ (x = id /\ exists c, p = PNum c /\ f_kind (obj fs1 x) = KConst c /\ f_regions (obj fs1 x) = regions)).
Proof.
  intros W. destruct p as [s|c]; cbn.
  - destruct (pget (names fs) s) eqn:E; [|discriminate]. intros [= <- <-]. ands; auto. eapply w_names; eauto.
  - intros [= <- <-]. set (f := mkF _ _ _ _ _). set (fs1 := mkFS _ _ _).
    assert (forall x, In x (order fs) -> obj fs1 x = obj fs x) as Ho by (intros x Hx; apply obj_app; now apply (w_in _ W)).
    assert (obj fs1 (length (heap fs)) = f) as Hn by apply obj_new.
    split; [|split; [now left|split; [intros x Hx; split; [now right|now apply Ho]|]]].
    2:{ intros x [<-|Hx]; [right|now left]. split; [reflexivity|]. exists c. rewrite Hn. auto. }
    assert (order fs1 = length (heap fs) :: order fs) as Eo by reflexivity.
    constructor; try rewrite Eo.
    + constructor; [|apply (w_nodup _ W)]. intros H. apply (w_in _ W) in H. lia.
    + intros x. unfold fs1. cbn [heap In]. rewrite app_length. cbn [length]. rewrite (w_in _ W). lia.
    + intros l1 x l2 E q Hq. rewrite Eo in E. destruct l1 as [|y l1]; cbn in E; injection E as <- E.
      * rewrite Hn in Hq. destruct Hq.
      * right. apply (w_before _ W l1 x l2 E). rewrite <- Ho; [exact Hq|]. rewrite E. apply in_or_app. right. now left.
    + intros n x. unfold fs1. cbn [names]. destruct (pystr_eq_dec (str "const_" ++ fmt c) n) as [<-|N].
      * rewrite pget_pset_eq. intros [= <-]. now left.
      * rewrite pget_pset_neq by assumption. intros H. right. eapply w_names; eauto.
    + intros x a h [<-|Hx]; [rewrite Hn; discriminate|]. rewrite Ho by assumption. now apply (w_leaf _ W).
Qed.
Lemma wf_gets regions ps : forall fs fs1 ids, wf fs -> get_field_objs fmt fs regions ps = Ok (fs1, ids) ->
  wf fs1 /\ (forall x, In x ids -> In x (order fs1)) /\ (forall x, In x (order fs) -> In x (order fs1) /\ obj fs1 x = obj fs x)
  /\ length ids = length ps.
Proof.
  induction ps as [|p ps IH]; intros fs fs1 ids W; cbn.
  - intros [= <- <-]. ands; auto. intros x [].
  - destruct (get_field_obj fmt fs regions p) as [[fs2 id]|] eqn:E; [|discriminate]. cbn [bind fst snd].
    destruct (get_field_objs fmt fs2 regions ps) as [[fs3 ids3]|] eqn:E'; [|discriminate]. cbn. intros [= <- <-].
    destruct (wf_get _ _ _ _ _ W E) as (W2 & I2 & O2 & _). destruct (IH _ _ _ W2 E') as (W3 & I3 & O3 & L). ands; auto.
    + intros x [<-|Hx]; [now apply O3|now apply I3].
    + intros x Hx. destruct (O2 x Hx) as [A B]. destruct (O3 x A) as [C D]. split; [exact C|congruence].
    + cbn. now rewrite L.
Qed.
Definition valid (s : @spec V) : Prop := mk_field (s_name s) (s_kind s) (s_params s) (s_regions s) = Ok s.
Lemma wf_add fs s fs1 : wf fs -> valid s -> add_field fmt fs s = Ok fs1 -> wf fs1.
Proof.
  intros W Vs. unfold add_field. destruct (get_field_objs _ _ _ _) as [[fs2 ids]|] eqn:E; [|discriminate]. cbn. intros [= <-].
  destruct (wf_gets _ _ _ _ _ W E) as (W2 & I2 & _ & L). set (f := mkF _ _ _ _ _). set (fs1 := mkFS _ _ _).
  assert (forall x, In x (order fs2) -> obj fs1 x = obj fs2 x) as Ho by (intros x Hx; apply obj_app; now apply (w_in _ W2)).
  assert (obj fs1 (length (heap fs2)) = f) as Hn by apply obj_new.
  assert (order fs1 = order fs2 ++ [length (heap fs2)]) as Eo by reflexivity.
  constructor; try rewrite Eo.
  - apply NoDup_app_iff. ands; [apply (w_nodup _ W2)|constructor; [intros []|constructor]|].
    intros x Hx [<-|[]]. apply (w_in _ W2) in Hx. lia.
  - intros x. unfold fs1. cbn [heap]. rewrite in_app_iff, app_length. cbn [length In]. rewrite (w_in _ W2). lia.
  - intros l1 x l2 E' q Hq. rewrite Eo in E'. destruct l2 as [|y l2] using rev_ind.
    + apply app_inj_tail in E' as [<- <-]. rewrite Hn in Hq. now apply I2.
    + clear IHl2. rewrite app_comm_cons, app_assoc in E'. apply app_inj_tail in E' as [E' _].
      apply (w_before _ W2 l1 x l2 E'). rewrite <- Ho; [exact Hq|]. rewrite E'. apply in_or_app. right. now left.
  - intros n x. unfold fs1. cbn [names]. destruct (pystr_eq_dec (s_name s) n) as [<-|N].
    + rewrite pget_pset_eq. intros [= <-]. apply in_or_app. right. now left.
    + rewrite pget_pset_neq by assumption. intros H. apply in_or_app. left. eapply w_names; eauto.
  - intros x a h Hx. apply in_app_iff in Hx as [Hx|[<-|[]]].
    + rewrite Ho by assumption. now apply (w_leaf _ W2).
    + rewrite Hn. cbn. intros K Z. unfold valid in Vs. rewrite K in Vs. cbn in Vs. rewrite Z in L. cbn in L.
      destruct (s_params s); [cbn in Vs; discriminate|discriminate].
Qed.
Lemma wf_adds ss : forall fs fs1, wf fs -> Forall valid ss -> add_fields fmt fs ss = Ok fs1 -> wf fs1.
Proof.
  induction ss as [|s ss IH]; intros fs fs1 W F; cbn; [now intros [= <-]|]. inversion F; subst.
  destruct (add_field fmt fs s) as [fs2|] eqn:E; [|discriminate]. cbn. apply IH; [|assumption]. eapply wf_add; eauto.
Qed.
Lemma wf_mk ss fs : Forall valid ss -> mk_fields fmt ss = Ok fs -> wf fs.
Proof. intros F. apply wf_adds; [apply wf_empty|exact F]. Qed.
Lemma obj_outer fs o id : exists b, obj (set_outer_fields fs o) id
  = mkF (f_name (obj fs id)) (f_kind (obj fs id)) (f_params (obj fs id)) (f_regions (obj fs id)) b
  /\ (id < length (heap fs) -> (b = true <-> In (f_name (obj fs id)) o)).
Proof using.
  unfold FieldModel.obj, set_outer_fields. cbn [heap]. set (g := fun f : fobj => _). destruct (Nat.lt_ge_cases id (length (heap fs))) as [L|L].
  - exists (f_outer (g (nth id (heap fs) (dummy zero)))). rewrite (nth_indep _ _ (g (dummy zero))) by now rewrite map_length.
    rewrite map_nth. split; [reflexivity|]. intros _. cbn. destruct in_dec as [H|H]; split; [intros _; exact H|reflexivity|discriminate|contradiction].
  - exists false. rewrite !nth_overflow by (rewrite ?map_length; lia). split; [reflexivity|lia].
Qed.
Lemma wf_outer fs o : wf fs -> wf (set_outer_fields fs o).
Proof using.
  intros W. constructor.
  - apply (w_nodup _ W).
  - intros id. cbn. rewrite map_length. apply (w_in _ W).
  - intros l1 id l2 E q. destruct (obj_outer fs o id) as (b & -> & _). cbn. now apply (w_before _ W l1 id l2).
  - apply (w_names _ W).
  - intros id a h Hi. destruct (obj_outer fs o id) as (b & -> & _). cbn. now apply (w_leaf _ W).
Qed.

(** ** Regions *)
Fixpoint pos (i : nat) (rs : list nat) (r : nat) : list nat :=
  match rs with [] => [] | x :: rs' => (if Nat.eqb x r then [i] else []) ++ pos (S i) rs' r end.
Lemma group_pos rs : forall i d r, dlist (group_regions i rs d) r = dlist d r ++ pos i rs r.
Proof.
  induction rs as [|x rs IH]; intros i d r; cbn; [now rewrite app_nil_r|]. rewrite IH. destruct (Nat.eqb_spec x r) as [->|N].
  - now rewrite dlist_dset_eq, <- app_assoc.
  - now rewrite dlist_dset_neq.
Qed.
Lemma In_pos rs : forall i r j, In j (pos i rs r) <-> exists k, j = i + k /\ nth_error rs k = Some r.
Proof.
  induction rs as [|x rs IH]; intros i r j; cbn.
  - split; [intros []|]. intros (k & _ & H). destruct k; discriminate.
  - rewrite in_app_iff, IH. split.
    + intros [H|(k & -> & H)].
      * destruct (Nat.eqb_spec x r) as [->|]; [|destruct H]. destruct H as [<-|[]]. exists 0. split; [lia|reflexivity].
      * exists (S k). split; [lia|exact H].
    + intros (k & -> & H). destruct k; cbn in H.
      * left. injection H as ->. rewrite Nat.eqb_refl. left. lia.
      * right. exists k. split; [lia|exact H].
Qed.
Lemma pick_app (pts : list P) a b : pick pts (a ++ b) = pick pts a ++ pick pts b.
Proof. apply flat_map_app. Qed.
Lemma pick_pos (pts : list P) : forall pre rs r, length pts = length rs ->
  pick (pre ++ pts) (pos (length pre) rs r) = map fst (filter (fun pr => Nat.eqb (snd pr) r) (combine pts rs)).
Proof.
  induction pts as [|p pts IH]; intros pre [|x rs] r L; try discriminate; [reflexivity|]. cbn [pos combine filter snd].
  rewrite pick_app. replace (pre ++ p :: pts) with ((pre ++ [p]) ++ pts) by now rewrite <- app_assoc.
  replace (S (length pre)) with (length (pre ++ [p])) by (rewrite app_length; cbn; lia).
  rewrite IH by now injection L. destruct (Nat.eqb x r); [|reflexivity]. cbn [pick flat_map].
  rewrite nth_error_app1 by (rewrite app_length; cbn; lia). rewrite nth_error_app2, Nat.sub_diag by lia. reflexivity.
Qed.
Lemma pick_seq (pts : list P) : pick pts (seq 0 (length pts)) = pts.
Proof.
  assert (forall pre, pick (pre ++ pts) (seq (length pre) (length pts)) = pts) as H; [|apply (H [])].
  induction pts as [|p pts IH]; intros pre; [reflexivity|]. cbn [length seq pick flat_map].
  rewrite nth_error_app2, Nat.sub_diag by lia. cbn [nth_error app]. f_equal. specialize (IH (pre ++ [p])).
  rewrite <- app_assoc, app_length in IH. cbn in IH. rewrite Nat.add_1_r in IH. exact IH.
Qed.

Section Mesh.
Variable points : list P.
Variable regs : list nat.
Variable rmap : list (pystr * nat).
Hypothesis Hlen : length points = length regs.
Notation groups := (group_regions 0 regs []).

Lemma region_points_ok rs : forall ids, region_points groups rmap rs = Ok ids ->
  pick points ids = flat_map (fun reg => map fst (filter (fun pr => match pget rmap reg with Some k => Nat.eqb (snd pr) k | None => false end) (combine points regs))) rs
  /\ (forall i, In i ids <-> exists r, nth_error regs i = Some r /\ existsb (fun reg => match pget rmap reg with Some k => Nat.eqb k r | None => false end) rs = true).
Proof.
  induction rs as [|reg rs IH]; intros ids; cbn.
  - intros [= <-]. split; [reflexivity|]. intros i. split; [intros []|]. intros (r & _ & H). discriminate.
  - destruct (pget rmap reg) as [k|]; [|discriminate]. destruct (region_points groups rmap rs) as [l|]; [|discriminate].
    cbn. intros [= <-]. destruct (IH l eq_refl) as [A B]. rewrite pick_app, A, group_pos. cbn [dlist dget app]. split.
    + f_equal. apply (pick_pos points []). exact Hlen.
    + intros i. rewrite in_app_iff, In_pos, B. split.
      * intros [(j & -> & H)|(r & H & E)].
        -- exists k. split; [exact H|]. now rewrite Nat.eqb_refl.
        -- exists r. split; [exact H|]. rewrite E. apply orb_true_r.
      * intros (r & H & E). apply orb_true_iff in E as [E|E].
        -- apply Nat.eqb_eq in E as ->. left. exists i. split; [reflexivity|exact H].
        -- right. eauto.
Qed.

Definition field_ids (f : @fobj V) (ids : list nat) : Prop :=
  match f_regions f with [] => ids = seq 0 (length points) | rs => region_points groups rmap rs = Ok ids end.
Lemma field_ids_ok f ids : field_ids f ids ->
  pick points ids = points_of rmap (f_regions f) (combine points regs)
  /\ (forall i, In i ids <-> exists r, nth_error regs i = Some r /\ inside rmap (f_regions f) r = true).
Proof.
  unfold field_ids. destruct (f_regions f) as [|reg rs].
  - intros ->. rewrite pick_seq. split.
    + unfold points_of. clear -Hlen. revert regs Hlen. induction points as [|p l IH]; intros [|r rs] H; try discriminate; [reflexivity|].
      cbn. f_equal. apply IH. now injection H.
    + intros i. rewrite in_seq. cbn. split.
      * intros [_ L]. rewrite Hlen in L. destruct (nth_error regs i) as [r|] eqn:E; [exists r; auto|].
        apply nth_error_None in E. lia.
      * intros (r & H & _). split; [lia|]. rewrite Hlen. apply nth_error_Some. congruence.
  - intros H. apply region_points_ok in H. exact H.
Qed.

(** Values put at the points of a field. *)
Lemma pick_map f ids : (forall i, In i ids -> i < length points) ->
  map f (pick points ids) = map (fun i => match nth_error points i with Some p => f p | None => zero end) ids.
Proof.
  unfold pick. induction ids as [|i ids IH]; intros H; [reflexivity|]. cbn. rewrite map_app, IH by (intros j Hj; apply H; now right).
  destruct (nth_error points i) eqn:E; [reflexivity|]. apply nth_error_None in E. specialize (H i (or_introl eq_refl)). lia.
Qed.
Lemma nth_error_upd {A} (l : list A) i f j : nth_error (upd l i f) j = if Nat.eqb i j then option_map f (nth_error l j) else nth_error l j.
Proof.
  revert i j. induction l as [|x l IH]; intros [|i] [|j]; cbn; auto.
  - now destruct (Nat.eqb i j).
Qed.
Lemma put_values_nth (g : nat -> V) ids : forall l j, j < length l ->
  nth_error (put_values l ids (map g ids)) j = if in_dec Nat.eq_dec j ids then Some (g j) else nth_error l j.
Proof.
  induction ids as [|i ids IH]; intros l j L; [reflexivity|]. cbn [map put_values].
  assert (j < length (upd l i (fun _ => g i))) as L' by (rewrite upd_length; exact L).
  rewrite (IH _ _ L'). destruct (in_dec Nat.eq_dec j ids) as [I|I], (in_dec Nat.eq_dec j (i :: ids)) as [J|J]; auto.
  - exfalso. apply J. now right.
  - rewrite nth_error_upd. destruct J as [->|J]; [|contradiction]. rewrite Nat.eqb_refl.
    destruct (nth_error l j) eqn:E; [reflexivity|]. apply nth_error_None in E. lia.
  - rewrite nth_error_upd. destruct (Nat.eqb_spec i j) as [->|]; [exfalso; apply J; now left|reflexivity].
Qed.
Lemma put_values_len ids : forall (l : list V) vals, length (put_values l ids vals) = length l.
Proof. induction ids as [|i ids IH]; intros l [|v vals]; cbn; auto. now rewrite IH, upd_length. Qed.
Lemma nth_error_ext {A} (l m : list A) : (forall i, nth_error l i = nth_error m i) -> l = m.
Proof.
  revert m. induction l as [|x l IH]; intros [|y m] H; auto.
  - specialize (H 0). discriminate.
  - specialize (H 0). discriminate.
  - pose proof (H 0) as H0. injection H0 as ->. f_equal. apply IH. intros i. apply (H (S i)).
Qed.
Lemma nth_error_combine {A B} (l : list A) (m : list B) i : nth_error (combine l m) i =
  match nth_error l i, nth_error m i with Some a, Some b => Some (a, b) | _, _ => None end.
Proof.
  revert m i. induction l as [|x l IH]; intros [|y m] [|i]; cbn; auto. now destruct (nth_error l i).
Qed.
Lemma assign_ok f ids v : field_ids f ids ->
  assign (repeat zero (length points)) ids (map v (pick points ids)) = Ok (on_mesh zero rmap (f_regions f) v (combine points regs)).
Proof.
  intros H. destruct (field_ids_ok f ids H) as [_ B].
  assert (forall i, In i ids -> i < length points) as L.
  { intros i Hi. apply B in Hi as (r & E & _). rewrite Hlen. apply nth_error_Some. congruence. }
  rewrite (pick_map v ids L). unfold assign. rewrite map_length, Nat.eqb_refl. f_equal.
  apply nth_error_ext. intros j. unfold on_mesh. rewrite nth_error_map, nth_error_combine.
  destruct (Nat.lt_ge_cases j (length points)) as [Lj|Lj].
  - rewrite put_values_nth by now rewrite repeat_length. specialize (B j).
    destruct (nth_error points j) as [p|] eqn:Ep; [|apply nth_error_None in Ep; lia].
    destruct (nth_error regs j) as [r|] eqn:Er; [|apply nth_error_None in Er; lia]. cbn.
    destruct (in_dec Nat.eq_dec j ids) as [I|I].
    + apply B in I as (r' & E & I). injection E as <-. now rewrite I.
    + destruct (inside rmap (f_regions f) r) eqn:I'; [exfalso; apply I, B; eauto|]. now apply nth_error_repeat.
  - replace (nth_error points j) with (@None P) by (symmetry; now apply nth_error_None). cbn. apply nth_error_None.
    now rewrite put_values_len, repeat_length.
Qed.

(** ** set_points *)
Lemma set_field_ok fs m id m1 : set_field zero rf_ok fs points groups rmap m id = Ok m1 ->
  m_n m = length points ->
  let f := obj fs id in
  exists ids, field_ids f ids /\ m_n m1 = m_n m /\ m_draws m1 = m_draws m /\ m_ids m1 = dset (m_ids m) id ids
    /\ match f_kind f with
       | KConst c => m_samples m1 = dset (m_samples m) id (repeat c (length (pick points ids))) /\ m_pts m1 = m_pts m
       | KRandom r => m_samples m1 = m_samples m /\ m_pts m1 = dset (m_pts m) r (pick points ids)
       | KFunc _ _ => m_samples m1 = m_samples m /\ m_pts m1 = m_pts m
       end.
Proof.
  unfold set_field, field_ids. intros E Hn. cbv zeta. revert E. destruct (f_regions (obj fs id)) as [|reg rs].
  - intros E. exists (seq 0 (length points)). rewrite pick_seq. revert E. unfold field_set_points. destruct (f_kind (obj fs id)) as [c|r|a h]; cbn.
    + intros [= <-]. cbn. rewrite Hn. ands; auto.
    + destruct (rf_ok r points); [|discriminate]. intros [= <-]. cbn. rewrite Hn. ands; auto.
    + intros [= <-]. cbn. rewrite Hn. ands; auto.
  - destruct (region_points groups rmap (reg :: rs)) as [ids|]; [|discriminate]. cbn [bind]. intros E. exists ids. revert E.
    unfold field_set_points. destruct (f_kind (obj fs id)) as [c|r|a h]; cbn.
    + intros [= <-]. cbn. ands; auto.
    + destruct (rf_ok r _); [|discriminate]. intros [= <-]. cbn. ands; auto.
    + intros [= <-]. cbn. ands; auto.
Qed.

Definition placed (fs : @fset V) (m : mstate) (id : nat) : Prop :=
  let f := obj fs id in
  exists ids, field_ids f ids /\ dget (m_ids m) id = Some ids
    /\ match f_kind f with
       | KConst c => dget (m_samples m) id = Some (repeat c (length (pick points ids)))
       | KRandom r => dget (m_pts m) r = Some (pick points ids)
       | KFunc _ _ => True
       end.
Lemma set_fields_ok fs l : forall m m1,
  set_fields zero rf_ok fs points groups rmap m l = Ok m1 -> m_n m = length points -> NoDup l ->
  (forall a b r, In a l -> In b l -> f_kind (obj fs a) = KRandom r -> f_kind (obj fs b) = KRandom r -> a = b) ->
  m_n m1 = length points /\ m_draws m1 = m_draws m /\ (forall id, In id l -> placed fs m1 id)
  /\ (forall id, ~ In id l -> dget (m_ids m1) id = dget (m_ids m) id /\ dget (m_samples m1) id = dget (m_samples m) id)
  /\ (forall r, (forall id, In id l -> f_kind (obj fs id) <> KRandom r) -> dget (m_pts m1) r = dget (m_pts m) r).
Proof.
  induction l as [|id l IH]; intros m m1 E Hn Nd U; cbn in E.
  - injection E as <-. ands; auto. intros id [].
  - destruct (set_field _ _ _ _ _ _ _ _) as [m2|] eqn:E2; [|discriminate]. cbn in E.
    apply NoDup_cons_iff in Nd as [Ni Nd]. destruct (set_field_ok _ _ _ _ E2 Hn) as (ids & F & N2 & D2 & I2 & K2).
    destruct (IH _ _ E) as (N1 & D1 & P1 & O1 & R1); [congruence|exact Nd| |].
    { intros a b r A B. apply U; now right. }
    ands; [exact N1|congruence| | |].
    + intros x [<-|Hx]; [|now apply P1]. exists ids. split; [exact F|]. destruct (O1 id Ni) as [A B]. rewrite A, I2, dget_dset_eq.
      split; [reflexivity|]. destruct (f_kind (obj fs id)) as [c|r|a h] eqn:K; [| |exact I].
      * destruct K2 as [K2 _]. now rewrite B, K2, dget_dset_eq.
      * destruct K2 as [_ K2]. rewrite R1; [now rewrite K2, dget_dset_eq|]. intros y Hy Ky. apply Ni.
        assert (id = y) as -> by (apply (U id y r); auto; [now left|now right]). exact Hy.
    + intros x Hx. destruct (O1 x) as [A B]; [intros H; apply Hx; now right|]. rewrite A, B, I2.
      assert (id <> x) as N by (intros ->; apply Hx; now left). rewrite dget_dset_neq by congruence. split; [reflexivity|].
      destruct (f_kind (obj fs id)); destruct K2 as [-> _]; [rewrite dget_dset_neq by congruence|..]; reflexivity.
    + intros r Hr. rewrite R1 by (intros y Hy; apply Hr; now right).
      pose proof (Hr id (or_introl eq_refl)) as Hi. destruct (f_kind (obj fs id)); destruct K2 as [_ ->]; auto. rewrite dget_dset_neq by congruence. reflexivity.
Qed.

(** ** sample *)
Lemma vec_ok h (params : list nat) (val : nat -> P -> V) (pts : list P) : params <> [] ->
  vec zero h (map (fun q => map (val q) pts) params) = Ok (map (fun p => h (map (fun q => val q p) params)) pts).
Proof.
  intros Hne. set (args := map _ params).
  assert (forall a, In a args -> length a = length pts) as La by (intros a Ha; apply in_map_iff in Ha as (q & <- & _); now rewrite map_length).
  assert (vec_len args = length pts) as Lv.
  { unfold vec_len. destruct (find _ args) as [a|] eqn:E.
    - apply find_some in E as [E _]. now apply La.
    - destruct params as [|q params]; [contradiction|]. assert (In (map (val q) pts) args) as I by (left; reflexivity).
      pose proof (find_none _ _ E _ I) as X. apply negb_false_iff, Nat.eqb_eq in X. rewrite map_length in X. congruence. }
  unfold vec. rewrite Lv. replace (forallb _ args) with true.
  2:{ symmetry. apply forallb_forall. intros a Ha. rewrite (La a Ha), Nat.eqb_refl. apply orb_true_r. }
  f_equal. apply nth_error_ext. intros j. rewrite !nth_error_map. destruct (Nat.lt_ge_cases j (length pts)) as [L|L].
  - destruct (nth_error pts j) as [p|] eqn:Ep; [|apply nth_error_None in Ep; lia].
    replace (nth_error (seq 0 (length pts)) j) with (Some j).
    2:{ symmetry. rewrite nth_error_nth' with (d := 0) by now rewrite seq_length. now rewrite seq_nth. }
    cbn. f_equal. f_equal. unfold args. rewrite map_map. apply map_ext. intros q. rewrite map_length.
    replace (if Nat.eqb (length pts) 1 then 0 else j) with j by (destruct (Nat.eqb_spec (length pts) 1); lia).
    apply nth_error_nth. rewrite nth_error_map, Ep. reflexivity.
  - replace (nth_error pts j) with (@None P) by (symmetry; now apply nth_error_None).
    replace (nth_error (seq 0 (length pts)) j) with (@None nat) by (symmetry; apply nth_error_None; now rewrite seq_length). reflexivity.
Qed.

Variable fs : @fset V.
Variable m0 : mstate (V := V) (P := P).
Variable G val : nat -> P -> V.
Hypothesis W : wf fs.
Hypothesis A : aligned zero fs.
Hypothesis Val : is_values zero fs G val.
Hypothesis Hn : m_n m0 = length points.
Hypothesis Pl : forall id, In id (order fs) -> placed fs m0 id.
Notation mesh := (combine points regs).
Notation pts_of id := (points_of rmap (f_regions (obj fs id)) mesh).
Hypothesis Real : forall id r, In id (order fs) -> f_kind (obj fs id) = KRandom r ->
  rf_draw r (m_draws m0 + draw_no zero fs (order fs) id) (pts_of id) = map (G id) (pts_of id).

Definition randoms (l : list nat) : nat := length (filter (is_random zero fs) l).
Lemma draw_no_app l1 id l2 : ~ In id l1 -> draw_no zero fs (l1 ++ id :: l2) id = randoms l1.
Proof.
  unfold randoms. induction l1 as [|x l1 IH]; intros N; cbn; [now rewrite Nat.eqb_refl|].
  destruct (Nat.eqb_spec x id) as [->|]; [exfalso; apply N; now left|]. rewrite IH by (intros H; apply N; now right).
  destruct (is_random zero fs x); reflexivity.
Qed.

Definition good (l1 : list nat) (m : mstate (V := V) (P := P)) (result : list (pystr * list V)) : Prop :=
  m_n m = length points /\ m_pts m = m_pts m0 /\ m_ids m = m_ids m0 /\ m_draws m = m_draws m0 + randoms l1
  /\ (forall id, In id l1 -> dget (m_samples m) id = Some (map (val id) (pts_of id)))
  /\ (forall id, In id (order fs) -> ~ In id l1 -> dget (m_samples m) id = dget (m_samples m0) id)
  /\ (forall name, In name (map fst result) <-> exists id, In id l1 /\ f_outer (obj fs id) = true /\ f_name (obj fs id) = name)
  /\ (forall name id a b, l1 = a ++ id :: b -> f_outer (obj fs id) = true -> f_name (obj fs id) = name ->
        (forall x, In x b -> f_name (obj fs x) = name -> f_outer (obj fs x) = false) ->
        pget result name = Some (on_mesh zero rmap (f_regions (obj fs id)) (val id) mesh)).

Lemma get_samples_ok (m : mstate (V := V) (P := P)) l : (forall id, In id l -> dget (m_samples m) id = Some (map (val id) (pts_of id))) ->
  get_samples m l = Ok (map (fun q => map (val q) (pts_of q)) l).
Proof.
  induction l as [|id l IH]; intros H; [reflexivity|]. cbn. rewrite (H id (or_introl eq_refl)).
  rewrite IH by (intros x Hx; apply H; now right). reflexivity.
Qed.

Lemma field_sample_ok l1 id l2 m result : order fs = l1 ++ id :: l2 -> good l1 m result ->
  exists m1, field_sample zero rf_draw m (obj fs id) id = Ok (m1, map (val id) (pts_of id))
    /\ m_n m1 = length points /\ m_pts m1 = m_pts m0 /\ m_ids m1 = m_ids m0 /\ m_draws m1 = m_draws m0 + randoms (l1 ++ [id])
    /\ dget (m_samples m1) id = Some (map (val id) (pts_of id))
    /\ (forall x, x <> id -> dget (m_samples m1) x = dget (m_samples m) x).
Proof.
  intros E (N & Pp & I & D & S1 & S0 & _ & _).
  assert (In id (order fs)) as Hid by (rewrite E; apply in_or_app; right; now left).
  assert (~ In id l1) as Nid.
  { pose proof (w_nodup _ W) as Nd. rewrite E in Nd. apply NoDup_remove_2 in Nd. intros H. apply Nd, in_or_app. now left. }
  destruct (Pl id Hid) as (ids & F & Di & K). pose proof (Val id Hid) as Vi. unfold field_sample.
  destruct (field_ids_ok _ _ F) as [Pk _].
  assert (randoms (l1 ++ [id]) = randoms l1 + if is_random zero fs id then 1 else 0) as Rn.
  { unfold randoms. rewrite filter_app, app_length. cbn. now destruct (is_random zero fs id). }
  unfold is_random in Rn. destruct (f_kind (obj fs id)) as [c|r|a h] eqn:Kd.
  - rewrite (S0 id Hid Nid), K, Pk. exists m.
    assert (repeat c (length (pts_of id)) = map (val id) (pts_of id)) as Ec.
    { clear -Vi. induction (pts_of id) as [|p l IH]; [reflexivity|]. cbn. now rewrite Vi, IH. }
    rewrite Ec. ands; auto; [rewrite D, Rn; lia|]. now rewrite (S0 id Hid Nid), K, Pk, Ec.
  - rewrite Pp, K, Pk.
    assert (rf_draw r (m_draws m) (pts_of id) = map (val id) (pts_of id)) as Er.
    { rewrite D. rewrite <- (draw_no_app l1 id l2 Nid), <- E. rewrite (Real id r Hid Kd). apply map_ext. intros p. now rewrite Vi. }
    rewrite Er. eexists. split; [reflexivity|]. cbn. ands; auto; [rewrite D, Rn; lia|apply dget_dset_eq|].
    intros x Hx. apply dget_dset_neq. congruence.
  - assert (forall q, In q (f_params (obj fs id)) -> In q l1) as Hb by (apply (w_before _ W l1 id l2 E)).
    rewrite get_samples_ok by (intros q Hq; apply S1; now apply Hb). cbn [bind].
    assert (map (fun q => map (val q) (pts_of q)) (f_params (obj fs id)) = map (fun q => map (val q) (pts_of id)) (f_params (obj fs id))) as Em.
    { apply map_ext_in. intros q Hq. now rewrite (A id Hid q Hq). }
    rewrite Em, vec_ok by (eapply w_leaf; eauto). cbn [bind].
    assert (map (fun p => h (map (fun q => val q p) (f_params (obj fs id)))) (pts_of id) = map (val id) (pts_of id)) as Ev
      by (apply map_ext; intros p; now rewrite Vi).
    rewrite Ev. eexists. split; [reflexivity|]. cbn. ands; auto; [rewrite D, Rn; lia|apply dget_dset_eq|].
    intros x Hx. apply dget_dset_neq. congruence.
Qed.

Lemma sample_one_ok l1 id l2 m result : order fs = l1 ++ id :: l2 -> good l1 m result ->
  exists m1 result1, sample_one zero rf_draw fs (m, result) id = Ok (m1, result1) /\ good (l1 ++ [id]) m1 result1.
Proof.
  intros E Gd. destruct (field_sample_ok _ _ _ _ _ E Gd) as (m1 & Fs & N & Pp & I & D & Si & So).
  destruct Gd as (_ & _ & _ & _ & S1 & S0 & R1 & R2).
  assert (In id (order fs)) as Hid by (rewrite E; apply in_or_app; right; now left).
  assert (~ In id l1) as Nid.
  { pose proof (w_nodup _ W) as Nd. rewrite E in Nd. apply NoDup_remove_2 in Nd. intros H. apply Nd, in_or_app. now left. }
  assert (forall x, In x (l1 ++ [id]) -> dget (m_samples m1) x = Some (map (val x) (pts_of x))) as H1.
  { intros x Hx. apply in_app_iff in Hx as [Hx|[<-|[]]]; [|exact Si]. rewrite So by (intros ->; contradiction). now apply S1. }
  assert (forall x, In x (order fs) -> ~ In x (l1 ++ [id]) -> dget (m_samples m1) x = dget (m_samples m0) x) as H0.
  { intros x Hx Nx. rewrite So by (intros ->; apply Nx, in_or_app; right; now left). apply S0; [exact Hx|]. intros H. apply Nx, in_or_app. now left. }
  destruct (Pl id Hid) as (ids & F & Di & _). destruct (field_ids_ok _ _ F) as [Pk _].
  unfold sample_one. rewrite Fs. cbn [bind]. destruct (f_outer (obj fs id)) eqn:O.
  - rewrite I, Di, N, <- Pk, (assign_ok (obj fs id) ids (val id) F). cbn [bind]. eexists _, _. split; [reflexivity|].
    unfold good. ands; auto.
    + intros name. rewrite pset_keys, R1. split.
      * intros [->|(x & Hx & Ho & Hm)]; [exists id|exists x]; (split; [apply in_or_app; auto|auto]). right. now left.
      * intros (x & Hx & Ho & Hm). apply in_app_iff in Hx as [Hx|[<-|[]]]; [right; eauto|now left].
    + intros name x a b Ex Ho Hm Hl. destruct b as [|y b] using rev_ind.
      * apply app_inj_tail in Ex as [<- <-]. rewrite <- Hm. apply pget_pset_eq.
      * clear IHb. rewrite app_comm_cons, app_assoc in Ex. apply app_inj_tail in Ex as [-> ->].
        assert (f_name (obj fs y) <> name) as Ny.
        { intros Hy. rewrite (Hl y) in O; [discriminate|apply in_or_app; right; now left|exact Hy]. }
        rewrite pget_pset_neq by assumption. apply (R2 name x a b eq_refl Ho Hm). intros z Hz. apply Hl, in_or_app. now left.
  - eexists _, _. split; [reflexivity|]. unfold good. ands; auto.
    + intros name. rewrite R1. split.
      * intros (x & Hx & Ho & Hm). exists x. split; [apply in_or_app; auto|auto].
      * intros (x & Hx & Ho & Hm). apply in_app_iff in Hx as [Hx|[<-|[]]]; [eauto|congruence].
    + intros name x a b Ex Ho Hm Hl. destruct b as [|y b] using rev_ind.
      * apply app_inj_tail in Ex as [<- <-]. congruence.
      * clear IHb. rewrite app_comm_cons, app_assoc in Ex. apply app_inj_tail in Ex as [-> ->].
        apply (R2 name x a b eq_refl Ho Hm). intros z Hz. apply Hl, in_or_app. now left.
Qed.
Lemma sample_loop_ok l2 : forall l1 m result, order fs = l1 ++ l2 -> good l1 m result ->
  exists m1 result1, sample_loop zero rf_draw fs (m, result) l2 = Ok (m1, result1) /\ good (order fs) m1 result1.
Proof.
  induction l2 as [|id l2 IH]; intros l1 m result E Gd.
  - rewrite app_nil_r in E. rewrite E. exists m, result. split; [reflexivity|exact Gd].
  - destruct (sample_one_ok _ _ _ _ _ E Gd) as (m1 & r1 & E1 & G1). cbn [sample_loop]. rewrite E1. cbn [bind].
    apply (IH (l1 ++ [id])); [now rewrite <- app_assoc|exact G1].
Qed.
Lemma sample_ok : exists m1 result, sample zero rf_draw fs m0 = Ok (m1, result) /\ good (order fs) m1 result.
Proof.
  apply (sample_loop_ok (order fs) []); [reflexivity|]. unfold good. split; [exact Hn|]. do 2 (split; [reflexivity|]). split; [cbn; lia|]. split; [intros id []|].
  split; [reflexivity|]. split.
  - intros name. cbn. split; [intros []|intros (id & [] & _)].
  - intros name id a b E. destruct a; discriminate.
Qed.
End Mesh.

(** Values exist: fields are evaluated in their order. *)
Lemma values_exist fs (G : nat -> P -> V) : wf fs -> exists val, is_values zero fs G val.
Proof.
  intros W.
  assert (forall l2 l1, order fs = l1 ++ l2 -> exists val : nat -> P -> V, forall id, In id l1 -> forall p,
    match f_kind (obj fs id) with
    | KConst c => val id p = c
    | KRandom _ => val id p = G id p
    | KFunc _ h => val id p = h (map (fun q => val q p) (f_params (obj fs id)))
    end) as H.
  2:{ destruct (H [] (order fs)) as (val & Hv); [now rewrite app_nil_r|]. exists val. exact Hv. }
  intros l2 l1 E. revert l2 E. induction l1 as [|id l1 IH] using rev_ind; intros l2 E.
  - exists (fun _ _ => zero). intros id [].
  - rewrite <- app_assoc in E. cbn in E. destruct (IH _ E) as (val & Hv).
    assert (~ In id l1) as Nid.
    { pose proof (w_nodup _ W) as Nd. rewrite E in Nd. apply NoDup_remove_2 in Nd. intros X. apply Nd, in_or_app. now left. }
    set (v := fun p => match f_kind (obj fs id) with KConst c => c | KRandom _ => G id p
                       | KFunc _ h => h (map (fun q => val q p) (f_params (obj fs id))) end).
    exists (fun x p => if Nat.eqb x id then v p else val x p). intros x Hx p.
    apply in_app_iff in Hx as [Hx|[<-|[]]].
    + destruct (Nat.eqb_spec x id) as [->|_]; [contradiction|]. specialize (Hv x Hx p).
      destruct (f_kind (obj fs x)) as [c|r|a h]; [exact Hv|exact Hv|]. rewrite Hv. f_equal. apply map_ext_in. intros q Hq.
      apply in_split in Hx as (a1 & b1 & ->).
      assert (In q a1) as Hq1 by (apply (w_before _ W a1 x (b1 ++ id :: l2)); [now rewrite E, <- app_assoc|exact Hq]).
      destruct (Nat.eqb_spec q id) as [->|]; [|reflexivity]. exfalso. apply Nid, in_or_app. now left.
    + rewrite Nat.eqb_refl. unfold v. destruct (f_kind (obj fs id)) as [c|r|a h]; [reflexivity|reflexivity|].
      f_equal. apply map_ext_in. intros q Hq. assert (In q l1) as Hq1 by (apply (w_before _ W l1 id l2 E q Hq)).
      destruct (Nat.eqb_spec q id) as [->|]; [contradiction|reflexivity].
Qed.
End Proofs.
