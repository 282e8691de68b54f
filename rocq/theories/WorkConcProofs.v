From Coq Require Import FunctionalExtensionality.
From Verif Require Import Base BaseFacts TagModel TagSpec TagProofs WorkModel WorkSpec WorkProofs WorkConcModel.

Section WorkConcProofs.
Context {C : Type}.
Notation fs := (@fs C).
Notation view_ := (pystr -> option (@entry C)).

(** The tree with the directories of active samples put in. *)
Definition layer (out : path) (act : pystr -> option view_) (s : fs) : fs :=
  fun q => match strip out q with
           | Some (x :: r) => match act x with Some v => tree v r | None => s q end
           | _ => s q
           end.
Definition upd_act (act : pystr -> option view_) (id : pystr) (v : option view_) : pystr -> option view_ :=
  fun x => if same id x then v else act x.

Lemma upd_act_eq act id v : upd_act act id v id = v.
Proof. unfold upd_act. now rewrite same_refl. Qed.
Lemma upd_act_ne act id v x : id <> x -> upd_act act id v x = act x.
Proof. intros H. unfold upd_act. now rewrite (proj2 (same_false id x) H). Qed.

Lemma strip_snoc out id q :
  strip (out ++ [id]) q = match strip out q with Some (x :: r) => if same id x then Some r else None | _ => None end.
Proof.
  destruct (strip out q) as [r|] eqn:E.
  - apply strip_Some in E. subst q. rewrite strip_app_app. destruct r as [|x r]; cbn; [reflexivity|].
    unfold same. now destruct (pystr_eq_dec id x).
  - now apply strip_out_None.
Qed.

Lemma over_layer out act s id v : over (out ++ [id]) (tree v) (layer out act s) = layer out (upd_act act id (Some v)) s.
Proof.
  extensionality q. unfold over, layer. rewrite strip_snoc. destruct (strip out q) as [[|x r]|]; try reflexivity.
  unfold upd_act. destruct (same id x) eqn:E; reflexivity.
Qed.

Lemma layer_over out act s id v : act id = Some v ->
  layer out act s = over (out ++ [id]) (tree v) (layer out (upd_act act id None) s).
Proof.
  intros H. rewrite over_layer. f_equal. extensionality x. unfold upd_act.
  destruct (same id x) eqn:E; [|reflexivity]. apply same_true in E. now subst.
Qed.

Lemma layer_self out act s id v : act id = Some v -> layer out act s = over (out ++ [id]) (tree v) (layer out act s).
Proof.
  intros H. rewrite over_layer. f_equal. extensionality x. unfold upd_act.
  destruct (same id x) eqn:E; [|reflexivity]. apply same_true in E. now subst.
Qed.

Definition good_act (act : pystr -> option view_) : Prop := forall id v, act id = Some v -> good_id id /\ plain v.

Lemma layer_clean s0 out h s act id : above s0 out -> holds s0 out h s -> good_id id -> act id = None ->
  clean (layer out act s) out id.
Proof.
  intros Ha H Hid Hn. destruct (holds_clean _ _ _ _ _ Ha H Hid) as [H1 H2]. split.
  - intros q Hq. rewrite <- (H1 q Hq). unfold layer. destruct (strip out q) as [[|x r]|] eqn:E; try reflexivity.
    apply strip_Some in E. subst q. apply under_true in Hq. destruct Hq as [r' Hq].
    apply (f_equal (@length _)) in Hq. rewrite !app_length in Hq. cbn in Hq. lia.
  - intros r. unfold layer. rewrite strip_app, Hn. apply H2.
Qed.

Lemma layer_base s0 out h s act f r : holds s0 out h s -> good_act act -> (f = str "failed" \/ f = str "several_successful") ->
  layer out act s (out ++ f :: r) = s (out ++ f :: r).
Proof.
  intros H Hg Hf. unfold layer. rewrite strip_app. destruct (act f) as [v|] eqn:E; [|reflexivity].
  apply Hg in E. destruct E as [E _]. apply good_id_ne in E. destruct Hf; subst; tauto.
Qed.

Lemma over_dest_layer out act s f id v : act f = None ->
  over (out ++ [f; id]) (tree v) (layer out act s) = layer out act (over (out ++ [f; id]) (tree v) s).
Proof.
  intros Hn. extensionality q. unfold over, layer. destruct (strip out q) as [[|x r]|] eqn:E.
  - apply strip_Some in E. subst q. now rewrite strip_app_app.
  - apply strip_Some in E. subst q. rewrite strip_app_app. cbn [strip].
    destruct (pystr_eq_dec f x) as [->|]; [now rewrite Hn|]. destruct (act x); reflexivity.
  - now rewrite (strip_out_None _ _ _ E).
Qed.

Lemma layer_outside out act s p : (forall r, p <> out ++ r) -> layer out act s p = s p.
Proof. intros H. unfold layer. now rewrite (proj2 (strip_None _ _) H). Qed.

(** ** Invariant of a pool of processes *)
Section Inv.
Variables (s0 : fs) (out : path).
Hypothesis Hab : above s0 out.

Definition fine (x : @sample C) : Prop := good_id (sid x) /\ good_common s0 out (cfiles x).

Definition comm (x : @sample C) : view_ := common_file s0 (cfiles x).

Definition worker_ok (act : pystr -> option view_) (st : @status C) (d : option path) : Prop :=
  match st with
  | Idle => True
  | Prepared id ls => exists x, fine x /\ id = sid x /\ ls = level x /\ d = Some (out ++ [id]) /\ act id = Some (comm x)
  | Writing id ls rest ok =>
      exists x don, fine x /\ id = sid x /\ ls = level x /\ d = Some (out ++ [id])
        /\ prog x (sid x) (comm x) = (don ++ rest, ok) /\ act id = Some (after_writes (comm x) don)
  end.

Definition busy (st : @status C) : option pystr :=
  match st with Idle => None | Prepared id _ => Some id | Writing id _ _ _ => Some id end.

Record inv (started : list pystr) (h : list (@sample C)) (s : @cstate C) : Prop := mkI
  { i_tree : exists base act, holds s0 out h base /\ good_act act /\ cfiles_ s = layer out act base
             /\ (forall k, worker_ok act (work s k) (cdir s k))
             /\ Forall (fun y => exists x, fine x /\ y = (sid x, level x, succeeds s0 x)
                                           /\ act (sid x) = Some (left_file s0 x)) (pending s)
             /\ (forall id, act id <> None -> (exists k, busy (work s k) = Some id) \/ In id (map (fun y => fst (fst y)) (pending s)));
    i_one : forall k j id, busy (work s k) = Some id -> busy (work s j) = Some id -> k = j;
    i_pend : forall k id, busy (work s k) = Some id -> ~ In id (map (fun y => fst (fst y)) (pending s));
    i_nodup : NoDup (map (fun y => fst (fst y)) (pending s));
    i_started : (forall k id, busy (work s k) = Some id -> In id started)
                /\ (forall id, In id (map (fun y => fst (fst y)) (pending s)) -> In id started)
                /\ (forall id, In id (map sid h) -> In id started);
    i_delivered : delivered s = map (fun x => (sid x, level x, succeeds s0 x)) h /\ Forall fine h }.

Lemma upd_at_eq {A} (f : nat -> A) k v : upd_at f k v k = v.
Proof. unfold upd_at. now rewrite Nat.eqb_refl. Qed.
Lemma upd_at_ne {A} (f : nat -> A) k v j : j <> k -> upd_at f k v j = f j.
Proof. intros H. unfold upd_at. destruct (Nat.eqb_spec j k); congruence. Qed.

(** A worker's state depends on the activity of its own sample only. *)
Lemma worker_act act act' st d : (forall id, busy st = Some id -> act' id = act id) -> worker_ok act st d -> worker_ok act' st d.
Proof.
  intros H. destruct st as [|id ls|id ls rest ok]; cbn; auto.
  - intros [x [H1 [H2 [H3 [H4 H5]]]]]. exists x. rewrite (H _ eq_refl). auto.
  - intros [x [don [H1 [H2 [H3 [H4 [H5 H6]]]]]]]. exists x, don. rewrite (H _ eq_refl). tauto.
Qed.

Lemma layer_common h base act x : holds s0 out h base -> good_common s0 out (cfiles x) ->
  common_file (layer out act base) (cfiles x) = comm x /\ good_common (layer out act base) out (cfiles x).
Proof.
  intros H Hg. split.
  - extensionality n. unfold comm, common_file.
    match goal with |- context[last_such ?f ?l] => destruct (last_such f l) as [p|] eqn:E end; [|reflexivity].
    apply last_such_In in E. destruct (Hg p (proj1 E)) as [_ Hp].
    rewrite (layer_outside _ _ _ _ Hp). now apply (h_outside _ _ _ _ H).
  - intros p Hp. destruct (Hg p Hp) as [[c Hc] Hn]. split; [|exact Hn]. exists c.
    rewrite (layer_outside _ _ _ _ Hn). now rewrite (h_outside _ _ _ _ H).
Qed.

Lemma handle_layer h base act x d : holds s0 out h base -> good_act act -> fine x -> act (sid x) = None ->
  handle_sim_files (mkW (layer out act base) d) out (sid x) (level x)
  = Ok (mkW (layer out (upd_act act (sid x) (Some (comm x))) base) (Some (out ++ [sid x]))).
Proof.
  intros H Hg [Hid Hc] Hn.
  destruct (layer_common h base act x H Hc) as [E1 E2].
  pose proof (layer_clean _ _ _ _ act _ Hab H Hid Hn) as Hcl.
  unfold handle_sim_files. cbn [need level files cwd common]. rewrite (change_clean _ _ _ Hcl). cbn [bind].
  rewrite copy_over.
  2: { intros n. discriminate. }
  2: { intros p Hp. destruct (E2 p Hp) as [H1 H2]. split; [exact H1|].
       apply strip_None. intros r ->. apply (H2 (sid x :: r)). now rewrite <- app_assoc. }
  cbn [bind]. do 2 f_equal.
  match goal with |- over _ (tree ?v) _ = _ => change v with (common_file (layer out act base) (cfiles x)) end.
  rewrite E1. apply over_layer.
Qed.

Lemma act_plain_common x : fine x -> plain (comm x).
Proof. intros [_ H]. eapply common_plain; eauto. Qed.

Lemma remove_nth_split {A} i (l : list A) x : nth_error l i = Some x ->
  exists a b, l = a ++ x :: b /\ remove_nth i l = a ++ b.
Proof.
  revert i. induction l as [|y l IH]; intros [|i] H; cbn in H; try discriminate.
  - injection H as ->. exists [], l. auto.
  - destruct (IH _ H) as [a [b [E1 E2]]]. exists (y :: a), b. cbn. now rewrite E1 at 1; rewrite E2.
Qed.

Lemma step_start started h s k x s' : inv started h s -> fine x -> ~ In (sid x) started ->
  cstep false (pool_of out) (Start k (sid x) (level x)) s = Some s' -> inv (sid x :: started) h s'.
Proof.
  intros I Hx Hf. unfold cstep, place. cbn [output_dir pool_of].
  destruct (work s k) eqn:Ew; try discriminate.
  destruct I as [[base [act [T1 [T2 [T3 [T4 [T5 T6]]]]]]] I1 I2 I3 [I4 [I5 I5']] I6].
  assert (Hact : act (sid x) = None).
  { destruct (act (sid x)) eqn:E; [|reflexivity]. destruct (T6 (sid x)) as [[j Hj]|Hj]; [congruence| |].
    - destruct Hf. eapply I4; eauto.
    - destruct Hf. now apply I5. }
  rewrite T3, (handle_layer h base act x _ T1 T2 Hx Hact). intros [= <-]. cbn [files cwd].
  assert (Hnb : forall j id, busy (work s j) = Some id -> id <> sid x).
  { intros j id Hj ->. apply Hf. eapply I4; eauto. }
  constructor; cbn [cfiles_ cdir work pending delivered].
  - exists base, (upd_act act (sid x) (Some (comm x))). ands.
    + exact T1.
    + intros id v. unfold upd_act. destruct (same (sid x) id) eqn:E; [|apply T2].
      apply same_true in E. subst id. intros [= <-]. split; [apply Hx|now apply act_plain_common].
    + reflexivity.
    + intros j. destruct (Nat.eq_dec j k) as [->|Hne].
      * rewrite !upd_at_eq. cbn. exists x. rewrite upd_act_eq. auto.
      * rewrite !upd_at_ne by auto. eapply worker_act; [|apply T4].
        intros id Hid. apply upd_act_ne. intros e. symmetry in e. exact (Hnb _ _ Hid e).
    + eapply Forall_impl; [|exact T5]. intros y [z [Z1 [Z2 Z3]]]. exists z. ands; auto.
      rewrite upd_act_ne; [exact Z3|]. intros e. congruence.
    + intros id Hid. unfold upd_act in Hid. destruct (same (sid x) id) eqn:E.
      * apply same_true in E. subst id. left. exists k. now rewrite upd_at_eq.
      * destruct (T6 id Hid) as [[j Hj]|Hj]; [left|now right]. exists j.
        rewrite upd_at_ne; [exact Hj|]. intros ->. rewrite Ew in Hj. discriminate.
  - intros a b id. destruct (Nat.eq_dec a k) as [->|Ha]; destruct (Nat.eq_dec b k) as [->|Hb];
      rewrite ?upd_at_eq, ?upd_at_ne by auto; cbn; auto.
    + intros [= <-] H. now destruct (Hnb _ _ H).
    + intros H [= <-]. now destruct (Hnb _ _ H).
    + apply I1.
  - intros a id. destruct (Nat.eq_dec a k) as [->|Ha]; rewrite ?upd_at_eq, ?upd_at_ne by auto; cbn; [|apply I2].
    intros [= <-] H. apply Hf. now apply I5.
  - exact I3.
  - split; [|split; [intros id H; right; auto|intros id H; right; auto]].
    intros a id. destruct (Nat.eq_dec a k) as [->|Ha]; rewrite ?upd_at_eq, ?upd_at_ne by auto; cbn.
    + intros [= <-]. auto.
    + intros H. right. eapply I4; eauto.
  - exact I6.
Qed.

Lemma busy_upd (w : nat -> @status C) k st : busy st = busy (w k) -> forall j, busy (upd_at w k st j) = busy (w j).
Proof. intros H j. unfold upd_at. destruct (Nat.eqb_spec j k); congruence. Qed.

Lemma inv_same_busy started h s s' :
  (forall j, busy (work s' j) = busy (work s j)) -> pending s' = pending s -> delivered s' = delivered s ->
  inv started h s ->
  (exists base act, holds s0 out h base /\ good_act act /\ cfiles_ s' = layer out act base
             /\ (forall k, worker_ok act (work s' k) (cdir s' k))
             /\ Forall (fun y => exists x, fine x /\ y = (sid x, level x, succeeds s0 x)
                                           /\ act (sid x) = Some (left_file s0 x)) (pending s')
             /\ (forall id, act id <> None -> (exists k, busy (work s' k) = Some id) \/ In id (map (fun y => fst (fst y)) (pending s')))) ->
  inv started h s'.
Proof.
  intros Hb Hp Hd [_ I1 I2 I3 [I4 I5] I6] HT. constructor; auto.
  - intros k j id. rewrite !Hb. apply I1.
  - intros k id. rewrite Hb, Hp. apply I2.
  - now rewrite Hp.
  - split; [intros k id; rewrite Hb; apply I4|now rewrite Hp].
  - now rewrite Hd.
Qed.

Lemma step_call started h s k s' : inv started h s ->
  cstep false (pool_of out) (Call k) s = Some s' -> inv started h s'.
Proof.
  intros I. unfold cstep, place. destruct (work s k) as [|id ls|] eqn:Ew; try discriminate.
  pose proof I as I'. destruct I' as [[base [act [T1 [T2 [T3 [T4 [T5 T6]]]]]]] _ _ _ _ _].
  pose proof (T4 k) as W. rewrite Ew in W. destruct W as [x [Hx [-> [-> [Hd Ha]]]]].
  assert (Ev : view (cfiles_ s) (cdir s k) = comm x).
  { extensionality n. unfold view. rewrite Hd, T3, (layer_self _ _ _ _ _ Ha), over_in. reflexivity. }
  rewrite Ev. cbn [run level need]. destruct (prog x (sid x) (comm x)) as [wr ok] eqn:Er. intros [= <-].
  eapply inv_same_busy; [| | |exact I|]; cbn [work pending delivered]; auto.
  - intros j. apply busy_upd. now rewrite Ew.
  - exists base, act. cbn [cfiles_ cdir]. ands; auto.
    + intros j. destruct (Nat.eq_dec j k) as [->|Hne]; [|rewrite upd_at_ne by auto; apply T4].
      rewrite upd_at_eq. cbn. exists x, []. cbn [app]. ands; auto.
    + intros id Hid. destruct (T6 id Hid) as [[j Hj]|Hj]; [left|now right]. exists j.
      rewrite <- Hj. apply busy_upd. now rewrite Ew.
Qed.

Lemma after_writes_app (v : view_) a n c :
  after_writes v (a ++ [(n, c)]) = updv (after_writes v a) n c.
Proof.
  extensionality m. unfold after_writes, updv. rewrite last_such_app. cbn [fst snd]. now destruct (same n m).
Qed.

Lemma step_write started h s k s' : inv started h s ->
  cstep false (pool_of out) (Write k) s = Some s' -> inv started h s'.
Proof.
  intros I. unfold cstep, place. destruct (work s k) as [| |id ls [|[n c] rest] ok] eqn:Ew; try discriminate.
  pose proof I as I'. destruct I' as [[base [act [T1 [T2 [T3 [T4 [T5 T6]]]]]]] I1 I2 _ _ _].
  pose proof (T4 k) as W. rewrite Ew in W. destruct W as [x [don [Hx [-> [-> [Hd [Hr Ha]]]]]]].
  cbn [do_writes]. rewrite Hd, T3, (layer_self _ _ _ _ _ Ha).
  rewrite write_over by now apply (T2 _ _ Ha). rewrite over_layer, <- after_writes_app.
  intros [= <-].
  assert (Hbk : busy (work s k) = Some (sid x)) by now rewrite Ew.
  eapply inv_same_busy; [| | |exact I|]; cbn [work pending delivered]; auto.
  - intros j. apply busy_upd. now rewrite Ew.
  - exists base, (upd_act act (sid x) (Some (after_writes (comm x) (don ++ [(n, c)])))). cbn [cfiles_ cdir]. ands; auto.
    + intros id v. unfold upd_act. destruct (same (sid x) id) eqn:E; [|apply T2].
      apply same_true in E. subst id. intros [= <-]. split; [apply Hx|].
      apply after_writes_plain. now apply act_plain_common.
    + intros j. destruct (Nat.eq_dec j k) as [->|Hne].
      * rewrite upd_at_eq. cbn. exists x, (don ++ [(n, c)]). rewrite upd_act_eq, <- app_assoc. cbn [app]. ands; auto.
      * rewrite upd_at_ne by auto. eapply worker_act; [|apply T4].
        intros id Hid. apply upd_act_ne. intros <-. apply Hne. eapply I1; eauto.
    + assert (Hnp := I2 k _ Hbk). revert T5 Hnp. generalize (pending s). intros l T5. induction T5 as [|y l [z [Z1 [Z2 Z3]]] T5 IH];
        intros Hnp; constructor.
      * exists z. ands; auto. rewrite upd_act_ne; [exact Z3|]. intros e. apply Hnp. left. now rewrite Z2.
      * apply IH. intros HH. apply Hnp. now right.
    + intros id Hid. unfold upd_act in Hid. destruct (same (sid x) id) eqn:E.
      * apply same_true in E. subst id. left. exists k. now rewrite upd_at_eq.
      * destruct (T6 id Hid) as [[j Hj]|Hj]; [left|now right]. exists j.
        rewrite <- Hj. apply busy_upd. now rewrite Ew.
Qed.

Lemma step_return started h s k s' : inv started h s ->
  cstep false (pool_of out) (Return k) s = Some s' -> inv started h s'.
Proof.
  intros I. unfold cstep. destruct (work s k) as [| |id ls [|] ok] eqn:Ew; try discriminate.
  destruct I as [[base [act [T1 [T2 [T3 [T4 [T5 T6]]]]]]] I1 I2 I3 [I4 [I5 I5']] I6].
  pose proof (T4 k) as W. rewrite Ew in W. destruct W as [x [don [Hx [-> [-> [Hd [Hr Ha]]]]]]].
  rewrite app_nil_r in Hr. intros [= <-].
  assert (Hbk : busy (work s k) = Some (sid x)) by now rewrite Ew.
  assert (Hb : forall j id, busy (upd_at (work s) k Idle j) = Some id -> j <> k /\ busy (work s j) = Some id).
  { intros j id. destruct (Nat.eq_dec j k) as [->|Hne]; [rewrite upd_at_eq; discriminate|].
    rewrite upd_at_ne by auto. auto. }
  constructor; cbn [cfiles_ cdir work pending delivered].
  - exists base, act. ands; auto.
    + intros j. destruct (Nat.eq_dec j k) as [->|Hne]; [now rewrite upd_at_eq|].
      rewrite upd_at_ne by auto. apply T4.
    + apply Forall_app. split; [exact T5|]. constructor; [|constructor]. exists x. unfold succeeds, left_file.
      fold (comm x). rewrite Hr. cbn [fst snd]. ands; auto.
    + intros id Hid. rewrite map_app, in_app_iff. cbn.
      destruct (T6 id Hid) as [[j Hj]|Hj]; [|tauto].
      destruct (Nat.eq_dec j k) as [->|Hne]; [right; right; left; congruence|].
      left. exists j. now rewrite upd_at_ne.
  - intros a b id H1 H2. destruct (Hb _ _ H1), (Hb _ _ H2). eapply I1; eauto.
  - intros a id H1. destruct (Hb _ _ H1) as [Hne H2]. rewrite map_app, in_app_iff. cbn. intros [H|[H|[]]].
    + eapply I2; eauto.
    + subst id. apply Hne. eapply I1; eauto.
  - rewrite map_app. cbn. apply NoDup_app_iff. ands; [exact I3|repeat constructor; auto|].
    intros z Hz [<-|[]]. eapply I2; eauto.
  - split; [|split].
    + intros a id H1. destruct (Hb _ _ H1). eapply I4; eauto.
    + intros id. rewrite map_app, in_app_iff. cbn. intros [H|[<-|[]]]; [auto|]. eapply I4; eauto.
    + exact I5'.
  - exact I6.
Qed.

Lemma deliver_ok h base act x : holds s0 out h base -> good_act act -> fine x -> act (sid x) = Some (left_file s0 x) ->
  exists w base', process_result (mkW (layer out act base) None) (pool_of out) (sid x) (level x) (succeeds s0 x) = Ok w
    /\ holds s0 out (h ++ [x]) base' /\ files w = layer out (upd_act act (sid x) None) base'.
Proof.
  intros T1 T2 [Hid Hg] Ha. set (act' := upd_act act (sid x) None).
  pose proof (good_id_ne _ Hid) as [Hn1 Hn2].
  assert (Ea' : act' (sid x) = None) by apply upd_act_eq.
  assert (Hga : good_act act').
  { intros z v. unfold act', upd_act. destruct (same (sid x) z); [discriminate|apply T2]. }
  pose proof (layer_clean _ _ _ _ act' _ Hab T1 Hid Ea') as Hcl.
  assert (Hp : plain (left_file s0 x)) by (eapply left_plain; eauto).
  assert (Hfn : act' (str "failed") = None).
  { destruct (act' (str "failed")) eqn:E; [|reflexivity]. apply Hga in E. destruct E as [E _].
    now apply good_id_ne in E as [E _]. }
  assert (Hsn : act' (str "several_successful") = None).
  { destruct (act' (str "several_successful")) eqn:E; [|reflexivity]. apply Hga in E. destruct E as [E _].
    now apply good_id_ne in E as [_ E]. }
  rewrite (layer_over _ _ _ _ _ Ha). fold act'.
  unfold process_result. cbn [debug pool_of output_dir successful_dir need level option_map].
  destruct (succeeds s0 x) eqn:Eo.
  - unfold move_successful_rm. rewrite (good_id_keep _ Hid). cbn [bind].
    destruct (first_five (sid x)) eqn:E5; cbn [bind].
    + destruct (move_rm (layer out act' base) out s_successful (sid x) (left_file s0 x) None) as [dw' E]; auto.
      * rewrite (layer_base _ _ _ _ _ _ [] T1 Hga); [apply T1|auto].
      * intros HN r. rewrite (layer_base _ _ _ _ _ _ [sid x] T1 Hga) in HN by auto.
        rewrite (layer_base _ _ _ _ _ _ (sid x :: r) T1 Hga) by auto.
        unfold s_successful in *. rewrite (h_successful_dir _ _ _ _ T1) in HN.
        pose proof (h_successful_file _ _ _ _ T1 (sid x)) as HF.
        destruct (kept (to_successful s0) h (sid x)) eqn:Ek; [discriminate|].
        destruct r as [|a [|b r]]; [rewrite (h_successful_dir _ _ _ _ T1), Ek; reflexivity|apply HF|apply (h_deeper _ _ _ _ T1)].
      * intros c. rewrite (layer_base _ _ _ _ _ _ [sid x] T1 Hga) by auto. unfold s_successful.
        rewrite (h_successful_dir _ _ _ _ T1). destruct (kept _ h _); discriminate.
      * rewrite E. cbn [bind]. eexists _, (over (out ++ [s_successful; sid x]) (tree (left_file s0 x)) base). split; [reflexivity|]. split.
        -- apply holds_successful; auto; [unfold to_failed; now rewrite Eo|unfold to_successful; now rewrite Eo, E5].
        -- now apply over_dest_layer.
    + destruct (rm_clean (layer out act' base) out (sid x) (left_file s0 x) None Hcl) as [dw' E]. rewrite E. cbn [bind].
      eexists _, base. split; [reflexivity|]. split; [|reflexivity].
      apply holds_same; auto; [unfold to_failed; now rewrite Eo|unfold to_successful; now rewrite Eo, E5].
  - unfold move_failed_rm.
    destruct (move_rm (layer out act' base) out s_failed (sid x) (left_file s0 x) None) as [dw' E]; auto.
    + rewrite (layer_base _ _ _ _ _ _ [] T1 Hga); [apply T1|auto].
    + intros HN r. rewrite (layer_base _ _ _ _ _ _ [sid x] T1 Hga) in HN by auto.
      rewrite (layer_base _ _ _ _ _ _ (sid x :: r) T1 Hga) by auto.
      unfold s_failed in *. rewrite (h_failed_dir _ _ _ _ T1) in HN.
      pose proof (h_failed_file _ _ _ _ T1 (sid x)) as HF.
      destruct (kept (to_failed s0) h (sid x)) eqn:Ek; [discriminate|].
      destruct r as [|a [|b r]]; [rewrite (h_failed_dir _ _ _ _ T1), Ek; reflexivity|apply HF|apply (h_deeper _ _ _ _ T1)].
    + intros c. rewrite (layer_base _ _ _ _ _ _ [sid x] T1 Hga) by auto. unfold s_failed.
      rewrite (h_failed_dir _ _ _ _ T1). destruct (kept _ h _); discriminate.
    + rewrite E. cbn [bind]. eexists _, (over (out ++ [s_failed; sid x]) (tree (left_file s0 x)) base). split; [reflexivity|]. split.
      * apply holds_failed; auto; [unfold to_failed; now rewrite Eo|unfold to_successful; now rewrite Eo].
      * now apply over_dest_layer.
Qed.

Lemma step_deliver started h s i s' : inv started h s ->
  cstep false (pool_of out) (Deliver i) s = Some s' -> exists x, inv started (h ++ [x]) s'.
Proof.
  intros I. unfold cstep. destruct (nth_error (pending s) i) as [[[id ls] ok]|] eqn:En; [|discriminate].
  destruct I as [[base [act [T1 [T2 [T3 [T4 [T5 T6]]]]]]] I1 I2 I3 [I4 [I5 I5']] [I6 I7]].
  destruct (remove_nth_split _ _ _ En) as [pa [pb [Ep Er]]].
  assert (Hin : In (id, ls, ok) (pending s)) by (eapply nth_error_In; eauto).
  pose proof (proj1 (Forall_forall _ _) T5 _ Hin) as [x [Hx [[= -> -> ->] Ha]]].
  destruct (process_result _ _ _ _ _) as [w|] eqn:Ew; [|discriminate]. intros [= <-]. exists x.
  set (act' := upd_act act (sid x) None).
  assert (Ea' : act' (sid x) = None) by apply upd_act_eq.
  assert (Hga : good_act act').
  { intros z v. unfold act', upd_act. destruct (same (sid x) z); [discriminate|apply T2]. }
  assert (HW : exists base', holds s0 out (h ++ [x]) base' /\ files w = layer out act' base').
  { destruct (deliver_ok h base act x T1 T2 Hx Ha) as [w' [base' [E [H1 H2]]]]. rewrite <- T3, Ew in E. injection E as <-. eauto. }
  destruct HW as [base' [HB EB]].
  assert (Hkeep : forall z, z <> sid x -> act' z = act z) by (intros z Hz; apply upd_act_ne; congruence).
  assert (Hsub : forall z, In z (pa ++ pb) -> In z (pending s)).
  { intros z. rewrite Ep, !in_app_iff. cbn. tauto. }
  assert (Hnx : forall y, In y (pa ++ pb) -> fst (fst y) <> sid x).
  { intros y Hy e. rewrite Ep, map_app in I3. cbn in I3. apply NoDup_remove_2 in I3. apply I3.
    rewrite <- map_app, <- e. apply (in_map (fun y => fst (fst y))), Hy. }
  constructor; cbn [cfiles_ cdir work pending delivered].
  - exists base', act'. ands; auto.
    + intros k. specialize (T4 k). destruct (busy (work s k)) as [z|] eqn:Ez; [|now destruct (work s k)].
      assert (Hzx : z <> sid x).
      { intros ->. apply (I2 k _ Ez). apply (in_map (fun y => fst (fst y)) _ _ Hin). }
      assert (Hd : cdir s k = Some (out ++ [z]) /\ act z <> None).
      { destruct (work s k); cbn in *; [discriminate| |]; injection Ez as ->.
        - destruct T4 as [? [_ [_ [_ [-> ->]]]]]. split; congruence.
        - destruct T4 as [? [? [_ [_ [_ [-> [_ ->]]]]]]]. split; congruence. }
      destruct Hd as [Hd Hz]. rewrite Hd.
      assert (He : exists_ (files w) (out ++ [z]) = true).
      { unfold exists_. rewrite EB. unfold layer. rewrite strip_app, Hkeep by auto. now destruct (act z). }
      rewrite He. rewrite Hd in T4. eapply worker_act; [|exact T4]. intros z' Hz'. rewrite Ez in Hz'. injection Hz' as <-. auto.
    + rewrite Er. apply Forall_forall. intros y Hy. pose proof (proj1 (Forall_forall _ _) T5 _ (Hsub _ Hy)) as [z [Z1 [Z2 Z3]]].
      exists z. ands; auto. rewrite Hkeep; [exact Z3|]. specialize (Hnx _ Hy). now rewrite Z2 in Hnx.
    + intros z Hz. unfold act', upd_act in Hz. destruct (same (sid x) z) eqn:E; [congruence|].
      apply same_false in E. destruct (T6 z Hz) as [H|H]; [now left|right].
      rewrite Er. rewrite Ep, map_app, in_app_iff in H. cbn in H. rewrite map_app, in_app_iff. destruct H as [H|[H|H]]; [tauto|congruence|tauto].
  - exact I1.
  - intros k z Hz H. apply (I2 _ _ Hz). rewrite Er in H. rewrite Ep, map_app, in_app_iff. cbn.
    rewrite map_app, in_app_iff in H. tauto.
  - rewrite Er, map_app. rewrite Ep, map_app in I3. cbn in I3. now apply NoDup_remove_1 in I3.
  - split; [exact I4|split].
    + intros z Hz. apply I5. rewrite Er in Hz. rewrite Ep, map_app, in_app_iff. cbn. rewrite map_app, in_app_iff in Hz. tauto.
    + intros z. rewrite map_app, in_app_iff. cbn. intros [H|[<-|[]]]; [auto|].
      apply I5. apply (in_map (fun y => fst (fst y)) _ _ Hin).
  - rewrite I6, map_app. split; [reflexivity|]. apply Forall_app. split; [exact I7|]. constructor; [exact Hx|constructor].
Qed.
Definition starts (l : list (@event C)) : list pystr :=
  flat_map (fun e => match e with Start _ id _ => [id] | _ => [] end) l.
Definition good_event (e : @event C) : Prop :=
  match e with Start _ id ls => exists x, fine x /\ id = sid x /\ ls = level x | _ => True end.

Lemma steps_inv l : forall started h s s', inv started h s -> Forall good_event l -> NoDup (starts l) ->
  (forall id, In id (starts l) -> ~ In id started) ->
  csteps false (pool_of out) l s = Some s' ->
  exists started' h', inv started' (h ++ h') s' /\ forall id, In id started' -> In id started \/ In id (starts l).
Proof.
  induction l as [|e l IH]; intros started h s s' I Hg Hn Hd E; cbn in E.
  - injection E as <-. exists started, []. rewrite app_nil_r. split; [exact I|auto].
  - destruct (cstep _ _ e s) as [s1|] eqn:E1; [|discriminate].
    inversion_clear Hg as [|? ? He Hl].
    assert (Hn' : NoDup (starts l) /\ forall id, In id (starts l) -> ~ In id started).
    { destruct e; cbn in Hn, Hd; try (split; [exact Hn|exact Hd]).
      inversion_clear Hn. split; auto. }
    destruct Hn' as [Hn' Hd'].
    destruct e as [k id ls|k|k|k|i].
    + destruct He as [x [Hx [-> ->]]]. cbn in Hn, Hd.
      pose proof (step_start _ _ _ _ _ _ I Hx (Hd _ (or_introl eq_refl)) E1) as I1.
      assert (Hd2 : forall z, In z (starts l) -> ~ In z (sid x :: started)).
      { intros z Hz [<-|H]; [inversion_clear Hn; auto|]. now apply (Hd' z Hz). }
      destruct (IH _ _ _ _ I1 Hl Hn' Hd2 E) as [st' [h' [I2 Hs]]].
      exists st', h'. split; [exact I2|]. intros z Hz. cbn. destruct (Hs z Hz) as [[<-|H]|H]; auto.
    + exact (IH _ _ _ _ (step_call _ _ _ _ _ I E1) Hl Hn' Hd' E).
    + exact (IH _ _ _ _ (step_write _ _ _ _ _ I E1) Hl Hn' Hd' E).
    + exact (IH _ _ _ _ (step_return _ _ _ _ _ I E1) Hl Hn' Hd' E).
    + destruct (step_deliver _ _ _ _ _ I E1) as [x I1].
      destruct (IH _ _ _ _ I1 Hl Hn' Hd' E) as [st' [h' [I2 Hs]]]. exists st', (x :: h').
      rewrite <- app_assoc in I2. split; [exact I2|exact Hs].
Qed.

Lemma inv_start (w : @world C) : holds s0 out [] (files w) -> inv [] [] (cstart w).
Proof.
  intros H. constructor; cbn.
  - exists (files w), (fun _ => None). split; [exact H|]. split; [intros id v; discriminate|]. split.
    { extensionality q. unfold layer. now destruct (strip out q) as [[|]|]. }
    split; [intros k; exact I|]. split; [constructor|]. intros id Hid. now destruct Hid.
  - discriminate.
  - discriminate.
  - constructor.
  - split; [discriminate|]. split; intros id [].
  - split; [reflexivity|constructor].
Qed.

(** A sample can be started by every idle worker, and every result can be delivered. *)
Lemma start_possible started h s k x : inv started h s -> fine x -> ~ In (sid x) started -> work s k = Idle ->
  cstep false (pool_of out) (Start k (sid x) (level x)) s <> None.
Proof.
  intros I Hx Hf Hw. unfold cstep, place. cbn [output_dir pool_of]. rewrite Hw.
  destruct I as [[base [act [T1 [T2 [T3 [T4 [T5 T6]]]]]]] I1 I2 I3 [I4 [I5 I5']] I6].
  assert (Hact : act (sid x) = None).
  { destruct (act (sid x)) eqn:E; [|reflexivity]. destruct (T6 (sid x)) as [[j Hj]|Hj]; [congruence| |].
    - destruct Hf. eapply I4; eauto.
    - destruct Hf. now apply I5. }
  rewrite T3, (handle_layer h base act x _ T1 T2 Hx Hact). discriminate.
Qed.

Lemma deliver_possible started h s i : inv started h s -> i < length (pending s) ->
  cstep false (pool_of out) (Deliver i) s <> None.
Proof.
  intros I Hi. unfold cstep. destruct (nth_error (pending s) i) as [[[id ls] ok]|] eqn:En.
  2: { apply nth_error_None in En. lia. }
  destruct I as [[base [act [T1 [T2 [T3 [T4 [T5 T6]]]]]]] I1 I2 I3 [I4 [I5 I5']] [I6 I7]].
  assert (Hin : In (id, ls, ok) (pending s)) by (eapply nth_error_In; eauto).
  pose proof (proj1 (Forall_forall _ _) T5 _ Hin) as [x [Hx [[= -> -> ->] Ha]]].
  destruct (deliver_ok h base act x T1 T2 Hx Ha) as [w [base' [E _]]]. rewrite T3, E. discriminate.
Qed.

(** What is known of every state. *)
Lemma inv_all_done started h s : inv started h s -> (forall k, work s k = Idle) -> pending s = [] -> holds s0 out h (cfiles_ s).
Proof.
  intros [[base [act [T1 [T2 [T3 [T4 [T5 T6]]]]]]] _ _ _ _ _] Hw Hp.
  assert (E : act = fun _ => None).
  { extensionality id. destruct (act id) eqn:E; [|reflexivity].
    destruct (T6 id) as [[k Hk]|H]; [congruence| |].
    - rewrite Hw in Hk. discriminate.
    - rewrite Hp in H. destruct H. }
  rewrite T3, E. replace (layer out (fun _ => None) base) with base; [exact T1|].
  extensionality q. unfold layer. now destruct (strip out q) as [[|]|].
Qed.

(** The directory of a sample while its program runs. *)
Lemma inv_running started h s k id ls rest ok n : inv started h s -> work s k = Writing id ls rest ok ->
  exists x don, fine x /\ id = sid x /\ prog x id (common_file s0 (cfiles x)) = (don ++ rest, ok)
    /\ cfiles_ s (out ++ [id; n]) = after_writes (common_file s0 (cfiles x)) don n.
Proof.
  intros [[base [act [T1 [T2 [T3 [T4 [T5 T6]]]]]]] _ _ _ _ _] Hw.
  specialize (T4 k). rewrite Hw in T4. destruct T4 as [x [don [Hx [-> [_ [_ [Hr Ha]]]]]]].
  exists x, don. ands; auto. rewrite T3. unfold layer. rewrite strip_app, Ha. reflexivity.
Qed.
End Inv.
End WorkConcProofs.
