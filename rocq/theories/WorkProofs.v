From Coq Require Import FunctionalExtensionality.
From Verif Require Import Base TagModel TagSpec TagProofs WorkModel WorkSpec.

Section WorkProofs.
Context {C : Type}.
Notation fs := (@fs C).

(** ** Paths *)
Lemma strip_app d r : strip d (d ++ r) = Some r.
Proof. induction d as [|a d IH]; cbn; [reflexivity|]. destruct (pystr_eq_dec a a); congruence. Qed.

Lemma strip_Some d p r : strip d p = Some r -> p = d ++ r.
Proof.
  revert p. induction d as [|a d IH]; intros [|b p]; cbn; try congruence.
  destruct (pystr_eq_dec a b); [intros H; apply IH in H; congruence|discriminate].
Qed.

Lemma strip_None d p : strip d p = None <-> forall r, p <> d ++ r.
Proof.
  split.
  - intros H r ->. now rewrite strip_app in H.
  - intros H. destruct (strip d p) as [r|] eqn:E; [|reflexivity]. apply strip_Some in E. now apply H in E.
Qed.

Lemma under_app d r : under d (d ++ r) = true.
Proof. unfold under. now rewrite strip_app. Qed.

Lemma under_refl d : under d d = true.
Proof. rewrite <- (app_nil_r d) at 2. apply under_app. Qed.

Lemma under_true d p : under d p = true -> exists r, p = d ++ r.
Proof. unfold under. destruct (strip d p) eqn:E; [|discriminate]. apply strip_Some in E. eauto. Qed.

Lemma under_false d p : under d p = false <-> forall r, p <> d ++ r.
Proof. unfold under. rewrite <- strip_None. destruct (strip d p); split; congruence. Qed.

Lemma strip_snoc_app d x r : strip (d ++ [x]) (d ++ r) = strip [x] r.
Proof. induction d as [|a d IH]; cbn in *; [reflexivity|]. destruct (pystr_eq_dec a a); [exact IH|congruence]. Qed.
Lemma strip_app_app d x r : strip (d ++ x) (d ++ r) = strip x r.
Proof. induction d as [|a d IH]; cbn in *; [reflexivity|]. destruct (pystr_eq_dec a a); [exact IH|congruence]. Qed.

Lemma strip_out_None out x q : strip out q = None -> strip (out ++ x) q = None.
Proof. rewrite !strip_None. intros H r ->. apply (H (x ++ r)). now rewrite app_assoc. Qed.

Lemma ancestors_under p q : In q (ancestors p) -> under q p = true.
Proof.
  unfold ancestors. rewrite in_map_iff. intros [k [<- _]].
  replace (under (firstn k p) p) with (under (firstn k p) (firstn k p ++ skipn k p)) by now rewrite firstn_skipn.
  apply under_app.
Qed.

Lemma path_eqb_refl p : path_eqb p p = true.
Proof. unfold path_eqb. now destruct (list_eq_dec pystr_eq_dec p p). Qed.
Lemma path_eqb_true p q : path_eqb p q = true -> p = q.
Proof. unfold path_eqb. destruct (list_eq_dec pystr_eq_dec p q); congruence. Qed.

Lemma same_refl a : same a a = true.
Proof. unfold same. now destruct (pystr_eq_dec a a). Qed.
Lemma same_true a b : same a b = true <-> a = b.
Proof. unfold same. destruct (pystr_eq_dec a b); split; congruence. Qed.
Lemma same_false a b : same a b = false <-> a <> b.
Proof. unfold same. destruct (pystr_eq_dec a b); split; congruence. Qed.

(** ** The tree with a directory replaced *)
Definition over (d : path) (g : path -> option (@entry C)) (s : fs) : fs :=
  fun q => match strip d q with Some r => g r | None => s q end.
Definition tree (v : pystr -> option (@entry C)) : path -> option (@entry C) :=
  fun r => match r with [] => Some Dir | [n] => v n | _ => None end.
Definition plain (v : pystr -> option (@entry C)) : Prop := forall n, v n <> Some Dir.

Lemma over_in d g s r : over d g s (d ++ r) = g r.
Proof. unfold over. now rewrite strip_app. Qed.
Lemma over_at d g s : over d g s d = g [].
Proof. rewrite <- (app_nil_r d) at 2. apply over_in. Qed.
Lemma over_out d g s q : strip d q = None -> over d g s q = s q.
Proof. unfold over. now intros ->. Qed.

Definition updv (v : pystr -> option (@entry C)) n c : pystr -> option (@entry C) :=
  fun m => if same n m then Some (File c) else v m.

Lemma updv_plain v n c : plain v -> plain (updv v n c).
Proof. intros H m. unfold updv. destruct (same n m); [discriminate|apply H]. Qed.

Lemma write_over d v s n c : plain v ->
  write_file (over d (tree v) s) d n c = Ok (over d (tree (updv v n c)) s).
Proof.
  intros Hv. unfold write_file, is_dir. rewrite over_at. cbn [tree negb orb].
  rewrite over_in. cbn [tree].
  assert (E : (match v n with Some Dir => true | _ => false end) = false).
  { destruct (v n) as [[|]|] eqn:E; auto. now apply Hv in E. }
  rewrite E. f_equal. extensionality q. unfold over.
  destruct (path_eqb q (d ++ [n])) eqn:Eq.
  - apply path_eqb_true in Eq. subst q. rewrite strip_app. cbn. unfold updv. now rewrite same_refl.
  - destruct (strip d q) as [r|] eqn:Es; [|reflexivity]. apply strip_Some in Es. subst q.
    destruct r as [|m [|]]; cbn; try reflexivity.
    unfold updv. destruct (same n m) eqn:Em; [|reflexivity].
    apply same_true in Em. subst m. now rewrite path_eqb_refl in Eq.
Qed.

Lemma last_such_app {A} (f : A -> bool) l x :
  last_such f (l ++ [x]) = if f x then Some x else last_such f l.
Proof.
  induction l as [|y l IH]; cbn; [now destruct (f x)|].
  rewrite IH. destruct (f x); reflexivity.
Qed.

Lemma last_such_None {A} (f : A -> bool) l : last_such f l = None -> forall x, In x l -> f x = false.
Proof.
  induction l as [|y l IH]; cbn; intros H x; [intros []|]. destruct (last_such f l); [discriminate|].
  destruct (f y) eqn:E; [discriminate|]. intros [<-|Hx]; auto.
Qed.

Lemma last_such_In {A} (f : A -> bool) l x : last_such f l = Some x -> In x l /\ f x = true.
Proof.
  induction l as [|y l IH]; cbn; [discriminate|].
  destruct (last_such f l) as [z|]; [intros [= ->]; destruct IH; auto|].
  destruct (f y) eqn:E; [intros [= ->]; auto|discriminate].
Qed.

Lemma copy_over l : forall v s d dw, plain v ->
  (forall p, In p l -> (exists c, s p = Some (File c)) /\ strip d p = None) ->
  copy_sim_files (over d (tree v) s) dw (map Abs l) d
  = Ok (over d (tree (fun n => match last_such (fun p : path => same (@last pystr p []) n) l with Some p => s p | None => v n end)) s).
Proof.
  induction l as [|p l IH]; intros v s d dw Hv Hl; cbn [map copy_sim_files]; [reflexivity|].
  cbn [resolve]. destruct (Hl p (or_introl eq_refl)) as [[c Hc] Hs].
  rewrite (over_out _ _ _ _ Hs), Hc, (write_over _ _ _ _ _ Hv). cbn [bind].
  rewrite IH; [|now apply updv_plain|intros; apply Hl; cbn; auto].
  f_equal. f_equal. f_equal. extensionality n. cbn [last_such]. unfold updv.
  match goal with |- context[last_such ?f l] => destruct (last_such f l) end; [reflexivity|].
  destruct (same (@last pystr p []) n); [symmetry; exact Hc|reflexivity].
Qed.

Lemma writes_over l : forall v s d, plain v ->
  do_writes (over d (tree v) s) (Some d) l = (over d (tree (after_writes v l)) s, true).
Proof.
  induction l as [|[n c] l IH]; intros v s d Hv; cbn [do_writes]; [reflexivity|].
  rewrite (write_over _ _ _ _ _ Hv). rewrite IH by now apply updv_plain.
  f_equal. f_equal. f_equal. extensionality m. unfold after_writes, updv. cbn [last_such fst snd].
  match goal with |- context[last_such ?f l] => destruct (last_such f l) end; [reflexivity|]. now destruct (same n m).
Qed.

(** ** One sample *)
Definition clean (s : fs) (out : path) (id : pystr) : Prop :=
  (forall q, under q out = true -> s q = Some Dir) /\ (forall r, s (out ++ id :: r) = None).

Lemma under_snoc q d x : under q (d ++ [x]) = true -> under q d = true \/ q = d ++ [x].
Proof.
  intros H. apply under_true in H. destruct H as [r H]. destruct r as [|y r].
  - right. now rewrite app_nil_r in H.
  - left. destruct (exists_last (l := y :: r)) as [r' [z Hz]]; [discriminate|].
    rewrite Hz, app_assoc in H. apply app_inj_tail in H. destruct H as [-> _]. apply under_app.
Qed.

Lemma makedirs_ok (s : fs) d : (forall q, under q d = true -> match s q with Some (File _) => False | _ => True end) ->
  makedirs s d = Ok (fun q => if under q d then Some Dir else s q).
Proof.
  intros H. unfold makedirs.
  destruct (existsb _ (ancestors d)) eqn:E; [|reflexivity].
  apply existsb_exists in E. destruct E as [q [Hq E]]. apply ancestors_under in Hq.
  specialize (H q Hq). destruct (s q) as [[|]|]; try discriminate. contradiction.
Qed.

Lemma makedirs_clean (s : fs) out id : clean s out id ->
  makedirs s (out ++ [id]) = Ok (over (out ++ [id]) (tree (fun _ => None)) s).
Proof.
  intros [Ha Hn]. rewrite makedirs_ok.
  - f_equal. extensionality q. unfold over. destruct (strip (out ++ [id]) q) as [r|] eqn:Es.
    + apply strip_Some in Es. subst q. destruct r as [|x r].
      * rewrite app_nil_r. unfold under. rewrite <- (app_nil_r (out ++ [id])) at 2. rewrite strip_app. reflexivity.
      * rewrite (proj2 (under_false _ _)).
        -- rewrite <- app_assoc. cbn [app]. rewrite Hn. now destruct r.
        -- intros r' H. apply (f_equal (@length _)) in H. rewrite !app_length in H. cbn in H. lia.
    + destruct (under q (out ++ [id])) eqn:Eu; [|reflexivity].
      apply under_snoc in Eu. destruct Eu as [Eu|Eu]; [now rewrite Ha|].
      subst q. rewrite <- (app_nil_r (out ++ [id])) in Es at 2. rewrite strip_app in Es. discriminate.
  - intros q Hq. apply under_snoc in Hq. destruct Hq as [Hq| ->]; [now rewrite Ha|]. now rewrite (Hn []).
Qed.

Lemma change_clean (s : fs) out id : clean s out id ->
  change_to_sample_directory s out id = Ok (over (out ++ [id]) (tree (fun _ => None)) s).
Proof.
  intros H. unfold change_to_sample_directory, is_dir. rewrite (proj2 H []). now apply makedirs_clean.
Qed.

Lemma common_plain (s : fs) l out : good_common s out l -> plain (common_file s l).
Proof.
  intros H n. unfold common_file. match goal with |- context[last_such ?f l] => destruct (last_such f l) as [p|] eqn:E end; [|discriminate].
  apply last_such_In in E. destruct E as [Hp _]. destruct (H p Hp) as [[c ->] _]. discriminate.
Qed.

Lemma after_writes_plain v wr : plain v -> plain (after_writes v wr).
Proof. intros H n. unfold after_writes. match goal with |- context[last_such ?f wr] => destruct (last_such f wr) end; [discriminate|apply H]. Qed.

Lemma left_plain (s : fs) out x : good_common s out (cfiles x) -> plain (left_file s x).
Proof. intros H n. unfold left_file. apply after_writes_plain. eapply common_plain; eauto. Qed.

Lemma calculate_clean (s : fs) out (x : @sample C) dw : clean s out (sid x) -> good_common s out (cfiles x) ->
  calculate_sample (mkW s dw) (Some out) (sid x) (level x)
  = Ok (mkW (over (out ++ [sid x]) (tree (left_file s x)) s) (Some (out ++ [sid x])), succeeds s x).
Proof.
  intros Hc Hg. unfold calculate_sample. cbn [need level]. unfold handle_sim_files. cbn [need level files cwd common].
  rewrite (change_clean _ _ _ Hc). cbn [bind].
  rewrite copy_over.
  2: { intros n. discriminate. }
  2: { intros p Hp. destruct (Hg p Hp) as [H1 H2]. split; [exact H1|].
       apply strip_None. intros r ->. apply (H2 (sid x :: r)). now rewrite <- app_assoc. }
  cbn [bind files cwd].
  change (fun n : pystr => match last_such (fun p : path => same (@last pystr p []) n) (cfiles x) with Some p => s p | None => None end)
    with (common_file s (cfiles x)).
  assert (Ev : view (over (out ++ [sid x]) (tree (common_file s (cfiles x))) s) (Some (out ++ [sid x]))
               = common_file s (cfiles x)).
  { extensionality n. unfold view. rewrite over_in. reflexivity. }
  rewrite Ev. cbn [run level].
  unfold succeeds, left_file.
  destruct (prog x (sid x) (common_file s (cfiles x))) as [wr ok] eqn:Er. cbn [fst snd].
  rewrite writes_over by (eapply common_plain; eauto). rewrite andb_true_r. reflexivity.
Qed.

Lemma strip_ne out f id r : f <> id -> strip (out ++ [f]) (out ++ id :: r) = None.
Proof. intros H. rewrite strip_app_app. cbn. destruct (pystr_eq_dec f id); congruence. Qed.
Lemma strip_ne2 out f id g r : f <> id -> strip (out ++ [f; g]) (out ++ id :: r) = None.
Proof. intros H. rewrite strip_app_app. cbn. destruct (pystr_eq_dec f id); congruence. Qed.

(** The directory of a sample is copied to [out/f/id] and removed. *)
Lemma move_rm (s : fs) out f id v dw : clean s out id -> plain v -> f <> id -> s (out ++ [f]) = Some Dir ->
  (s (out ++ [f; id]) = None -> forall r, s (out ++ f :: id :: r) = None) ->
  (forall c, s (out ++ [f; id]) <> Some (File c)) ->
  exists dw', bind (move_dir (mkW (over (out ++ [id]) (tree v) s) dw) true (Some out) (Some (out ++ [f])) id)
                (fun w => remove_sample_dir w true (Some out) id)
              = Ok (mkW (over (out ++ [f; id]) (tree v) s) dw').
Proof.
  intros Hc Hv Hne Hf Hcl Hnf. unfold move_dir. cbn [files cwd].
  set (s1 := over (out ++ [id]) (tree v) s).
  assert (Hd : (out ++ [f]) ++ [id] = out ++ [f; id]) by now rewrite <- app_assoc.
  rewrite !Hd. set (dest := out ++ [f; id]) in *.
  assert (E1 : is_dir s1 (out ++ [id]) = true).
  { unfold is_dir, s1. now rewrite over_at. }
  unfold change_to_sample_directory at 1. rewrite E1. cbn [bind].
  assert (Hs1 : forall r, s1 (dest ++ r) = s (dest ++ r)).
  { intros r. unfold s1. apply over_out. unfold dest. rewrite <- app_assoc. cbn [app]. apply strip_ne. congruence. }
  set (s2 := fun q => if under dest q then None else s1 q).
  assert (E2 : exists d2, (if exists_ s1 dest then rmtree (mkW s1 dw) dest else mkW s1 dw) = mkW s2 d2).
  { destruct (exists_ s1 dest) eqn:Ee.
    - eexists. reflexivity.
    - exists dw. f_equal. extensionality q. unfold s2. destruct (under dest q) eqn:Eu; [|reflexivity].
      apply under_true in Eu. destruct Eu as [r ->]. rewrite Hs1.
      unfold exists_ in Ee. rewrite <- (app_nil_r dest), Hs1, app_nil_r in Ee.
      destruct (s dest) eqn:Ed; [discriminate|].
      unfold dest. rewrite <- app_assoc. cbn [app]. now apply Hcl. }
  destruct E2 as [d2 E2]. rewrite E2. cbn [files cwd].
  assert (Hsrc : forall r, s2 ((out ++ [id]) ++ r) = tree v r).
  { intros r. unfold s2. rewrite (proj2 (under_false _ _)).
    - unfold s1. now rewrite over_in.
    - apply strip_None. unfold dest. rewrite <- app_assoc. cbn [app]. now apply strip_ne2. }
  unfold copytree.
  assert (E3 : is_dir s2 (out ++ [id]) = true).
  { unfold is_dir. rewrite <- (app_nil_r (out ++ [id])), Hsrc. reflexivity. }
  rewrite E3. cbn [negb orb].
  assert (E4 : exists_ s2 dest = false).
  { unfold exists_, s2. now rewrite under_refl. }
  rewrite E4.
  assert (Hanc : forall q, under q dest = true -> q = dest \/ s2 q = Some Dir).
  { intros q Hq. rewrite <- Hd in Hq.
    apply under_snoc in Hq. destruct Hq as [Hq|Hq]; [right|left; now rewrite Hq, Hd].
    assert (Hnu : under dest q = false).
    { apply under_false. intros r ->. apply under_true in Hq. destruct Hq as [r' Hq]. unfold dest in Hq.
      apply (f_equal (@length _)) in Hq. rewrite !app_length in Hq. cbn in Hq. lia. }
    unfold s2. rewrite Hnu. apply under_snoc in Hq. destruct Hq as [Hq| ->].
    - unfold s1. rewrite over_out; [now apply Hc|].
      apply strip_None. intros r ->. apply under_true in Hq. destruct Hq as [r' Hq].
      apply (f_equal (@length _)) in Hq. rewrite !app_length in Hq. cbn in Hq. lia.
    - unfold s1. rewrite over_out; [exact Hf|]. apply strip_ne. congruence. }
  rewrite makedirs_ok.
  2: { intros q Hq. destruct (Hanc q Hq) as [-> | Hq']; [|now rewrite Hq'].
       unfold s2. now rewrite under_refl. }
  cbn [bind]. unfold remove_sample_dir. cbn [files cwd].
  set (s3 := fun q => match strip dest q with Some r => s2 ((out ++ [id]) ++ r) | None => if under q dest then Some Dir else s2 q end).
  assert (E5 : s3 (out ++ [id]) = Some Dir).
  { unfold s3, dest. rewrite (strip_ne2 _ _ _ _ []) by congruence.
    destruct (under (out ++ [id]) (out ++ [f; id])) eqn:Eu; [reflexivity|].
    rewrite <- (app_nil_r (out ++ [id])), Hsrc. reflexivity. }
  unfold change_to_sample_directory, is_dir. rewrite E5. cbn [bind].
  eexists. unfold rmtree. cbn [files cwd]. f_equal. f_equal. extensionality q.
  unfold over. destruct (under (out ++ [id]) q) eqn:Eu.
  - apply under_true in Eu. destruct Eu as [r ->]. rewrite <- app_assoc. cbn [app].
    unfold dest. rewrite strip_ne2 by congruence. now rewrite (proj2 Hc).
  - unfold s3. destruct (strip dest q) as [r|] eqn:Es; [apply Hsrc|].
    destruct (under q dest) eqn:Eq.
    + destruct (Hanc q Eq) as [-> | H2].
      * rewrite <- (app_nil_r dest) in Es at 2. rewrite strip_app in Es. discriminate.
      * unfold s2 in H2. destruct (under dest q); [discriminate|]. unfold s1, over in H2.
        unfold under in Eu. destruct (strip (out ++ [id]) q); [discriminate|]. now rewrite H2.
    + unfold s2. unfold under. rewrite Es. unfold s1. apply over_out. unfold under in Eu.
      destruct (strip (out ++ [id]) q); [discriminate|reflexivity].
Qed.

Lemma rm_clean (s : fs) out id v dw : clean s out id ->
  exists dw', remove_sample_dir (mkW (over (out ++ [id]) (tree v) s) dw) true (Some out) id = Ok (mkW s dw').
Proof.
  intros Hc. unfold remove_sample_dir. cbn [files cwd]. unfold change_to_sample_directory, is_dir. rewrite over_at.
  cbn [tree bind]. unfold rmtree. cbn [files cwd]. eexists. f_equal. f_equal. extensionality q.
  destruct (under (out ++ [id]) q) eqn:Eu.
  - apply under_true in Eu. destruct Eu as [r ->]. rewrite <- app_assoc. cbn [app]. now rewrite (proj2 Hc).
  - apply over_out. unfold under in Eu. destruct (strip (out ++ [id]) q); [discriminate|reflexivity].
Qed.

(** ** All samples *)
Lemma good_id_ne id : good_id id -> id <> str "failed" /\ id <> str "several_successful".
Proof.
  intros [l [n [-> _]]]. split; intros H; apply (f_equal read_tag) in H; rewrite read_sample_tag in H; discriminate.
Qed.

Lemma good_id_keep id : good_id id -> keep_dir id = Ok (first_five id).
Proof.
  intros [l [n [-> Hn]]]. rewrite keep_dir_tag. unfold first_five. rewrite read_sample_tag.
  now rewrite N.mod_small.
Qed.

Lemma kept_app sel h (x : @sample C) id :
  kept sel (h ++ [x]) id = if same (sid x) id && sel x then Some x else kept sel h id.
Proof. unfold kept. now rewrite last_such_app. Qed.

(** Directories above the output directory. *)
Definition above (s : fs) (out : path) : Prop := forall q, under q out = true -> s q = Some Dir.

Lemma holds_clean (s0 : fs) out h s id : above s0 out -> holds s0 out h s -> good_id id -> clean s out id.
Proof.
  intros Ha H Hid. apply good_id_ne in Hid. split.
  - intros q Hq. destruct (list_eq_dec pystr_eq_dec q out) as [->|Hne]; [apply H|].
    rewrite (h_outside _ _ _ _ H); [now apply Ha|].
    intros r ->. apply under_true in Hq. destruct Hq as [r' Hq].
    apply (f_equal (@length _)) in Hq as Hl. rewrite !app_length in Hl.
    destruct r; [now rewrite app_nil_r in Hne|cbn in Hl; lia].
  - intros r. apply (h_others _ _ _ _ H); tauto.
Qed.

Lemma holds_files (s0 : fs) out h s (x : @sample C) : holds s0 out h s -> good_common s0 out (cfiles x) ->
  common_file s (cfiles x) = common_file s0 (cfiles x) /\ good_common s out (cfiles x).
Proof.
  intros H Hg. split.
  - extensionality n. unfold common_file. match goal with |- context[last_such ?f ?l] => destruct (last_such f l) as [p|] eqn:E end; [|reflexivity].
    apply last_such_In in E. apply (h_outside _ _ _ _ H). apply Hg, E.
  - intros p Hp. destruct (Hg p Hp) as [[c Hc] Hn]. split; [|exact Hn]. exists c.
    now rewrite (h_outside _ _ _ _ H).
Qed.

Lemma holds_same (s0 : fs) out h s (x : @sample C) : holds s0 out h s -> to_failed s0 x = false -> to_successful s0 x = false ->
  holds s0 out (h ++ [x]) s.
Proof.
  intros H Hf Hs. destruct H. constructor; auto; intros; rewrite kept_app, ?Hf, ?Hs, andb_false_r; auto.
Qed.

Lemma holds_failed (s0 : fs) out h s (x : @sample C) : holds s0 out h s -> to_failed s0 x = true -> to_successful s0 x = false ->
  holds s0 out (h ++ [x]) (over (out ++ [str "failed"; sid x]) (tree (left_file s0 x)) s).
Proof.
  intros H Hf Hs.
  assert (N : forall r, over (out ++ [str "failed"; sid x]) (tree (left_file s0 x)) s (out ++ r)
              = match strip [str "failed"; sid x] r with Some r' => tree (left_file s0 x) r' | None => s (out ++ r) end).
  { intros r. unfold over. now rewrite strip_app_app. }
  assert (N0 := N []). rewrite app_nil_r in N0.
  constructor.
  - intros q Hq. rewrite over_out; [now apply H|]. apply strip_out_None. now apply strip_None.
  - rewrite N0. apply H.
  - rewrite N. apply H.
  - rewrite N. apply H.
  - intros y r Hy1 Hy2. rewrite N. cbn [strip]. destruct (pystr_eq_dec (str "failed") y); [congruence|]. now apply H.
  - intros id. rewrite N, kept_app, Hf, andb_true_r. cbn [strip].
    destruct (pystr_eq_dec (str "failed") (str "failed")) as [_|n]; [|now destruct n].
    unfold same. destruct (pystr_eq_dec (sid x) id); cbn; [reflexivity|apply H].
  - intros id. rewrite N, kept_app, Hs, andb_false_r. cbn [strip].
    destruct (pystr_eq_dec (str "failed") (str "several_successful")) as [e|_]; [discriminate e|apply H].
  - intros id n. rewrite N, kept_app, Hf, andb_true_r. cbn [strip].
    destruct (pystr_eq_dec (str "failed") (str "failed")) as [_|n']; [|now destruct n'].
    unfold same. destruct (pystr_eq_dec (sid x) id); cbn; [reflexivity|apply H].
  - intros id n. rewrite N, kept_app, Hs, andb_false_r. cbn [strip].
    destruct (pystr_eq_dec (str "failed") (str "several_successful")) as [e|_]; [discriminate e|apply H].
  - intros a b c d r. rewrite N. cbn [strip]. destruct (pystr_eq_dec _ a); [|apply (h_deeper _ _ _ _ H)].
    destruct (pystr_eq_dec _ b); [reflexivity|apply (h_deeper _ _ _ _ H)].
Qed.

Lemma holds_successful (s0 : fs) out h s (x : @sample C) : holds s0 out h s -> to_failed s0 x = false -> to_successful s0 x = true ->
  holds s0 out (h ++ [x]) (over (out ++ [str "several_successful"; sid x]) (tree (left_file s0 x)) s).
Proof.
  intros H Hf Hs.
  assert (N : forall r, over (out ++ [str "several_successful"; sid x]) (tree (left_file s0 x)) s (out ++ r)
              = match strip [str "several_successful"; sid x] r with Some r' => tree (left_file s0 x) r' | None => s (out ++ r) end).
  { intros r. unfold over. now rewrite strip_app_app. }
  assert (N0 := N []). rewrite app_nil_r in N0.
  constructor.
  - intros q Hq. rewrite over_out; [now apply H|]. apply strip_out_None. now apply strip_None.
  - rewrite N0. apply H.
  - rewrite N. apply H.
  - rewrite N. apply H.
  - intros y r Hy1 Hy2. rewrite N. cbn [strip]. destruct (pystr_eq_dec (str "several_successful") y); [congruence|]. now apply H.
  - intros id. rewrite N, kept_app, Hf, andb_false_r. cbn [strip].
    destruct (pystr_eq_dec (str "several_successful") (str "failed")) as [e|_]; [discriminate e|apply H].
  - intros id. rewrite N, kept_app, Hs, andb_true_r. cbn [strip].
    destruct (pystr_eq_dec (str "several_successful") (str "several_successful")) as [_|n]; [|now destruct n].
    unfold same. destruct (pystr_eq_dec (sid x) id); cbn; [reflexivity|apply H].
  - intros id n. rewrite N, kept_app, Hf, andb_false_r. cbn [strip].
    destruct (pystr_eq_dec (str "several_successful") (str "failed")) as [e|_]; [discriminate e|apply H].
  - intros id n. rewrite N, kept_app, Hs, andb_true_r. cbn [strip].
    destruct (pystr_eq_dec (str "several_successful") (str "several_successful")) as [_|n']; [|now destruct n'].
    unfold same. destruct (pystr_eq_dec (sid x) id); cbn; [reflexivity|apply H].
  - intros a b c d r. rewrite N. cbn [strip]. destruct (pystr_eq_dec _ a); [|apply (h_deeper _ _ _ _ H)].
    destruct (pystr_eq_dec _ b); [reflexivity|apply (h_deeper _ _ _ _ H)].
Qed.

Definition pool_of (out : path) : pool := mkP (Some out) (Some (out ++ [s_successful])) false.

Lemma schedule_one (s0 : fs) out h s dw (x : @sample C) : above s0 out -> holds s0 out h s -> good_id (sid x) -> good_common s0 out (cfiles x) ->
  exists s' dw', schedule_sample (mkW s dw) (pool_of out) (sid x) (level x)
                 = Ok (mkW s' dw', pool_of out, succeeds s0 x)
                 /\ holds s0 out (h ++ [x]) s'.
Proof.
  intros Ha H Hid Hg. destruct (holds_files _ _ _ _ _ H Hg) as [Ec Hg'].
  pose proof (holds_clean _ _ _ _ _ Ha H Hid) as Hc. pose proof (good_id_ne _ Hid) as [Hn1 Hn2].
  unfold schedule_sample. cbn [pool_of output_dir bind].
  change (Some out) with (output_dir (pool_of out)) at 1. cbn [output_dir pool_of].
  rewrite (calculate_clean s out x dw Hc Hg'). cbn [bind].
  assert (El : left_file s x = left_file s0 x) by (extensionality n; unfold left_file; now rewrite Ec).
  assert (Es : succeeds s x = succeeds s0 x) by (unfold succeeds; now rewrite Ec).
  rewrite El, Es.
  assert (Hp : plain (left_file s0 x)) by (eapply left_plain; eauto).
  unfold process_result. cbn [debug pool_of output_dir successful_dir need level option_map].
  destruct (succeeds s0 x) eqn:Eo.
  - unfold move_successful_rm. rewrite (good_id_keep _ Hid). cbn [bind].
    destruct (first_five (sid x)) eqn:E5; cbn [bind].
    + destruct (move_rm s out s_successful (sid x) (left_file s0 x) (Some (out ++ [sid x]))) as [dw' E]; auto.
      * apply H.
      * intros HN r. unfold s_successful in *. rewrite (h_successful_dir _ _ _ _ H) in HN.
        pose proof (h_successful_file _ _ _ _ H (sid x)) as HF.
        destruct (kept (to_successful s0) h (sid x)) eqn:Ek; [discriminate|].
        destruct r as [|a [|b r]]; [rewrite (h_successful_dir _ _ _ _ H), Ek; reflexivity|apply HF|apply (h_deeper _ _ _ _ H)].
      * intros c. unfold s_successful. rewrite (h_successful_dir _ _ _ _ H). destruct (kept _ h _); discriminate.
      * change ((out ++ [str "several_successful"])) with (out ++ [s_successful]).
        rewrite E. cbn [bind]. eexists _, _. split; [reflexivity|].
        apply holds_successful; auto; [unfold to_failed; now rewrite Eo|unfold to_successful; now rewrite Eo, E5].
    + destruct (rm_clean s out (sid x) (left_file s0 x) (Some (out ++ [sid x])) Hc) as [dw' E]. rewrite E. cbn [bind].
      eexists _, _. split; [reflexivity|].
      apply holds_same; auto; [unfold to_failed; now rewrite Eo|unfold to_successful; now rewrite Eo, E5].
  - unfold move_failed_rm.
    destruct (move_rm s out s_failed (sid x) (left_file s0 x) (Some (out ++ [sid x]))) as [dw' E]; auto.
    + apply H.
    + intros HN r. unfold s_failed in *. rewrite (h_failed_dir _ _ _ _ H) in HN.
      pose proof (h_failed_file _ _ _ _ H (sid x)) as HF.
      destruct (kept (to_failed s0) h (sid x)) eqn:Ek; [discriminate|].
      destruct r as [|a [|b r]]; [rewrite (h_failed_dir _ _ _ _ H), Ek; reflexivity|apply HF|apply (h_deeper _ _ _ _ H)].
    + intros c. unfold s_failed. rewrite (h_failed_dir _ _ _ _ H). destruct (kept _ h _); discriminate.
    + rewrite E. cbn [bind]. eexists _, _. split; [reflexivity|].
      apply holds_failed; auto; [unfold to_failed; now rewrite Eo|unfold to_successful; now rewrite Eo].
Qed.

Lemma schedule_many (s0 : fs) out (l : list (@sample C)) : above s0 out ->
  Forall (fun x => good_id (sid x) /\ good_common s0 out (cfiles x)) l ->
  forall h s dw, holds s0 out h s ->
  exists s' dw', schedule_all (mkW s dw) (pool_of out) (map (fun x => (sid x, level x)) l)
                 = Ok (mkW s' dw', pool_of out, map (succeeds s0) l)
                 /\ holds s0 out (h ++ l) s'.
Proof.
  intros Ha Hl. induction Hl as [|x l [Hid Hg] Hl IH]; intros h s dw H.
  - exists s, dw. cbn. now rewrite app_nil_r.
  - destruct (schedule_one _ _ _ _ dw _ Ha H Hid Hg) as [s1 [d1 [E H1]]].
    destruct (IH _ _ d1 H1) as [s2 [d2 [E2 H2]]].
    exists s2, d2. cbn [map schedule_all]. rewrite E. cbn [bind]. rewrite E2. cbn [bind].
    split; [reflexivity|]. now rewrite <- app_assoc in H2.
Qed.

(** ** A new pool *)
Lemma create_dir_false (w : @world C) out sub w' : create_dir w false (Some out) sub = Ok w' ->
  (forall q, under q (out ++ sub) = true -> q <> out ++ sub -> match files w q with Some (File _) => False | _ => True end)
  /\ files w' = fun q => if under q (out ++ sub) then Some Dir else if under (out ++ sub) q
                  then match files w (out ++ sub) with Some _ => None | None => files w q end else files w q.
Proof.
  unfold create_dir. intros H.
  destruct (exists_ (files w) (out ++ sub)) eqn:Ee; cbn [andb negb] in H.
  - destruct (is_dir (files w) (out ++ sub)) eqn:Ed; cbn [bind] in H; [|discriminate].
    unfold makedirs in H. destruct (existsb _ _) eqn:Ex; [discriminate|]. cbn [bind] in H. injection H as H. subst w'.
    cbn [files rmtree]. unfold is_dir in Ed. split.
    + intros q Hq Hne. destruct (files w q) as [[|c]|] eqn:Eq; auto.
      assert (existsb (fun q0 => match files (rmtree w (out ++ sub)) q0 with Some (File _) => true | _ => false end)
                (ancestors (out ++ sub)) = true) as HH; [|congruence].
      apply existsb_exists. exists q. split.
      * apply under_true in Hq. destruct Hq as [r Hq]. rewrite Hq. unfold ancestors. apply in_map_iff.
        exists (length q). split; [rewrite firstn_app, Nat.sub_diag, firstn_all, firstn_O; apply app_nil_r|].
        apply in_seq. rewrite app_length. lia.
      * cbn [rmtree files]. rewrite (proj2 (under_false _ _)); [now rewrite Eq|].
        intros r ->. apply under_true in Hq. destruct Hq as [r' Hq]. apply (f_equal (@length _)) in Hq.
        rewrite !app_length in Hq. destruct r; [now rewrite app_nil_r in Hne|cbn in Hq; lia].
    + extensionality q. destruct (under q (out ++ sub)); [reflexivity|].
      destruct (under (out ++ sub) q); [|reflexivity]. now destruct (files w (out ++ sub)) as [[|]|].
  - unfold exists_ in Ee. destruct (files w (out ++ sub)) eqn:Ew; [discriminate|].
    cbn [bind] in H. unfold makedirs in H. destruct (existsb _ _) eqn:Ex; [discriminate|]. cbn [bind] in H. injection H as H.
    subst w'. cbn [files]. split.
    + intros q Hq Hne. destruct (files w q) as [[|c]|] eqn:Eq; auto.
      assert (existsb (fun q0 => match files w q0 with Some (File _) => true | _ => false end)
                (ancestors (out ++ sub)) = true) as HH; [|congruence].
      apply existsb_exists. exists q. split; [|now rewrite Eq].
      apply under_true in Hq. destruct Hq as [r Hq]. rewrite Hq. unfold ancestors. apply in_map_iff.
      exists (length q). split; [rewrite firstn_app, Nat.sub_diag, firstn_all, firstn_O; apply app_nil_r|].
      apply in_seq. rewrite app_length. lia.
    + extensionality q. destruct (under q (out ++ sub)); [reflexivity|]. now destruct (under (out ++ sub) q).
Qed.

Lemma rooted_below (s : fs) p : rooted s -> s p <> Some Dir -> forall r, r <> [] -> s (p ++ r) = None.
Proof.
  intros Hr Hp r Hne. destruct r as [|a r]; [easy|]. clear Hne.
  revert a. induction r as [|b r IH] using rev_ind; intros a.
  - destruct (s (p ++ [a])) eqn:E; [|reflexivity]. destruct Hp. apply (Hr p a). congruence.
  - destruct (s (p ++ a :: r ++ [b])) eqn:E; [|reflexivity].
    assert (s (p ++ a :: r) = Some Dir) as H; [|now rewrite IH in H].
    apply (Hr _ b). rewrite <- app_assoc. cbn [app]. congruence.
Qed.
Lemma under_app_app d a b : under (d ++ a) (d ++ b) = under a b.
Proof. unfold under. now rewrite strip_app_app. Qed.

(** The tree after a new pool without debug. *)
Definition fresh (s : fs) (out : path) : fs :=
  fun q => if under q (out ++ [s_successful]) then Some Dir else if under q (out ++ [s_failed]) then Some Dir
           else if under q out then Some Dir else if under out q then None else s q.

Lemma new_pool_fresh (w : @world C) wd p W0 P : rooted (files w) -> resolve (cwd w) wd = Some p ->
  new_pool w (Some wd) false = Ok (W0, P) ->
  P = pool_of (p ++ [s_output]) /\ files W0 = fresh (files w) (p ++ [s_output])
  /\ forall q r c, p ++ [s_output] = q ++ r -> files w q <> Some (File c).
Proof.
  intros Hr Hp H. unfold new_pool in H. rewrite Hp in H. cbn [bind] in H. set (out := p ++ [s_output]) in *.
  destruct (create_dir w false (Some out) []) as [w1|] eqn:E1; [|discriminate]. cbn [bind] in H.
  destruct (create_dir w1 false (Some out) [s_failed]) as [w2|] eqn:E2; [|discriminate]. cbn [bind] in H.
  destruct (create_dir w2 false (Some out) [s_successful]) as [w3|] eqn:E3; [|discriminate]. cbn [bind option_map] in H.
  injection H as <- <-. split; [reflexivity|].
  assert (Ho : forall c, files w out <> Some (File c)).
  { intros c Hc. unfold create_dir, exists_, is_dir in E1. rewrite app_nil_r, Hc in E1. discriminate. }
  apply create_dir_false in E1, E2, E3. rewrite !app_nil_r in E1. destruct E1 as [N1 E1], E2 as [_ E2], E3 as [_ E3].
  split.
  2: { intros q r c Hq Hc. destruct (list_eq_dec pystr_eq_dec q out) as [-> | Hne]; [now apply Ho in Hc|].
       specialize (N1 q). rewrite Hc in N1. apply N1; [|exact Hne]. fold out in Hq. rewrite Hq. apply under_app. }
  assert (F1 : files w1 = fun q => if under q out then Some Dir else if under out q then None else files w q).
  { rewrite E1. extensionality q. destruct (under q out) eqn:Eu; [reflexivity|].
    destruct (under out q) eqn:Eo; [|reflexivity]. destruct (files w out) eqn:Ew; [reflexivity|].
    apply under_true in Eo. destruct Eo as [r ->]. destruct r as [|a r].
    - rewrite app_nil_r in Eu. now rewrite under_refl in Eu.
    - apply rooted_below; [exact Hr|congruence|discriminate]. }
  assert (F2 : files w2 = fun q => if under q (out ++ [s_failed]) then Some Dir else files w1 q).
  { rewrite E2. extensionality q. destruct (under q (out ++ [s_failed])) eqn:Eu; [reflexivity|].
    destruct (under (out ++ [s_failed]) q) eqn:Eo; [|reflexivity].
    apply under_true in Eo. destruct Eo as [r ->].
    assert (N : files w1 ((out ++ [s_failed]) ++ r) = None).
    { rewrite F1, <- app_assoc. cbn [app]. rewrite (under_app out).
      rewrite (proj2 (under_false _ _)); [reflexivity|]. intros r' e. apply (f_equal (@length _)) in e.
      rewrite !app_length in e. cbn in e. lia. }
    rewrite N. now destruct (files w1 (out ++ [s_failed])). }
  rewrite E3. extensionality q. unfold fresh. destruct (under q (out ++ [s_successful])) eqn:Eu; [reflexivity|].
  assert (G : files w2 q = if under q (out ++ [s_failed]) then Some Dir
              else if under q out then Some Dir else if under out q then None else files w q).
  { rewrite F2, F1. reflexivity. }
  rewrite <- G. destruct (under (out ++ [s_successful]) q) eqn:Eo; [|reflexivity].
  apply under_true in Eo. destruct Eo as [r ->].
  assert (N : files w2 ((out ++ [s_successful]) ++ r) = None).
  { rewrite G, <- app_assoc. cbn [app]. rewrite (under_app out), under_app_app.
    assert (U : under (s_successful :: r) [s_failed] = false) by reflexivity. rewrite U.
    rewrite (proj2 (under_false _ _)); [reflexivity|]. intros r' e. apply (f_equal (@length _)) in e.
    rewrite !app_length in e. cbn in e. lia. }
  rewrite N. now destruct (files w2 (out ++ [s_successful])).
Qed.

Lemma fresh_in s out x r : fresh s out (out ++ x :: r)
  = if under (x :: r) [s_successful] then Some Dir else if under (x :: r) [s_failed] then Some Dir else None.
Proof.
  unfold fresh. rewrite !under_app_app. destruct (under (x :: r) [s_successful]); [reflexivity|].
  destruct (under (x :: r) [s_failed]); [reflexivity|].
  rewrite under_app. rewrite (proj2 (under_false _ _)); [reflexivity|].
  intros r' e. apply (f_equal (@length _)) in e. rewrite !app_length in e. cbn in e. lia.
Qed.

Lemma fresh_above s out : above (fresh s out) out.
Proof.
  intros q Hq. unfold fresh. rewrite Hq. destruct (under q (out ++ [s_successful])); [reflexivity|].
  now destruct (under q (out ++ [s_failed])).
Qed.

Lemma fresh_outside s out q : (forall r, q <> out ++ r) -> fresh s out q = if under q out then Some Dir else s q.
Proof.
  intros H. unfold fresh. rewrite (proj2 (under_false _ _) H).
  destruct (under q (out ++ [s_successful])) eqn:E1.
  { apply under_snoc in E1. destruct E1 as [-> | E1]; [reflexivity|]. now apply H in E1. }
  destruct (under q (out ++ [s_failed])) eqn:E2; [|reflexivity].
  apply under_snoc in E2. destruct E2 as [-> | E2]; [reflexivity|]. now apply H in E2.
Qed.

Lemma fresh_holds s out : holds (fresh s out) out [] (fresh s out).
Proof.
  constructor; try reflexivity; intros.
  - apply fresh_above, under_refl.
  - now rewrite fresh_in.
  - now rewrite fresh_in.
  - rewrite fresh_in. unfold under. cbn [strip].
    destruct (pystr_eq_dec x s_successful); [now destruct H0|].
    destruct (pystr_eq_dec x s_failed); [now destruct H|reflexivity].
  - now rewrite fresh_in.
  - now rewrite fresh_in.
  - now rewrite fresh_in.
  - now rewrite fresh_in.
  - rewrite fresh_in. unfold under. cbn [strip]. now destruct (pystr_eq_dec a s_successful), (pystr_eq_dec a s_failed).
Qed.

Lemma in_ancestors q d : under q d = true -> In q (ancestors d).
Proof.
  intros H. apply under_true in H. destruct H as [r ->]. unfold ancestors. apply in_map_iff. exists (length q). split.
  - rewrite firstn_app, Nat.sub_diag, firstn_all. cbn. apply app_nil_r.
  - apply in_seq. rewrite app_length. lia.
Qed.

Definition no_file (s : fs) (d : path) : Prop := forall q, under q d = true -> match s q with Some (File _) => False | _ => True end.

Lemma create_dir_possible (w : @world C) out sub : no_file (files w) (out ++ sub) ->
  exists w', create_dir w false (Some out) sub = Ok w'.
Proof.
  intros H. unfold create_dir, exists_, is_dir. pose proof (H (out ++ sub) (under_refl _)) as H0.
  destruct (files w (out ++ sub)) as [[|c]|] eqn:E; cbn [andb negb bind]; try contradiction.
  - rewrite makedirs_ok; [eexists; reflexivity|]. intros q Hq. cbn [files rmtree].
    destruct (under (out ++ sub) q); [exact I|]. now apply H.
  - rewrite makedirs_ok; [eexists; reflexivity|]. exact H.
Qed.

Lemma new_pool_possible (w : @world C) wd p : resolve (cwd w) wd = Some p ->
  no_file (files w) (p ++ [s_output]) -> rooted (files w) -> exists W0 P, new_pool w (Some wd) false = Ok (W0, P).
Proof.
  intros Hp Hn Hr. unfold new_pool. rewrite Hp. cbn [bind]. set (out := p ++ [s_output]) in *.
  destruct (create_dir_possible w out []) as [w1 E1]; [now rewrite app_nil_r|]. rewrite E1. cbn [bind].
  apply create_dir_false in E1. destruct E1 as [_ E1]. rewrite app_nil_r in E1.
  assert (B1 : forall x, files w1 (out ++ [x]) = None).
  { intros x. rewrite E1. rewrite (proj2 (under_false _ _)).
    2: { intros r e. apply (f_equal (@length _)) in e. rewrite !app_length in e. cbn in e. lia. }
    rewrite under_app. destruct (files w out) as [[|c]|] eqn:Ew; [reflexivity|reflexivity|].
    apply rooted_below; [exact Hr|congruence|discriminate]. }
  destruct (create_dir_possible w1 out [s_failed]) as [w2 E2].
  { intros q Hq. apply under_snoc in Hq. destruct Hq as [Hq| ->]; [|now rewrite B1]. now rewrite E1, Hq. }
  rewrite E2. cbn [bind]. apply create_dir_false in E2. destruct E2 as [_ E2].
  destruct (create_dir_possible w2 out [s_successful]) as [w3 E3].
  { intros q Hq. rewrite E2. apply under_snoc in Hq. destruct Hq as [Hq| ->].
    - destruct (under q (out ++ [s_failed])) eqn:U; [exact I|].
      apply under_true in Hq. destruct Hq as [r Hq]. exfalso.
      assert (T : under q (out ++ [s_failed]) = true) by (rewrite Hq, <- app_assoc; apply under_app). congruence.
    - rewrite !under_app_app.
      assert (U : under [s_successful] [s_failed] = false) by reflexivity. rewrite U.
      assert (U' : under [s_failed] [s_successful] = false) by reflexivity. rewrite U'. now rewrite B1. }
  rewrite E3. cbn [bind]. eauto.
Qed.

(** A new pool with debug. *)
Lemma create_dir_true (w : @world C) out sub w' : create_dir w true (Some out) sub = Ok w' ->
  (forall q, files w q <> None -> files w' q = files w q)
  /\ files w' = fun q => if under q (out ++ sub) then Some Dir else files w q.
Proof.
  unfold create_dir. rewrite andb_false_r. cbn [bind]. unfold makedirs. destruct (existsb _ _) eqn:Ex; [discriminate|].
  cbn [bind]. intros [= <-]. split; [|reflexivity]. cbn [files]. intros q Hq. destruct (under q (out ++ sub)) eqn:Eu; [|reflexivity].
  destruct (files w q) as [[|c]|] eqn:E; [reflexivity| |now destruct Hq].
  assert (HH : existsb (fun q0 => match files w q0 with Some (File _) => true | _ => false end) (ancestors (out ++ sub)) = true);
    [|congruence].
  apply existsb_exists. exists q. split; [now apply in_ancestors|]. now rewrite E.
Qed.

Lemma new_pool_debug (w : @world C) wd p W0 P : resolve (cwd w) wd = Some p -> new_pool w (Some wd) true = Ok (W0, P) ->
  (forall q, files w q <> None -> files W0 q = files w q)
  /\ forall q, files W0 q = if under q (p ++ [s_output; s_successful]) || under q (p ++ [s_output; s_failed]) then Some Dir
                         else files w q.
Proof.
  intros Hp H. unfold new_pool in H. rewrite Hp in H. cbn [bind] in H. set (out := p ++ [s_output]) in *.
  destruct (create_dir w true (Some out) []) as [w1|] eqn:E1; [|discriminate]. cbn [bind] in H.
  destruct (create_dir w1 true (Some out) [s_failed]) as [w2|] eqn:E2; [|discriminate]. cbn [bind] in H.
  destruct (create_dir w2 true (Some out) [s_successful]) as [w3|] eqn:E3; [|discriminate]. cbn [bind option_map] in H.
  injection H as <- _. apply create_dir_true in E1, E2, E3. rewrite app_nil_r in E1.
  destruct E1 as [K1 E1], E2 as [K2 E2], E3 as [K3 E3]. split.
  { intros q Hq. rewrite K3, K2, K1; try reflexivity; try exact Hq; rewrite ?K2, ?K1; try exact Hq; rewrite ?K1; exact Hq. }
  intros q. rewrite E3, E2, E1. unfold out. rewrite <- !app_assoc. cbn [app].
  destruct (under q (p ++ [s_output; s_successful])) eqn:U1; [reflexivity|].
  destruct (under q (p ++ [s_output; s_failed])) eqn:U2; [reflexivity|]. cbn [orb].
  destruct (under q (p ++ [s_output])) eqn:U3; [|reflexivity].
  apply under_true in U3. destruct U3 as [r U3].
  assert (T : under q (p ++ [s_output; s_failed]) = true); [|congruence].
  replace (p ++ [s_output; s_failed]) with ((p ++ [s_output]) ++ [s_failed]) by now rewrite <- app_assoc.
  rewrite U3, <- app_assoc. apply under_app.
Qed.
End WorkProofs.
