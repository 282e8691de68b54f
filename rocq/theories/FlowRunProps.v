(** C148-C151: files of the flow simulation. *)
From Verif Require Import Base BaseFacts FlowRunModel.

(** * Specification *)
(** [wrote l n c]: [c] is what the writes [l] leave in the file [n]. *)
Definition wrote {C} (l : list (pystr * C)) (n : pystr) (c : C) : Prop :=
  exists l1 l2, l = l1 ++ (n, c) :: l2 /\ ~ In n (map fst l2).
(** A name that starts with the prefix "fine". *)
Definition is_fine (n : pystr) : Prop := exists r, n = str "fine" ++ r.

(** * Files *)
Section F.
Context {C : Type}.
Implicit Type d l : dir C.
Lemma fget_fset_eq d n c : fget (fset d n c) n = Some c.
Proof.
  induction d as [|[m c'] d IH]; cbn [fset fget].
  - destruct (pystr_eq_dec n n); congruence.
  - destruct (pystr_eq_dec n m) as [E|E]; cbn [fget]; destruct (pystr_eq_dec n m); try congruence. Qed.
Lemma fget_fset_neq d n m c : m <> n -> fget (fset d n c) m = fget d m.
Proof.
  intros N. induction d as [|[k c'] d IH]; cbn [fset fget].
  - destruct (pystr_eq_dec m n); congruence.
  - destruct (pystr_eq_dec n k) as [E|E]; cbn [fget]; destruct (pystr_eq_dec m k); try congruence. Qed.
Lemma fget_fdel_eq d n : fget (fdel d n) n = None.
Proof.
  induction d as [|[m c] d IH]; cbn [fdel filter fget fst]; [reflexivity|]. destruct (pystr_eq_dec n m) as [E|E]; [exact IH|].
  cbn [fget]. destruct (pystr_eq_dec n m); [congruence|exact IH]. Qed.
Lemma fget_fdel_neq d n m : m <> n -> fget (fdel d n) m = fget d m.
Proof.
  intros N. induction d as [|[k c] d IH]; cbn [fdel filter fget fst]; [reflexivity|]. destruct (pystr_eq_dec n k) as [E|E].
  - destruct (pystr_eq_dec m k); [congruence|exact IH].
  - cbn [fget]. destruct (pystr_eq_dec m k); [reflexivity|exact IH]. Qed.
Lemma fget_in d n c : fget d n = Some c -> In n (map fst d).
Proof. induction d as [|[m c'] d IH]; cbn [fget map fst]; [discriminate|]. destruct (pystr_eq_dec n m) as [->|E]; [left; reflexivity|right; auto]. Qed.
Lemma write_all_app d l1 l2 : write_all d (l1 ++ l2) = write_all (write_all d l1) l2.
Proof. apply fold_left_app. Qed.
Lemma write_all_notin l : forall d n, ~ In n (map fst l) -> fget (write_all d l) n = fget d n.
Proof.
  induction l as [|[m c] l IH]; intros d n N; [reflexivity|]. cbn [map fst] in N.
  change (write_all d ((m, c) :: l)) with (write_all (fset d m c) l). rewrite IH; [|intros H; apply N; right; exact H].
  apply fget_fset_neq. intros ->. apply N; left; reflexivity. Qed.
Lemma write_all_wrote d l n c : wrote l n c -> fget (write_all d l) n = Some c.
Proof.
  intros (l1 & l2 & -> & N). rewrite write_all_app.
  change (write_all (write_all d l1) ((n, c) :: l2)) with (write_all (fset (write_all d l1) n c) l2).
  rewrite write_all_notin by exact N. apply fget_fset_eq. Qed.
Lemma wrote_dec l n : (exists c, wrote l n c) \/ ~ In n (map fst l).
Proof.
  induction l as [|[m c] l IH]; [right; intros []|]. destruct IH as [(c' & l1 & l2 & -> & N)|N].
  - left. exists c', ((m, c) :: l1), l2. auto.
  - destruct (pystr_eq_dec n m) as [->|E]; [left; exists c, [], l; auto|].
    right. cbn [map fst]. intros [H|H]; [congruence|auto]. Qed.
Lemma write_all_get d l n c : fget (write_all d l) n = Some c -> wrote l n c \/ (~ In n (map fst l) /\ fget d n = Some c).
Proof.
  intros H. destruct (wrote_dec l n) as [[c' W]|N].
  - left. rewrite (write_all_wrote _ _ _ _ W) in H. injection H as <-. exact W.
  - right. split; [exact N|]. rewrite write_all_notin in H by exact N. exact H. Qed.
Lemma wrote_in l n c : wrote l n c -> In n (map fst l).
Proof. intros (l1 & l2 & -> & _). rewrite map_app. apply in_or_app. right. left. reflexivity. Qed.

Lemma starts_with_iff p s : starts_with p s = true <-> exists r, s = p ++ r.
Proof.
  revert s. induction p as [|a p IH]; intros s; [split; [intros _; exists s; reflexivity|reflexivity]|].
  destruct s as [|b s]; cbn [starts_with]; [split; [discriminate|intros [r H]; discriminate]|].
  destruct (ascii_dec a b) as [->|E].
  - rewrite IH. split; intros [r H]; exists r; [cbn; congruence|cbn in H; congruence].
  - split; [discriminate|]. intros [r H]. cbn in H. congruence. Qed.
Lemma fine_dec n : starts_with fine_prefix n = true <-> is_fine n.
Proof. apply starts_with_iff. Qed.
Lemma fine_name n : is_fine (str "fine_" ++ n).
Proof. exists (str "_" ++ n). reflexivity. Qed.
Lemma fine_inj n m : str "fine_" ++ n = str "fine_" ++ m -> n = m.
Proof. cbn. congruence. Qed.

Lemma fget_move_source d n m : n <> m -> fget (move d n m) n = None.
Proof.
  intros N. unfold move. destruct (fget d n) eqn:E; [|exact E].
  rewrite fget_fset_neq by exact N. apply fget_fdel_eq. Qed.
Lemma fget_move_target d n m c : fget d n = Some c -> fget (move d n m) m = Some c.
Proof. intros E. unfold move. rewrite E. apply fget_fset_eq. Qed.
Lemma fget_move_other d n m k : k <> n -> k <> m -> fget (move d n m) k = fget d k.
Proof.
  intros N1 N2. unfold move. destruct (fget d n); [|reflexivity].
  rewrite fget_fset_neq by exact N2. apply fget_fdel_neq. exact N1. Qed.

Definition step d (n : pystr) := if starts_with fine_prefix n then d else move d n (str "fine_" ++ n).
Lemma not_fine_neq n m : ~ is_fine n -> n <> str "fine_" ++ m.
Proof. intros N ->. apply N, fine_name. Qed.
Lemma loop_plain ns : forall d n, ~ is_fine n -> fget (fold_left step ns d) n = if in_dec pystr_eq_dec n ns then None else fget d n.
Proof.
  induction ns as [|m ns IH]; intros d n N; [reflexivity|]. cbn [fold_left]. rewrite (IH _ _ N).
  assert (Hs : fget (step d m) n = if pystr_eq_dec m n then None else fget d n).
  { unfold step. destruct (starts_with fine_prefix m) eqn:E.
    - destruct (pystr_eq_dec m n) as [->|]; [|reflexivity]. apply fine_dec in E. contradiction.
    - destruct (pystr_eq_dec m n) as [->|Ne].
      + apply fget_move_source. apply not_fine_neq, N.
      + apply fget_move_other; [congruence|apply not_fine_neq, N]. }
  destruct (in_dec pystr_eq_dec n ns) as [H|H], (in_dec pystr_eq_dec n (m :: ns)) as [H'|H']; try reflexivity.
  - exfalso. apply H'. right. exact H.
  - rewrite Hs. destruct (pystr_eq_dec m n) as [|Ne]; [reflexivity|]. destruct H' as [H'|H']; contradiction.
  - rewrite Hs. destruct (pystr_eq_dec m n) as [->|Ne]; [|reflexivity]. exfalso. apply H'. left. reflexivity. Qed.
Lemma loop_kept ns : forall d n, ~ In n ns -> fget (fold_left step ns d) (str "fine_" ++ n) = fget d (str "fine_" ++ n).
Proof.
  induction ns as [|m ns IH]; intros d n N; [reflexivity|]. cbn [fold_left].
  rewrite IH by (intros H; apply N; right; exact H). unfold step. destruct (starts_with fine_prefix m) eqn:E; [reflexivity|].
  apply fget_move_other.
  - intros H. assert (F : is_fine m) by (rewrite <- H; apply fine_name). apply fine_dec in F. congruence.
  - intros H. apply fine_inj in H. apply N. left. congruence. Qed.
Lemma loop_moved ns : forall d n c, NoDup ns -> In n ns -> ~ is_fine n -> fget d n = Some c ->
  fget (fold_left step ns d) (str "fine_" ++ n) = Some c.
Proof.
  induction ns as [|m ns IH]; intros d n c ND Hin N G; [destruct Hin|]. cbn [fold_left]. inversion ND as [|? ? Nm ND']; subst.
  destruct (pystr_eq_dec m n) as [->|Ne].
  - rewrite loop_kept by exact Nm. unfold step. destruct (starts_with fine_prefix n) eqn:E; [apply fine_dec in E; contradiction|].
    apply fget_move_target, G.
  - destruct Hin as [Hin|Hin]; [congruence|]. apply IH; [exact ND'|exact Hin|exact N|].
    unfold step. destruct (starts_with fine_prefix m) eqn:E; [exact G|].
    rewrite fget_move_other; [exact G|congruence|apply not_fine_neq, N]. Qed.
Lemma rename_plain d n : ~ is_fine n -> fget (rename_fine d) n = None.
Proof.
  intros N. unfold rename_fine. fold step. change (fold_left _ (map fst d) d) with (fold_left step (map fst d) d).
  rewrite loop_plain by exact N. destruct (in_dec pystr_eq_dec n (map fst d)) as [H|H]; [reflexivity|].
  destruct (fget d n) eqn:E; [|reflexivity]. apply fget_in in E. contradiction. Qed.
Lemma rename_moved d n c : NoDup (map fst d) -> ~ is_fine n -> fget d n = Some c -> fget (rename_fine d) (str "fine_" ++ n) = Some c.
Proof. intros ND N G. apply loop_moved; [exact ND|exact (fget_in _ _ _ G)|exact N|exact G]. Qed.

Lemma fset_names d n c : map fst (fset d n c) = if in_dec pystr_eq_dec n (map fst d) then map fst d else map fst d ++ [n].
Proof.
  induction d as [|[m c'] d IH]; cbn [fset map fst app]; [destruct (in_dec pystr_eq_dec n []) as [[]|]; reflexivity|].
  destruct (pystr_eq_dec n m) as [->|E]; cbn [map fst].
  - destruct (in_dec pystr_eq_dec m (m :: map fst d)) as [|H]; [reflexivity|]. exfalso. apply H. left. reflexivity.
  - rewrite IH. destruct (in_dec pystr_eq_dec n (map fst d)) as [H|H], (in_dec pystr_eq_dec n (m :: map fst d)) as [H'|H']; try reflexivity.
    + exfalso. apply H'. right. exact H.
    + destruct H' as [H'|H']; [congruence|contradiction]. Qed.
Lemma fset_nodup d n c : NoDup (map fst d) -> NoDup (map fst (fset d n c)).
Proof.
  intros ND. rewrite fset_names. destruct (in_dec pystr_eq_dec n (map fst d)) as [|H]; [exact ND|].
  apply NoDup_app_iff. split; [exact ND|]. split; [constructor; [intros []|constructor]|].
  intros x Hx [<-|[]]. contradiction. Qed.
Lemma write_all_nodup l : forall d, NoDup (map fst d) -> NoDup (map fst (write_all d l)).
Proof. induction l as [|[m c] l IH]; intros d ND; [exact ND|]. apply IH, fset_nodup, ND. Qed.
End F.

(** * One sample *)
Section S.
Context {C D R : Type}.
Variable flow123d : D -> dir C -> dir C.
Variable extract : C -> res R.
Variable zeros : R -> R.
Notation run_sample := (run_sample flow123d extract).
Notation calculate_runs := (calculate_runs flow123d extract zeros).

Lemma balance_not_fine : ~ is_fine balance_file.
Proof. intros [r H]. discriminate. Qed.
Lemma fields_not_fine : ~ is_fine fields_file.
Proof. intros [r H]. discriminate. Qed.
Lemma balance_fields : balance_file <> fields_file.
Proof. discriminate. Qed.

(** Where a result of one run comes from. *)
Lemma run_ok d fields common d' r : run_sample d fields common = (d', Ok r) ->
  exists b, extract b = Ok r /\ (wrote (flow123d common (fset d fields_file fields)) balance_file b
    \/ (~ In balance_file (map fst (flow123d common (fset d fields_file fields))) /\ fget d balance_file = Some b)).
Proof.
  unfold FlowRunModel.run_sample. intros H. injection H as _ H.
  destruct (fget (write_all _ _) balance_file) as [b|] eqn:E; [|discriminate]. exists b. split; [exact H|].
  apply write_all_get in E. destruct E as [W|[N G]]; [left; exact W|right]. split; [exact N|].
  rewrite fget_fset_neq in G by exact balance_fields. exact G. Qed.
Lemma run_wrote d fields common b : wrote (flow123d common (fset d fields_file fields)) balance_file b -> snd (run_sample d fields common) = extract b.
Proof. intros W. unfold FlowRunModel.run_sample. cbn [snd]. rewrite (write_all_wrote _ _ _ _ W). reflexivity. Qed.

(** The results in any directory. *)
Lemma runs_ok d fine coarse fc cc d' rf rc : calculate_runs d fine coarse fc cc = (d', Ok (rf, rc)) ->
  (exists b, extract b = Ok rf /\ (wrote (flow123d fc (fset d fields_file fine)) balance_file b
    \/ (~ In balance_file (map fst (flow123d fc (fset d fields_file fine))) /\ fget d balance_file = Some b)))
  /\ match coarse with
     | None => rc = zeros rf
     | Some cf => exists d2 b, fget d2 fields_file = Some cf
         /\ (forall n, ~ is_fine n -> n <> fields_file -> fget d2 n = None)
         /\ wrote (flow123d cc d2) balance_file b /\ extract b = Ok rc
     end.
Proof.
  unfold FlowRunModel.calculate_runs. destruct (run_sample d fine fc) as [d1 [r|e]] eqn:E1; [|discriminate].
  destruct coarse as [cf|].
  - destruct (run_sample (rename_fine d1) cf cc) as [d3 [r'|e]] eqn:E2; [|discriminate]. intros H. injection H as _ -> ->.
    split; [exact (run_ok _ _ _ _ _ E1)|]. destruct (run_ok _ _ _ _ _ E2) as (b & Hb & [W|[_ G]]).
    + exists (fset (rename_fine d1) fields_file cf), b. split; [apply fget_fset_eq|]. split; [|split; assumption].
      intros n N1 N2. rewrite fget_fset_neq by exact N2. apply rename_plain, N1.
    + rewrite rename_plain in G by exact balance_not_fine. discriminate.
  - intros H. injection H as _ -> <-. split; [exact (run_ok _ _ _ _ _ E1)|reflexivity]. Qed.

(** C148. In a directory without a balance file, whatever flow123d does: a sample that is returned consists of the result of a run on
    the fine fields and of the result of a run on the coarse fields, each read from the balance file that this very run wrote. *)
Theorem C148_results d fine coarse fc cc d' rf rc : fget d balance_file = None ->
  calculate_runs d fine coarse fc cc = (d', Ok (rf, rc)) ->
  (exists d1 b, fget d1 fields_file = Some fine /\ (forall n, n <> fields_file -> fget d1 n = fget d n)
     /\ wrote (flow123d fc d1) balance_file b /\ extract b = Ok rf)
  /\ match coarse with
     | None => rc = zeros rf
     | Some cf => exists d2 b, fget d2 fields_file = Some cf
         /\ (forall n, ~ is_fine n -> n <> fields_file -> fget d2 n = None)
         /\ wrote (flow123d cc d2) balance_file b /\ extract b = Ok rc
     end.
Proof.
  intros N H. apply runs_ok in H. destruct H as [(b & Hb & [W|[_ G]]) H2]; [|congruence]. split; [|exact H2].
  exists (fset d fields_file fine), b. split; [apply fget_fset_eq|]. split; [intros n Hn; apply fget_fset_neq, Hn|]. split; assumption. Qed.

(** A run that writes no balance file, fine or coarse, makes the sample fail. *)
Theorem C148_failures d fine coarse fc cc : fget d balance_file = None ->
  (forall d1, fget d1 fields_file = Some fine -> ~ In balance_file (map fst (flow123d fc d1)))
  \/ (exists cf, coarse = Some cf /\ forall d1, fget d1 fields_file = Some cf -> ~ In balance_file (map fst (flow123d cc d1))) ->
  exists e, snd (calculate_runs d fine coarse fc cc) = Err e.
Proof.
  intros N F. destruct (calculate_runs d fine coarse fc cc) as [d' [[rf rc]|e]] eqn:E; [|exists e; reflexivity]. exfalso.
  apply (C148_results _ _ _ _ _ _ _ _ N) in E. destruct E as [(d1 & b & Hf & _ & W & _) H2]. destruct F as [F|(cf & -> & F)].
  - exact (F _ Hf (wrote_in _ _ _ W)).
  - destruct H2 as (d2 & b2 & Hf2 & _ & W2 & _). exact (F _ Hf2 (wrote_in _ _ _ W2)). Qed.

(** Runs that write readable balance files make a sample, in every directory. *)
Theorem C148_success d fine coarse fc cc :
  (forall d1, fget d1 fields_file = Some fine -> exists b r, wrote (flow123d fc d1) balance_file b /\ extract b = Ok r) ->
  (forall cf d1, coarse = Some cf -> fget d1 fields_file = Some cf -> exists b r, wrote (flow123d cc d1) balance_file b /\ extract b = Ok r) ->
  exists r, snd (calculate_runs d fine coarse fc cc) = Ok r.
Proof.
  intros F G. unfold FlowRunModel.calculate_runs.
  destruct (F (fset d fields_file fine) (fget_fset_eq _ _ _)) as (b & r & W & Hb). apply run_wrote in W.
  destruct (run_sample d fine fc) as [d1 x]. cbn [snd] in W. rewrite W, Hb. destruct coarse as [cf|]; [|exists (r, zeros r); reflexivity].
  destruct (G cf (fset (rename_fine d1) fields_file cf) eq_refl (fget_fset_eq _ _ _)) as (b2 & r2 & W2 & Hb2). apply run_wrote in W2.
  destruct (run_sample (rename_fine d1) cf cc) as [d3 y]. cbn [snd] in W2. rewrite W2, Hb2. exists (r, r2). reflexivity. Qed.

(** The files of the fine run are kept under names with the prefix fine_ until the coarse run. *)
Theorem C148_fine_files d fine common d1 r n c : NoDup (map fst d) ->
  run_sample d fine common = (d1, Ok r) -> ~ is_fine n -> wrote (flow123d common (fset d fields_file fine)) n c ->
  fget (rename_fine d1) (str "fine_" ++ n) = Some c.
Proof.
  intros ND H N W. unfold FlowRunModel.run_sample in H. injection H as <- _.
  apply rename_moved; [apply write_all_nodup, fset_nodup, ND|exact N|apply write_all_wrote, W]. Qed.

(** C149: in a directory that was used before. The coarse result is still that of the coarse run; the fine result is that of the fine
    run, or it is read from the balance file found in the directory. Missing: the latter is not excluded. *)
Theorem C149_used_directory_partial d fine coarse fc cc d' rf rc : calculate_runs d fine coarse fc cc = (d', Ok (rf, rc)) ->
  (exists d1 b, fget d1 fields_file = Some fine /\ extract b = Ok rf
     /\ (wrote (flow123d fc d1) balance_file b \/ (~ In balance_file (map fst (flow123d fc d1)) /\ fget d balance_file = Some b)))
  /\ match coarse with
     | None => rc = zeros rf
     | Some cf => exists d2 b, fget d2 fields_file = Some cf /\ wrote (flow123d cc d2) balance_file b /\ extract b = Ok rc
     end.
Proof.
  intros H. apply runs_ok in H. destruct H as [(b & Hb & W) H2]. split.
  - exists (fset d fields_file fine), b. split; [apply fget_fset_eq|]. split; assumption.
  - destruct coarse as [cf|]; [|exact H2]. destruct H2 as (d2 & b2 & A & _ & B & E). exists d2, b2. auto. Qed.
End S.

(** flow123d that writes the balance [fields + common] for even fields, and fails for odd fields after a line of log. *)
Definition demo_flow (common : nat) (d : dir nat) : dir nat :=
  match fget d fields_file with
  | Some f => if Nat.even f then [(str "flow123.0.log", 0); (balance_file, f + common)] else [(str "flow123.0.log", 1)]
  | None => []
  end.
Definition demo_extract (b : nat) : res nat := if Nat.ltb b 1000 then Ok b else Err PyException.
Example C148_ex : calculate_runs demo_flow demo_extract (fun _ => 0) [] 10 (Some 20) 100 200
  = ([(str "fine_fields_sample.msh", 10); (str "fine_flow123.0.log", 0); (str "fine_water_balance.yaml", 110);
      (fields_file, 20); (str "flow123.0.log", 0); (balance_file, 220)], Ok (110, 220)).
Proof. vm_compute. reflexivity. Qed.
Example C148_fails_fine_ex : snd (calculate_runs demo_flow demo_extract (fun _ => 0) [] 11 (Some 20) 100 200) = Err PyException.
Proof. vm_compute. reflexivity. Qed.
Example C148_fails_coarse_ex : snd (calculate_runs demo_flow demo_extract (fun _ => 0) [] 10 (Some 21) 100 200) = Err PyException.
Proof. vm_compute. reflexivity. Qed.
Example C148_one_level_ex : snd (calculate_runs demo_flow demo_extract (fun _ => 0) [] 10 None 100 200) = Ok (110, 0).
Proof. vm_compute. reflexivity. Qed.

(** C149, refuted: a directory left by a first calculation; flow123d fails on the fine fields of the second one, and the coarse
    balance of the first calculation is returned as the fine result of the second one. *)
Theorem C149_used_directory_refuted : exists (flow : nat -> dir nat -> dir nat) (extract : nat -> res nat) (d : dir nat) fine coarse d' rf rc,
  snd (calculate_runs flow extract (fun _ => 0) [] 10 (Some 20) 100 200) = Ok (110, rf)
  /\ d = fst (calculate_runs flow extract (fun _ => 0) [] 10 (Some 20) 100 200)
  /\ (forall d1, fget d1 fields_file = Some fine -> ~ In balance_file (map fst (flow 100 d1)))
  /\ calculate_runs flow extract (fun _ => 0) d fine coarse 100 200 = (d', Ok (rf, rc)).
Proof.
  set (d0 := fst (calculate_runs demo_flow demo_extract (fun _ => 0) [] 10 (Some 20) 100 200)).
  exists demo_flow, demo_extract, d0, 11, (Some 20), (fst (calculate_runs demo_flow demo_extract (fun _ => 0) d0 11 (Some 20) 100 200)), 220, 220.
  split; [vm_compute; reflexivity|]. split; [reflexivity|]. split.
  - intros d1 H. unfold demo_flow. rewrite H. cbn [Nat.even map fst]. intros [H1|[]]. discriminate.
  - vm_compute. reflexivity. Qed.

(** * Levels *)
Section L.
Context {S M Y : Type}.
Variable fmt : S -> pystr.
Variable zero : S -> bool.
Variable gmsh : S -> option M.
Variable points : M -> res nat.
Variable subst : S -> list pystr * Y.
Notation level_instance := (level_instance fmt zero gmsh points subst).
Notation level_instances := (level_instances fmt zero gmsh points subst).
Notation calculate_inputs := (calculate_inputs points).
Notation dir_name := (dir_name fmt).

Lemma dir_name_inj s t : dir_name s = dir_name t -> fmt s = fmt t.
Proof. unfold FlowRunModel.dir_name. intros H. apply app_inv_head in H. apply app_inv_tail in H. exact H. Qed.

(** The directory of a step holds the files made for the step. *)
Definition made (d : dir (@cdir M Y)) (s : S) : Prop := fget d (dir_name s) = Some (mkC (gmsh s) (Some (snd (subst s)))).
Definition step_ok (s : S) : Prop := zero s = false /\ exists m k, gmsh s = Some m /\ points m = Ok k.

Lemma instance_made st s coarse : made (dirs (fst (level_instance true st s coarse))) s.
Proof. unfold made, FlowRunModel.level_instance. cbn [fst dirs]. apply fget_fset_eq. Qed.
Lemma instance_other clean st s coarse n : n <> dir_name s -> fget (dirs (fst (level_instance clean st s coarse))) n = fget (dirs st) n.
Proof.
  intros N. unfold FlowRunModel.level_instance. cbn [fst].
  assert (F : fget (force_mkdir (dirs st) (dir_name s) clean) n = fget (dirs st) n).
  { unfold force_mkdir. set (d1 := if clean then fdel (dirs st) (dir_name s) else dirs st).
    assert (E : fget d1 n = fget (dirs st) n) by (subst d1; destruct clean; [apply fget_fdel_neq, N|reflexivity]).
    destruct (fget d1 (dir_name s)); [exact E|]. rewrite fget_fset_neq by exact N. exact E. }
  destruct clean; cbn [dirs]; [rewrite fget_fset_neq by exact N|]; exact F. Qed.
Lemma instance_keeps st s coarse t : (fmt t = fmt s -> t = s) -> made (dirs st) t -> made (dirs (fst (level_instance true st s coarse))) t.
Proof.
  intros I H. destruct (pystr_eq_dec (dir_name t) (dir_name s)) as [E|E].
  - apply dir_name_inj in E. rewrite (I E). apply instance_made.
  - unfold made in *. rewrite instance_other by exact E. exact H. Qed.
Lemma instance_result st s coarse m k : gmsh s = Some m -> points m = Ok k ->
  snd (level_instance true st s coarse) = Ok (mkCfg s coarse (dir_name s)
    (option_map dir_name (match coarse with Some c => if zero c then None else Some c | None => None end)) (Some (fst (subst s))) k).
Proof.
  intros G P. unfold FlowRunModel.level_instance. cbn [snd dirs used]. rewrite fget_fset_eq. cbn [c_mesh]. rewrite G. unfold bind. rewrite P. reflexivity. Qed.

Lemma instances_made steps : forall st coarse, (forall s t, In s steps -> fmt t = fmt s -> t = s) -> (forall s, In s steps -> step_ok s) ->
  exists cs, snd (level_instances true st steps coarse) = Ok cs
    /\ (forall t, In t steps -> made (dirs (fst (level_instances true st steps coarse))) t)
    /\ (forall t, made (dirs st) t -> made (dirs (fst (level_instances true st steps coarse))) t)
    /\ (forall l s, nth_error steps l = Some s -> exists c, nth_error cs l = Some c /\ fine_dir c = dir_name s /\ cfg_used c = Some (fst (subst s))
          /\ coarse_dir c = option_map dir_name (match (match l with O => coarse | Datatypes.S l' => nth_error steps l' end) with
                                                  Some c => if zero c then None else Some c | None => None end)).
Proof.
  induction steps as [|s steps IH]; intros st coarse I K.
  - exists []. split; [reflexivity|]. split; [intros t []|]. split; [auto|]. intros [|l] s H; discriminate.
  - destruct (K s (or_introl eq_refl)) as (Z & m & k & G & P).
    pose proof (instance_result st s coarse m k G P) as R. pose proof (instance_made st s coarse) as Hm.
    assert (Hk : forall t, made (dirs st) t -> made (dirs (fst (level_instance true st s coarse))) t)
      by (intros t; apply instance_keeps; intros E; exact (I s t (or_introl eq_refl) E)).
    cbn [FlowRunModel.level_instances]. destruct (level_instance true st s coarse) as [st1 x]. cbn [fst snd] in R, Hm, Hk. subst x.
    destruct (IH st1 (Some s)) as (cs & Hcs & A & B & N); [intros a t Ha; apply I; right; exact Ha|intros a Ha; apply K; right; exact Ha|].
    destruct (level_instances true st1 steps (Some s)) as [st2 y]. cbn [fst snd] in *. subst y. eexists. split; [reflexivity|].
    split; [intros t [<-|Ht]; auto|]. split; [auto|]. intros [|l] t H.
    + cbn [nth_error] in H. injection H as <-. eexists. split; [reflexivity|]. cbn [fine_dir cfg_used coarse_dir]. auto.
    + cbn [nth_error] in H. destruct (N l t H) as (c & Hc & E1 & E2 & E3). exists c. cbn [nth_error]. split; [exact Hc|]. split; [exact E1|].
      split; [exact E2|]. rewrite E3. destruct l; reflexivity. Qed.

(** C150. With clean set, when gmsh makes a usable mesh for each (nonzero) step and different steps are printed differently: all levels
    are created from any work directory, and after that the samples of each level use the names, mesh and input made for its own step
    and the mesh and input made for the step of the level below. *)
Theorem C150_levels st steps : (forall s t, In s steps -> fmt t = fmt s -> t = s) -> (forall s, In s steps -> step_ok s) ->
  exists st' cs, level_instances true st steps None = (st', Ok cs) /\ length cs = length steps
    /\ forall l s, nth_error steps l = Some s -> exists c m, nth_error cs l = Some c /\ gmsh s = Some m
      /\ match l with
         | O => calculate_inputs (dirs st') c = Ok (fst (subst s), (m, Some (snd (subst s))), None)
         | Datatypes.S l' => exists s' m', nth_error steps l' = Some s' /\ gmsh s' = Some m'
             /\ calculate_inputs (dirs st') c = Ok (fst (subst s), (m, Some (snd (subst s))), Some (m', Some (snd (subst s'))))
         end.
Proof.
  intros I K. destruct (instances_made steps st None I K) as (cs & Hcs & A & _ & N).
  assert (L : length cs = length steps).
  { clear - Hcs. revert st cs Hcs. generalize (@None S) as coarse. induction steps as [|s steps IH]; intros coarse st cs.
    - cbn. intros H. injection H as <-. reflexivity.
    - cbn [FlowRunModel.level_instances]. destruct (level_instance true st s coarse) as [st1 [c|e]]; [|discriminate].
      specialize (IH (Some s) st1). destruct (level_instances true st1 steps (Some s)) as [st2 [cs2|e]]; [|discriminate].
      cbn [snd] in *. intros H. injection H as <-. cbn [length]. f_equal. apply IH. reflexivity. }
  destruct (level_instances true st steps None) as [st' y] eqn:E. cbn [fst snd] in *. subst y.
  exists st', cs. split; [reflexivity|]. split; [exact L|]. intros l s H.
  destruct (N l s H) as (c & Hc & E1 & E2 & E3). pose proof (nth_error_In _ _ H) as Hin. destruct (K s Hin) as (_ & m & k & G & P).
  assert (Rd : forall t mt kt, In t steps -> gmsh t = Some mt -> points mt = Ok kt -> read_dir points (dirs st') (dir_name t) = Ok (mt, Some (snd (subst t)))).
  { intros t mt kt Ht Gt Pt. unfold read_dir. rewrite (A t Ht). cbn [c_mesh c_yaml]. rewrite Gt. unfold bind. rewrite Pt. reflexivity. }
  exists c, m. split; [exact Hc|]. split; [exact G|]. unfold FlowRunModel.calculate_inputs. rewrite E1, E2, E3, (Rd s m k Hin G P).
  destruct l as [|l']; [reflexivity|].
  assert (Hs' : exists s', nth_error steps l' = Some s').
  { destruct (nth_error steps l') eqn:X; [eauto|]. apply nth_error_None in X. assert (nth_error steps (Datatypes.S l') <> None) by congruence.
    apply nth_error_Some in H0. lia. }
  destruct Hs' as (s' & Hs'). pose proof (nth_error_In _ _ Hs') as Hin'. destruct (K s' Hin') as (Z' & m' & k' & G' & P').
  exists s', m'. split; [exact Hs'|]. split; [exact G'|]. rewrite Hs', Z'. cbn [option_map bind]. rewrite (Rd s' m' k' Hin' G' P'). reflexivity. Qed.

(** A step for which gmsh makes no mesh stops the creation of the levels: no sample is ever made with it. *)
Theorem C150_no_mesh steps : forall st coarse s, In s steps -> gmsh s = None -> exists e, snd (level_instances true st steps coarse) = Err e.
Proof.
  induction steps as [|t steps IH]; intros st coarse s Hin G; [destruct Hin|]. cbn [FlowRunModel.level_instances].
  destruct (level_instance true st t coarse) as [st1 [c|e]] eqn:E; [|exists e; reflexivity].
  destruct Hin as [->|Hin].
  - exfalso. unfold FlowRunModel.level_instance in E. cbn [dirs] in E. rewrite fget_fset_eq in E. cbn [c_mesh] in E. rewrite G in E. discriminate.
  - destruct (IH st1 (Some t) s Hin G) as [e He]. destruct (level_instances true st1 steps (Some t)) as [st2 y]. cbn [snd] in He. subst y.
    exists e. reflexivity. Qed.

(** C151: without clean. Levels of existing directories are created and no directory changes. Missing: the samples. *)
Theorem C151_existing_partial steps : forall st coarse,
  (forall s, In s steps -> exists c m k, fget (dirs st) (dir_name s) = Some c /\ c_mesh c = Some m /\ points m = Ok k) ->
  exists cs, level_instances false st steps coarse = (st, Ok cs) /\ map fine_dir cs = map dir_name steps.
Proof.
  induction steps as [|s steps IH]; intros st coarse H; [exists []; split; reflexivity|]. cbn [FlowRunModel.level_instances].
  destruct (H s (or_introl eq_refl)) as (c & m & k & G & Gm & P).
  assert (E : exists cfg, level_instance false st s coarse = (st, Ok cfg) /\ fine_dir cfg = dir_name s).
  { unfold FlowRunModel.level_instance, force_mkdir. cbn [dirs used]. rewrite G. cbn [dirs used]. rewrite G, Gm. unfold bind. rewrite P.
    eexists. split; [destruct st; reflexivity|reflexivity]. }
  destruct E as (cfg & E & F). rewrite E. destruct (IH st (Some s)) as (cs & Ecs & Fcs); [intros t Ht; apply H; right; exact Ht|].
  rewrite Ecs. exists (cfg :: cs). split; [reflexivity|]. cbn [map]. rewrite F, Fcs. reflexivity. Qed.

(** No sample can be made by a FlowSim object without clean: in any work directory, each sample raises a TypeError. *)
Theorem C151_no_samples steps : forall st coarse st' cs, used st = None -> level_instances false st steps coarse = (st', Ok cs) ->
  forall c (d : dir (@cdir M Y)), In c cs -> calculate_inputs d c = Err TypeError.
Proof.
  induction steps as [|s steps IH]; intros st coarse st' cs U H c d Hc; cbn [FlowRunModel.level_instances] in H.
  - injection H as _ <-. destruct Hc.
  - destruct (level_instance false st s coarse) as [st1 [cfg|e]] eqn:E; [|discriminate].
    destruct (level_instances false st1 steps (Some s)) as [st2 [cs2|e]] eqn:E2; [|discriminate]. injection H as _ <-.
    unfold FlowRunModel.level_instance in E. injection E as <- E. cbn [dirs used] in E.
    destruct (fget _ (dir_name s)) as [cd|]; [|discriminate]. destruct (c_mesh cd) as [m|]; [|discriminate]. unfold bind in E.
    destruct (points m) as [k|]; [|discriminate]. injection E as <-. destruct Hc as [<-|Hc].
    + unfold FlowRunModel.calculate_inputs. cbn [cfg_used]. rewrite U. reflexivity.
    + refine (IH _ _ _ _ _ E2 c d Hc). exact U. Qed.
End L.

(** Steps 1, 2, 4 printed in unary; gmsh makes a mesh with 10 * step points. *)
Definition demo_fmt (s : nat) : pystr := repeat "1"%char s.
Definition demo_gmsh (s : nat) : option nat := if Nat.ltb s 100 then Some (10 * s) else None.
Definition demo_subst (s : nat) : list pystr * nat := ([str "conductivity"], s).
Definition demo_levels clean st := level_instances demo_fmt (Nat.eqb 0) demo_gmsh (fun m => Ok m) demo_subst clean st [4; 2; 1] None.
Definition demo_cfg (r : @flowsim nat nat * res (list (@config nat))) (l : nat) :=
  match snd r with Ok cs => option_map (calculate_inputs (fun m => Ok m) (dirs (fst r))) (nth_error cs l) | Err e => None end.
Lemma demo_fmt_inj s t : demo_fmt t = demo_fmt s -> t = s.
Proof. intros H. apply (f_equal (@length _)) in H. unfold demo_fmt in H. rewrite !repeat_length in H. exact H. Qed.
Example C150_ex : (forall s t, In s [4; 2; 1] -> demo_fmt t = demo_fmt s -> t = s)
  /\ (forall s, In s [4; 2; 1] -> step_ok (Nat.eqb 0) demo_gmsh (fun m => Ok m) s)
  /\ demo_cfg (demo_levels true (mkFS None [])) 0 = Some (Ok ([str "conductivity"], (40, Some 4), None))
  /\ demo_cfg (demo_levels true (mkFS None [])) 2 = Some (Ok ([str "conductivity"], (10, Some 1), Some (20, Some 2))).
Proof.
  split; [intros s t _; apply demo_fmt_inj|]. split; [|split; vm_compute; reflexivity].
  intros s [<-|[<-|[<-|[]]]]; (split; [reflexivity|eexists; eexists; split; reflexivity]). Qed.
Example C150_no_mesh_ex : snd (level_instances demo_fmt (Nat.eqb 0) demo_gmsh (fun m => Ok m) demo_subst true (mkFS None []) [4; 100] None) = Err PyException.
Proof. vm_compute. reflexivity. Qed.

(** C151, refuted: a work directory made by a campaign; a new FlowSim object without clean finds all the files, creates the levels, and
    no sample of any level gets its inputs. *)
Theorem C151_existing_refuted : exists d cs,
  d = dirs (fst (demo_levels true (mkFS None [])))
  /\ demo_levels false (mkFS None d) = (mkFS None d, Ok cs) /\ length cs = 3
  /\ forall c, In c cs -> calculate_inputs (fun m => Ok m) d c = Err TypeError.
Proof.
  exists (dirs (fst (demo_levels true (mkFS None [])))).
  exists (match snd (demo_levels false (mkFS None (dirs (fst (demo_levels true (mkFS None [])))))) with Ok cs => cs | Err _ => [] end).
  split; [reflexivity|]. split; [vm_compute; reflexivity|]. split; [vm_compute; reflexivity|].
  assert (H : forall c, In c (match snd (demo_levels false (mkFS None (dirs (fst (demo_levels true (mkFS None [])))))) with Ok cs => cs | Err _ => [] end) ->
    cfg_used c = None).
  { apply Forall_forall. vm_compute. constructor; [reflexivity|]. constructor; [reflexivity|]. constructor; [reflexivity|]. constructor. }
  intros c Hc. unfold calculate_inputs. rewrite (H c Hc). reflexivity. Qed.

Print Assumptions C148_results.
Print Assumptions C148_failures.
Print Assumptions C148_success.
Print Assumptions C148_fine_files.
Print Assumptions C149_used_directory_partial.
Print Assumptions C149_used_directory_refuted.
Print Assumptions C150_levels.
Print Assumptions C150_no_mesh.
Print Assumptions C151_existing_partial.
Print Assumptions C151_no_samples.
Print Assumptions C151_existing_refuted.
