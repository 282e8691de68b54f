(** Property C179: the working directory of the process that computes samples itself. *)
From Verif Require Import Base BaseFacts TagModel TagSpec WorkModel WorkSpec WorkProofs WorkProps.
Local Open Scope nat_scope.

Section Cwd.
Context {C : Type}.
Lemma under_self (p : path) : under p p = true.
Proof. unfold under. induction p as [|a p IH]; [reflexivity|]. cbn. destruct (pystr_eq_dec a a); [exact IH|easy]. Qed.
Lemma removed (w : @world C) p id w' : remove_sample_dir w true (Some p) id = Ok w' -> (cwd w = Some (p ++ [id]) \/ cwd w = None) -> cwd w' = None.
Proof.
  cbn [remove_sample_dir]. destruct (change_to_sample_directory _ _ _) as [s|]; [|discriminate]. cbn [bind]. intros E H.
  assert (w' = rmtree (mkW s (cwd w)) (p ++ [id])) as -> by congruence. cbn [rmtree cwd]. destruct H as [-> | ->]; [|reflexivity]. now rewrite under_self.
Qed.
Lemma moved (w : @world C) p d id w' : move_dir w true (Some p) d id = Ok w' -> cwd w = Some (p ++ [id]) -> cwd w' = Some (p ++ [id]) \/ cwd w' = None.
Proof.
  unfold move_dir. destruct d as [d|]; [|intros E H; assert (w' = w) as -> by congruence; now left].
  destruct (change_to_sample_directory _ _ _) as [s|]; [|discriminate]. cbn [bind]. intros E H. destruct (copytree _ _ _) as [s'|]; [|discriminate]. cbn [bind] in E.
  match type of E with Ok (mkW _ (cwd ?x)) = _ => assert (Ec : cwd w' = cwd x) by (assert (w' = mkW s' (cwd x)) as -> by congruence; reflexivity) end.
  rewrite Ec. destruct (exists_ s (d ++ [id])); cbn [rmtree cwd]; rewrite H; [|now left]. destruct (under _ _); auto.
Qed.
Lemma one_sample (w : @world C) P out id ls w' P' b : output_dir P = Some out -> debug P = false -> schedule_sample w P id ls = Ok (w', P', b) ->
  P' = P /\ cwd w' = if need ls then None else cwd w.
Proof.
  intros Ho Hd. unfold schedule_sample. rewrite Ho. cbn [bind]. destruct (calculate_sample w (output_dir P) id ls) as [[w1 ok]|] eqn:Ec; [|discriminate]. cbn [bind].
  destruct (process_result w1 P id ls ok) as [w2|] eqn:Ep; [|discriminate]. cbn [bind]. intros E. assert (w' = w2 /\ P' = P) as [-> ->] by (split; congruence). clear E. split; [reflexivity|].
  unfold calculate_sample in Ec. unfold process_result in Ep. rewrite Ho in Ec, Ep. rewrite Hd in Ep. destruct (need ls) eqn:En.
  - assert (H1 : cwd w1 = Some (out ++ [id])).
    { unfold handle_sim_files in Ec. rewrite En in Ec. destruct (change_to_sample_directory _ _ _) as [s|]; [|discriminate]. cbn [bind] in Ec.
      destruct (match common ls with Some l => _ | None => Ok s end) as [s'|]; [|discriminate]. cbn [bind] in Ec. cbn [files cwd] in Ec.
      destruct (run ls id _) as [wr okr]. destruct (do_writes _ _ _) as [s2 dn]. assert (w1 = mkW s2 (Some (out ++ [id]))) as -> by congruence. reflexivity. }
    destruct ok.
    + unfold move_successful_rm in Ep. destruct (keep_dir id) as [k|]; [|discriminate]. cbn [bind] in Ep.
      destruct (if k then _ else _) as [w3|] eqn:Em; [|discriminate]. cbn [bind] in Ep. apply (removed _ _ _ _ Ep). destruct k; [exact (moved _ _ _ _ _ Em H1)|].
      assert (w3 = w1) as -> by congruence. now left.
    + unfold move_failed_rm in Ep. destruct (move_dir _ _ _ _ _) as [w3|] eqn:Em; [|discriminate]. cbn [bind] in Ep. apply (removed _ _ _ _ Ep). exact (moved _ _ _ _ _ Em H1).
  - cbn [bind] in Ec. destruct (run ls id _) as [wr okr]. assert (w1 = w) as -> by congruence. destruct ok; [|congruence].
    unfold move_successful_rm in Ep. destruct (keep_dir id) as [k|]; [|discriminate]. cbn [bind] in Ep.
    assert (Em : (if k then move_dir w false (Some out) (successful_dir P) id else Ok w) = Ok w) by (destruct k; reflexivity).
    rewrite Em in Ep. cbn [bind remove_sample_dir] in Ep. congruence.
Qed.

(** Full statement: computing samples leaves the working directory of the process as it was. It holds for samples without
    workspace; one sample with a workspace removes the directory the process is in. *)
Theorem C179_working_directory_partial : forall l (w : @world C) P out w' P' bs, output_dir P = Some out -> debug P = false ->
  schedule_all w P l = Ok (w', P', bs) -> cwd w' = if existsb (fun x => need (snd x)) l then None else cwd w.
Proof.
  induction l as [|[id ls] l IH]; intros w P out w' P' bs Ho Hd E.
  - cbn in E. assert (w' = w) as -> by congruence. reflexivity.
  - cbn [schedule_all] in E. destruct (schedule_sample w P id ls) as [[[w1 P1] b]|] eqn:E1; [|discriminate]. cbn [bind] in E.
    destruct (one_sample _ _ _ _ _ _ _ _ Ho Hd E1) as [-> H1]. destruct (schedule_all w1 P l) as [[[w2 P2] bs2]|] eqn:E2; [|discriminate]. cbn [bind] in E.
    assert (w' = w2) as -> by congruence. rewrite (IH _ _ _ _ _ _ Ho Hd E2), H1. cbn [existsb snd]. destruct (need ls); cbn [orb]; [destruct (existsb _ l); reflexivity|reflexivity].
Qed.
(** After that no pool can be created with a relative directory. *)
Theorem C179_next_pool : forall l (w : @world C) P out w' P' bs dbg p, output_dir P = Some out -> debug P = false ->
  schedule_all w P l = Ok (w', P', bs) -> (exists x, In x l /\ need (snd x) = true) -> new_pool w' (Some (Rel p)) dbg = Err PyException.
Proof.
  intros l w P out w' P' bs dbg p Ho Hd E (x & Hx & Hn). pose proof (C179_working_directory_partial _ _ _ _ _ _ _ Ho Hd E) as H.
  assert (Ee : existsb (fun x => need (snd x)) l = true) by (apply existsb_exists; eauto). rewrite Ee in H. unfold new_pool. cbn [resolve]. now rewrite H.
Qed.
End Cwd.

Theorem C179_refuted : exists (w : @world nat) P l w' P' bs, output_dir P <> None /\ debug P = false /\ schedule_all w P l = Ok (w', P', bs) /\ cwd w <> None /\ cwd w' <> cwd w.
Proof.
  destruct (pick (new_pool w_world (Some (Rel [])) false) (fun '(W0, P) => output_dir P = Some [w_path; str "output"] /\ debug P = false /\ cwd W0 = Some [w_path] /\
    match schedule_all W0 P [(w_id1, w_rel w_add)] with Ok (W1, P1, bs) => True | Err _ => False end)) as [[W0 P] [E (H1 & H2 & H3 & H4)]]; [vm_compute; auto|].
  destruct (schedule_all W0 P [(w_id1, w_rel w_add)]) as [[[W1 P1] bs]|] eqn:E1; [|destruct H4]. exists W0, P, [(w_id1, w_rel w_add)], W1, P1, bs.
  split; [rewrite H1; discriminate|]. split; [exact H2|]. split; [exact E1|]. split; [rewrite H3; discriminate|].
  rewrite (C179_working_directory_partial _ _ _ _ _ _ _ H1 H2 E1), H3. discriminate.
Qed.
(** The same run, and the pool that cannot be created. *)
Example C179_example : exists W0 P W1 P1 bs, new_pool w_world (Some (Rel [])) false = Ok (W0, P) /\ schedule_all W0 P [(w_id1, w_rel w_add)] = Ok (W1, P1, bs)
  /\ cwd W1 = None /\ new_pool W1 (Some (Rel [])) true = Err PyException.
Proof.
  destruct (pick (new_pool w_world (Some (Rel [])) false) (fun '(W0, P) => output_dir P = Some [w_path; str "output"] /\ debug P = false /\
    match schedule_all W0 P [(w_id1, w_rel w_add)] with Ok (W1, P1, bs) => True | Err _ => False end)) as [[W0 P] [E (H1 & H2 & H4)]]; [vm_compute; auto|].
  destruct (schedule_all W0 P [(w_id1, w_rel w_add)]) as [[[W1 P1] bs]|] eqn:E1; [|destruct H4]. exists W0, P, W1, P1, bs. split; [exact E|]. split; [exact E1|]. split.
  - exact (C179_working_directory_partial _ _ _ _ _ _ _ H1 H2 E1).
  - apply (C179_next_pool _ _ _ _ _ _ _ true [] H1 H2 E1). exists (w_id1, w_rel w_add). split; [now left|reflexivity].
Qed.

Print Assumptions C179_working_directory_partial.
Print Assumptions C179_next_pool.
Print Assumptions C179_refuted.
