(** Properties of the directories of samples: C133-C139. *)
From Verif Require Import Base BaseFacts TagModel TagSpec WorkModel WorkSpec WorkProofs WorkConcModel WorkConcProofs.
Local Open Scope nat_scope.

Section Props.
Context {C : Type}.
Notation output p := (p ++ [str "output"]).

(** ** C133: the directories after any samples, in a pool without debug. *)
Theorem C133_sample_directories : forall (w : @world C) wd p W0 P (l : list sample),
  rooted (files w) -> resolve (cwd w) wd = Some p -> new_pool w (Some wd) false = Ok (W0, P) ->
  Forall (fun x => good_id (sid x) /\ good_common (files W0) (output p) (cfiles x)) l ->
  exists W1, schedule_all W0 P (map (fun x => (sid x, level x)) l) = Ok (W1, P, map (succeeds (files W0)) l)
             /\ holds (files W0) (output p) l (files W1).
Proof.
  intros w wd p [s d] P l Hr Hp Hn Hl. destruct (new_pool_fresh _ _ _ _ _ Hr Hp Hn) as [-> [E _]]. cbn [files] in *.
  destruct (schedule_many s (output p) l) with (h := @nil (@sample C)) (s := s) (dw := d) as [s' [dw' [E1 E2]]].
  - rewrite E. apply fresh_above.
  - exact Hl.
  - rewrite E. apply fresh_holds.
  - exists (mkW s' dw'). split; [exact E1|exact E2].
Qed.

(** ** C134: what a new pool does to existing files. *)
Theorem C134_new_pool_erases : forall (w : @world C) wd p W0 P,
  rooted (files w) -> resolve (cwd w) wd = Some p -> new_pool w (Some wd) false = Ok (W0, P) ->
  (forall r, files W0 (output p ++ r) =
             match r with
             | [] => Some Dir
             | [x] => if same x (str "failed") || same x (str "several_successful") then Some Dir else None
             | _ => None
             end)
  /\ forall q, (forall r, q <> output p ++ r) ->
     files W0 q = files w q \/ (files w q = None /\ files W0 q = Some Dir /\ exists r, output p = q ++ r).
Proof.
  intros w wd p W0 P Hr Hp Hn. destruct (new_pool_fresh _ _ _ _ _ Hr Hp Hn) as [_ [E Hf]]. rewrite E. split.
  - intros [|x r].
    + rewrite app_nil_r. apply (h_out _ _ _ _ (fresh_holds _ _)).
    + rewrite fresh_in. unfold under, same. cbn [strip].
      change s_successful with (str "several_successful"). change s_failed with (str "failed").
      destruct (pystr_eq_dec x (str "several_successful")) as [->|N1]; destruct r as [|y r]; cbn [strip].
      * now rewrite orb_true_r.
      * now destruct (pystr_eq_dec (str "several_successful") (str "failed")).
      * now destruct (pystr_eq_dec x (str "failed")).
      * now destruct (pystr_eq_dec x (str "failed")).
  - intros q Hq. change (str "output") with s_output in *. rewrite (fresh_outside _ _ _ Hq).
    destruct (under q (p ++ [s_output])) eqn:Eu; [|now left].
    apply under_true in Eu. destruct Eu as [r Eu].
    destruct (files w q) as [[|c]|] eqn:Ew; [now left| |right; eauto].
    now apply (Hf q r c) in Ew.
Qed.

Theorem C134_debug_keeps : forall (w : @world C) wd p W0 P,
  resolve (cwd w) wd = Some p -> new_pool w (Some wd) true = Ok (W0, P) ->
  forall q, files w q <> None -> files W0 q = files w q.
Proof. intros w wd p W0 P Hp Hn. apply (new_pool_debug _ _ _ _ _ Hp Hn). Qed.

Theorem C134_new_pool_possible : forall (w : @world C) wd p,
  rooted (files w) -> resolve (cwd w) wd = Some p ->
  (forall q r c, output p = q ++ r -> files w q <> Some (File c)) ->
  exists W0 P, new_pool w (Some wd) false = Ok (W0, P).
Proof.
  intros w wd p Hr Hp Hf. apply (new_pool_possible w wd p Hp); [|exact Hr].
  intros q Hq. apply under_true in Hq. destruct Hq as [r Hq].
  destruct (files w q) as [[|c]|] eqn:E; try exact I. exact (Hf q r c Hq E).
Qed.

(** ** C135: a directory among the failed ones.
    In full: it is there if and only if the last run of the sample failed. *)
Theorem C135_failed_directory_partial : forall (w : @world C) wd p W0 P (l : list sample),
  rooted (files w) -> resolve (cwd w) wd = Some p -> new_pool w (Some wd) false = Ok (W0, P) ->
  Forall (fun x => good_id (sid x) /\ good_common (files W0) (output p) (cfiles x)) l ->
  exists W1 bs, schedule_all W0 P (map (fun x => (sid x, level x)) l) = Ok (W1, P, bs)
    /\ forall id, files W1 (output p ++ [str "failed"; id]) <> None
                  <-> exists x, In x l /\ sid x = id /\ succeeds (files W0) x = false.
Proof.
  intros w wd p W0 P l Hr Hp Hn Hl. destruct (C133_sample_directories _ _ _ _ _ _ Hr Hp Hn Hl) as [W1 [E H]].
  exists W1, (map (succeeds (files W0)) l). split; [exact E|]. intros id. rewrite (h_failed_dir _ _ _ _ H).
  unfold kept. match goal with |- context[last_such ?f l] => destruct (last_such f l) as [x|] eqn:El end.
  - split; [intros _|discriminate]. apply last_such_In in El. destruct El as [Hi Hx].
    apply andb_true_iff in Hx. destruct Hx as [Hs Hx]. exists x. ands; auto.
    + apply same_true in Hs. exact Hs.
    + unfold to_failed in Hx. now apply negb_true_iff in Hx.
  - split; [intros N; now destruct N|]. intros [x [Hi [<- Hx]]] _.
    assert (T : same (sid x) (sid x) && to_failed (files W0) x = false) by exact (last_such_None _ _ El x Hi).
    unfold to_failed in T. rewrite same_refl, Hx in T. discriminate.
Qed.

(** ** C136: common files named relative to the working directory.
    In full: with relative names each sample gets the same files as with the absolute names. True of the first sample only. *)
Theorem C136_relative_names_partial : forall (w : @world C) P id d l r, cwd w = Some d ->
  schedule_sample w P id (mkL true (Some (map Rel l)) r)
  = schedule_sample w P id (mkL true (Some (map (fun q => Abs (d ++ q)) l)) r).
Proof.
  intros [s dw] P id d l r Hd. cbn [cwd] in Hd. subst dw.
  assert (E : forall (s' : @fs C) dir, copy_sim_files s' (Some d) (map Rel l) dir = copy_sim_files s' (Some d) (map (fun q => Abs (d ++ q)) l) dir).
  { induction l as [|q l IH]; intros s' dir; [reflexivity|]. cbn [map copy_sim_files resolve].
    destruct (s' (d ++ q)) as [[|c]|]; try reflexivity. destruct (write_file _ _ _ _); [|reflexivity]. apply IH. }
  assert (E' : forall work, calculate_sample (mkW s (Some d)) work id (mkL true (Some (map Rel l)) r)
    = calculate_sample (mkW s (Some d)) work id (mkL true (Some (map (fun q => Abs (d ++ q)) l)) r)).
  { intros [work|]; [|reflexivity]. unfold calculate_sample, handle_sim_files. cbn [need common files cwd run].
    destruct (change_to_sample_directory s work id) as [s1|]; [|reflexivity]. cbn [bind]. now rewrite E. }
  unfold schedule_sample. cbn [need cwd]. destruct (output_dir P) as [o|]; cbn [bind]; rewrite E';
    destruct (calculate_sample _ _ _ _) as [[w1 ok]|]; reflexivity.
Qed.

(** ** C137: samples computed by several processes, in any order of events. *)
Theorem C137_processes : forall (w : @world C) wd p W0 P l s',
  rooted (files w) -> resolve (cwd w) wd = Some p -> new_pool w (Some wd) false = Ok (W0, P) ->
  Forall (fun e => match e with
                   | Start _ id ls => exists x, (good_id (sid x) /\ good_common (files W0) (output p) (cfiles x))
                                                /\ id = sid x /\ ls = level x
                   | _ => True
                   end) l ->
  NoDup (flat_map (fun e => match e with Start _ id _ => [id] | _ => [] end) l) ->
  csteps false P l (cstart W0) = Some s' ->
  exists h,
    delivered s' = map (fun x => (sid x, level x, succeeds (files W0) x)) h
    /\ (forall k id ls rest ok, work s' k = Writing id ls rest ok ->
        exists x don, id = sid x /\ prog x id (common_file (files W0) (cfiles x)) = (don ++ rest, ok)
          /\ forall n, cfiles_ s' (output p ++ [id; n]) = after_writes (common_file (files W0) (cfiles x)) don n)
    /\ ((forall k, work s' k = Idle) -> pending s' = [] -> holds (files W0) (output p) h (cfiles_ s')).
Proof.
  intros w wd p W0 P l s' Hr Hp Hn Hl Hd E. destruct (new_pool_fresh _ _ _ _ _ Hr Hp Hn) as [-> [Ef _]].
  assert (Ha : above (files W0) (output p)) by (rewrite Ef; apply fresh_above).
  assert (Hh : holds (files W0) (output p) [] (files W0)) by (rewrite Ef; apply fresh_holds).
  destruct (steps_inv (files W0) (output p) Ha l [] [] (cstart W0) s' (inv_start _ _ _ Hh) Hl Hd) as [st [h [H _]]].
  { intros id _ []. }
  { exact E. }
  cbn [app] in H. exists h. split; [apply H|]. split.
  - intros k id ls rest ok Hk.
    pose proof (fun n => inv_running _ _ _ _ _ k id ls rest ok n H Hk) as R.
    destruct (i_tree _ _ _ _ _ H) as [base [act [T1 [T2 [T3 [T4 _]]]]]]. specialize (T4 k). rewrite Hk in T4.
    destruct T4 as [x [don [Hx [-> [_ [_ [Hrun Hact]]]]]]]. exists x, don. split; [reflexivity|]. split; [exact Hrun|].
    intros n. rewrite T3. unfold layer. rewrite strip_app, Hact. reflexivity.
  - intros Hi Hpe. eapply inv_all_done; eauto.
Qed.

(** No sample is lost: an idle process can take a sample not yet started, and every result can be delivered. *)
Theorem C137_no_sample_lost : forall (w : @world C) wd p W0 P l s',
  rooted (files w) -> resolve (cwd w) wd = Some p -> new_pool w (Some wd) false = Ok (W0, P) ->
  Forall (fun e => match e with
                   | Start _ id ls => exists x, (good_id (sid x) /\ good_common (files W0) (output p) (cfiles x))
                                                /\ id = sid x /\ ls = level x
                   | _ => True
                   end) l ->
  NoDup (flat_map (fun e => match e with Start _ id _ => [id] | _ => [] end) l) ->
  csteps false P l (cstart W0) = Some s' ->
  (forall i, i < length (pending s') -> cstep false P (Deliver i) s' <> None)
  /\ (forall k x, work s' k = Idle -> good_id (sid x) -> good_common (files W0) (output p) (cfiles x) ->
      ~ In (sid x) (flat_map (fun e => match e with Start _ id _ => [id] | _ => [] end) l) ->
      cstep false P (Start k (sid x) (level x)) s' <> None).
Proof.
  intros w wd p W0 P l s' Hr Hp Hn Hl Hd E. destruct (new_pool_fresh _ _ _ _ _ Hr Hp Hn) as [-> [Ef _]].
  assert (Ha : above (files W0) (output p)) by (rewrite Ef; apply fresh_above).
  assert (Hh : holds (files W0) (output p) [] (files W0)) by (rewrite Ef; apply fresh_holds).
  split.
  - intros i Hi. destruct (steps_inv (files W0) (output p) Ha l [] [] (cstart W0) s' (inv_start _ _ _ Hh) Hl Hd) as [st [h [H _]]];
      [intros id _ []|exact E|]. eapply deliver_possible; eauto.
  - intros k x Hk Hid Hg Hnew.
    destruct (steps_inv (files W0) (output p) Ha l [] [] (cstart W0) s' (inv_start _ _ _ Hh) Hl Hd) as [st [h [H Hst]]];
      [intros id _ []|exact E|]. apply (start_possible _ _ Ha st h s' k x H); [split; assumption| |exact Hk].
    intros Hi. apply Hst in Hi. destruct Hi as [[]|Hi]. now apply Hnew.
Qed.

(** ** C138: the same with threads.
    In full: [C137_processes] with [csteps true]. Threads share the working directory; with one thread it holds. *)
Theorem C138_one_thread_partial : forall P l (s : @cstate C),
  Forall (fun e => match e with Start k _ _ | Call k | Write k | Return k => k = 0 | Deliver _ => True end) l ->
  csteps true P l s = csteps false P l s.
Proof.
  intros P l s H. revert s. induction H as [|e l He Hl IH]; intros s; [reflexivity|]. cbn [csteps].
  assert (E : cstep true P e s = cstep false P e s) by (destruct e; try subst k; reflexivity).
  rewrite E. destruct (cstep false P e s); [apply IH|reflexivity].
Qed.

(** ** C139: a pool with debug.
    In full: the program of a sample sees the common files and nothing else. It holds when the directory of the sample is new. *)
Theorem C139_new_directory_partial : forall (s : @fs C) dw out (x : sample),
  (forall q r, out = q ++ r -> s q = Some Dir) -> (forall r, s (out ++ sid x :: r) = None) ->
  good_common s out (cfiles x) -> succeeds s x = true ->
  exists W1, schedule_sample (mkW s dw) (mkP (Some out) (Some (out ++ [str "several_successful"])) true) (sid x) (level x)
             = Ok (W1, mkP (Some out) (Some (out ++ [str "several_successful"])) true, true)
    /\ (forall n, files W1 (out ++ [sid x; n]) = left_file s x n)
    /\ (forall q, (forall r, q <> out ++ sid x :: r) -> files W1 q = s q).
Proof.
  intros s dw out x Ha Hc Hg Hs. unfold schedule_sample. cbn [output_dir bind].
  rewrite calculate_clean; [|split; [|exact Hc]|exact Hg].
  2: { intros q Hq. apply under_true in Hq. destruct Hq as [r Hq]. now apply (Ha q r). }
  cbn [bind]. rewrite Hs. unfold process_result. cbn [debug bind]. eexists. split; [reflexivity|]. cbn [files]. split.
  - intros n. unfold over. replace (out ++ [sid x; n]) with ((out ++ [sid x]) ++ [n]) by now rewrite <- app_assoc.
    now rewrite strip_app.
  - intros q Hq. unfold over. rewrite (proj2 (strip_None _ _)); [reflexivity|].
    intros r e. apply (Hq r). now rewrite e, <- app_assoc.
Qed.
End Props.

(** ** Witnesses *)
Lemma pick {A} (r : res A) (Q : A -> Prop) : match r with Ok a => Q a | Err _ => False end -> exists a, r = Ok a /\ Q a.
Proof. destruct r as [a|]; [|contradiction]. intros H. now exists a. Qed.
Lemma pick_opt {A} (r : option A) (Q : A -> Prop) : match r with Some a => Q a | None => False end -> exists a, r = Some a /\ Q a.
Proof. destruct r as [a|]; [|contradiction]. intros H. now exists a. Qed.

Definition w_in : pystr := str "in".
Definition w_id1 : pystr := str "L00_S0000000".
Definition w_id2 : pystr := str "L00_S0000001".
Definition w_path := str "p".
Definition w_fs : @fs nat := fun q =>
  match q with
  | [] => Some Dir
  | [a] => if same a w_path then Some Dir else None
  | [a; b] => if same a w_path && same b w_in then Some (File 7) else None
  | _ => None
  end.
Definition w_world : @world nat := mkW w_fs (Some [w_path]).

(** A program that adds one to the number in its file, and one that fails. *)
Definition w_add : pystr -> (pystr -> option (@entry nat)) -> list (pystr * nat) * bool :=
  fun _ v => match v w_in with Some (File c) => ([(w_in, c + 1)], true) | _ => ([], false) end.
Definition w_fail : pystr -> (pystr -> option (@entry nat)) -> list (pystr * nat) * bool := fun _ _ => ([(str "err", 3)], false).
Definition w_add1 := mkS w_id1 [[w_path; w_in]] w_add.
Definition w_add2 := mkS w_id2 [[w_path; w_in]] w_add.
Definition w_fail1 := mkS w_id1 [[w_path; w_in]] w_fail.

Lemma w_rooted : rooted w_fs.
Proof.
  intros p x H. destruct p as [|a [|b [|c p]]]; cbn [w_fs app] in H |- *.
  - reflexivity.
  - destruct (same a w_path); [reflexivity|]. now destruct H.
  - now destruct H.
  - now destruct H.
Qed.

Lemma w_good1 : good_id w_id1.
Proof. exists 0%N, 0%N. split; [reflexivity|lia]. Qed.
Lemma w_good2 : good_id w_id2.
Proof. exists 0%N, 1%N. split; [reflexivity|lia]. Qed.

Lemma w_pool : exists W0 P, new_pool w_world (Some (Rel [])) false = Ok (W0, P) /\ files W0 [w_path; w_in] = Some (File 7).
Proof.
  destruct (pick (new_pool w_world (Some (Rel [])) false) (fun '(W0, P) => files W0 [w_path; w_in] = Some (File 7)))
    as [[W0 P] [E H]]; [vm_compute; reflexivity|]. eauto.
Qed.

Lemma w_common (W0 : @world nat) : files W0 [w_path; w_in] = Some (File 7) -> good_common (files W0) [w_path; str "output"] [[w_path; w_in]].
Proof.
  intros H q [<-|[]]. split; [eauto|]. intros r e. injection e as e. discriminate.
Qed.

Example C133_example : exists W0 P W1,
  new_pool w_world (Some (Rel [])) false = Ok (W0, P)
  /\ schedule_all W0 P (map (fun x => (sid x, level x)) [w_add1; w_fail1; w_add2]) = Ok (W1, P, [true; false; true])
  /\ files W1 [w_path; str "output"; str "several_successful"; w_id2; w_in] = Some (File 8)
  /\ files W1 [w_path; str "output"; str "failed"; w_id1; str "err"] = Some (File 3).
Proof.
  destruct w_pool as [W0 [P [E H]]]. exists W0, P.
  destruct (C133_sample_directories w_world (Rel []) [w_path] W0 P [w_add1; w_fail1; w_add2] w_rooted eq_refl E) as [W1 [E1 H1]].
  { repeat apply Forall_cons; try apply Forall_nil; (split; [apply w_good1 || apply w_good2|now apply w_common]). }
  exists W1. split; [exact E|].
  assert (S1 : common_file (files W0) [[w_path; w_in]] w_in = Some (File 7)) by exact H.
  split; [|split].
  - rewrite E1. f_equal. f_equal. cbn [map]. unfold succeeds. cbn [prog sid cfiles w_add1 w_fail1 w_add2]. unfold w_add. now rewrite S1.
  - pose proof (h_successful_file _ _ _ _ H1 w_id2 w_in) as F. cbn [app] in F. rewrite F.
    assert (S2 : succeeds (files W0) w_add2 = true).
    { unfold succeeds. cbn [prog sid cfiles w_add2]. unfold w_add. now rewrite S1. }
    unfold kept, to_successful. cbn [last_such]. rewrite S2.
    change (same (sid w_add2) w_id2 && (true && first_five (sid w_add2))) with true. cbn iota.
    unfold left_file. cbn [prog sid cfiles w_add2]. unfold w_add. now rewrite S1.
  - pose proof (h_failed_file _ _ _ _ H1 w_id1 (str "err")) as F. cbn [app] in F. rewrite F.
    unfold kept. cbn [last_such]. change (same (sid w_add2) w_id1) with false. cbn [andb].
    change (same (sid w_fail1) w_id1 && to_failed (files W0) w_fail1) with true. reflexivity.
Qed.

(** The pool and the files computed directly. *)
Definition w_run (dbg : bool) (l : list (pystr * @lsim nat)) : res (@world nat * list bool) :=
  match new_pool w_world (Some (Rel [])) dbg with
  | Ok (W0, P) => match schedule_all W0 P l with Ok (W1, _, bs) => Ok (W1, bs) | Err e => Err e end
  | Err e => Err e
  end.

Example C134_example : exists W0 P W1 P1,
  new_pool w_world (Some (Rel [])) false = Ok (W0, P)
  /\ new_pool (mkW (fun q => if path_eqb q [w_path; str "output"; str "x"] then Some (File 1) else files W0 q) (cwd W0))
       (Some (Rel [])) false = Ok (W1, P1)
  /\ files W1 [w_path; str "output"; str "x"] = None /\ files W1 [w_path; w_in] = Some (File 7).
Proof.
  destruct (pick (new_pool w_world (Some (Rel [])) false) (fun '(W0, P) =>
    match new_pool (mkW (fun q => if path_eqb q [w_path; str "output"; str "x"] then Some (File 1) else files W0 q) (cwd W0))
       (Some (Rel [])) false with Ok (W1, P1) => files W1 [w_path; str "output"; str "x"] = None /\ files W1 [w_path; w_in] = Some (File 7) | Err _ => False end))
    as [[W0 P] [E H]]; [vm_compute; split; reflexivity|].
  apply (pick _ (fun '(W1, P1) => files W1 [w_path; str "output"; str "x"] = None /\ files W1 [w_path; w_in] = Some (File 7))) in H. destruct H as [[W1 P1] [E1 H1]]. exists W0, P, W1, P1. auto.
Qed.

Example C134_debug_example : exists W0 P W1 P1,
  new_pool w_world (Some (Rel [])) false = Ok (W0, P)
  /\ new_pool (mkW (fun q => if path_eqb q [w_path; str "output"; str "x"] then Some (File 1) else files W0 q) (cwd W0))
       (Some (Rel [])) true = Ok (W1, P1)
  /\ files W1 [w_path; str "output"; str "x"] = Some (File 1).
Proof.
  destruct (pick (new_pool w_world (Some (Rel [])) false) (fun '(W0, P) =>
    match new_pool (mkW (fun q => if path_eqb q [w_path; str "output"; str "x"] then Some (File 1) else files W0 q) (cwd W0))
       (Some (Rel [])) true with Ok (W1, P1) => files W1 [w_path; str "output"; str "x"] = Some (File 1) | Err _ => False end))
    as [[W0 P] [E H]]; [vm_compute; reflexivity|].
  apply (pick _ (fun '(W1, P1) => files W1 [w_path; str "output"; str "x"] = Some (File 1))) in H. destruct H as [[W1 P1] [E1 H1]]. exists W0, P, W1, P1. auto.
Qed.

(** A failed sample is computed again and succeeds (sampler.renew_failed_samples): its directory stays among the failed ones. *)
Theorem C135_failed_directory_refuted : exists (w : @world nat) wd p W0 P l W1 bs,
  resolve (cwd w) wd = Some p /\ new_pool w (Some wd) false = Ok (W0, P)
  /\ schedule_all W0 P (map (fun x => (sid x, level x)) l) = Ok (W1, P, bs)
  /\ exists id x, last_such (fun x => same (sid x) id) l = Some x /\ succeeds (files W0) x = true
                  /\ files W1 ((p ++ [str "output"]) ++ [str "failed"; id]) = Some Dir.
Proof.
  destruct (pick (new_pool w_world (Some (Rel [])) false) (fun '(W0, P) =>
    P = pool_of [w_path; str "output"] /\ succeeds (files W0) w_add1 = true /\
    match schedule_all W0 P (map (fun x => (sid x, level x)) [w_fail1; w_add1]) with
    | Ok (W1, P1, bs) => P1 = pool_of [w_path; str "output"] /\ files W1 [w_path; str "output"; str "failed"; w_id1] = Some Dir
    | Err _ => False
    end)) as [[W0 P] [E [HP [HS H]]]]; [vm_compute; repeat apply conj; reflexivity|].
  apply (pick _ (fun '(W1, P1, bs) => P1 = pool_of [w_path; str "output"] /\ files W1 [w_path; str "output"; str "failed"; w_id1] = Some Dir)) in H.
  destruct H as [[[W1 P1] bs] [E1 [-> H1]]]. rewrite <- HP in E1.
  exists w_world, (Rel []), [w_path], W0, P, [w_fail1; w_add1], W1, bs. split; [reflexivity|]. split; [exact E|]. split; [exact E1|].
  exists w_id1, w_add1. split; [reflexivity|]. split; [exact HS|exact H1].
Qed.

Example C135_example : exists W1, w_run false (map (fun x => (sid x, level x)) [w_fail1; w_add2]) = Ok (W1, [false; true])
  /\ files W1 [w_path; str "output"; str "failed"; w_id1] = Some Dir
  /\ files W1 [w_path; str "output"; str "failed"; w_id2] = None.
Proof.
  destruct (pick (w_run false (map (fun x => (sid x, level x)) [w_fail1; w_add2])) (fun '(W1, bs) => bs = [false; true]
    /\ files W1 [w_path; str "output"; str "failed"; w_id1] = Some Dir
    /\ files W1 [w_path; str "output"; str "failed"; w_id2] = None)) as [[W1 bs] [E [-> H]]]; [vm_compute; repeat apply conj; reflexivity|].
  eauto.
Qed.

(** The second sample with a relative name: an error ends the run, as the working directory was removed with the first sample. *)
Definition w_rel (f : pystr -> (pystr -> option (@entry nat)) -> list (pystr * nat) * bool) : @lsim nat :=
  mkL true (Some [Rel [w_in]]) f.

Theorem C136_relative_names_refuted :
  (exists W1, w_run false [(w_id1, w_rel w_add)] = Ok (W1, [true]))
  /\ w_run false [(w_id1, w_rel w_add); (w_id2, w_rel w_add)] = Err PyException
  /\ (exists W1, w_run false [(w_id1, level w_add1); (w_id2, level w_add2)] = Ok (W1, [true; true])).
Proof.
  split; [|split].
  - destruct (pick (w_run false [(w_id1, w_rel w_add)]) (fun '(W1, bs) => bs = [true])) as [[W1 bs] [E ->]]; [vm_compute; reflexivity|].
    eauto.
  - vm_compute. reflexivity.
  - destruct (pick (w_run false [(w_id1, level w_add1); (w_id2, level w_add2)]) (fun '(W1, bs) => bs = [true; true])) as [[W1 bs] [E ->]];
      [vm_compute; reflexivity|]. eauto.
Qed.

(** With debug the file is taken from the directory of the previous sample. *)
Theorem C136_previous_file_refuted : exists W1 W1',
  w_run true [(w_id1, w_rel w_add); (w_id2, w_rel w_add)] = Ok (W1, [true; true])
  /\ files W1 [w_path; str "output"; w_id2; w_in] = Some (File 9)
  /\ w_run true [(w_id1, level w_add1); (w_id2, level w_add2)] = Ok (W1', [true; true])
  /\ files W1' [w_path; str "output"; w_id2; w_in] = Some (File 8).
Proof.
  destruct (pick (w_run true [(w_id1, w_rel w_add); (w_id2, w_rel w_add)]) (fun '(W1, bs) => bs = [true; true]
    /\ files W1 [w_path; str "output"; w_id2; w_in] = Some (File 9))) as [[W1 bs] [E [-> H]]]; [vm_compute; split; reflexivity|].
  destruct (pick (w_run true [(w_id1, level w_add1); (w_id2, level w_add2)]) (fun '(W1, bs) => bs = [true; true]
    /\ files W1 [w_path; str "output"; w_id2; w_in] = Some (File 8))) as [[W2 bs] [E2 [-> H2]]]; [vm_compute; split; reflexivity|].
  exists W1, W2. auto.
Qed.

Example C136_example : exists W1 P1, schedule_sample w_world (mkP None None false) w_id1 (w_rel w_add) = Ok (W1, P1, true)
  /\ output_dir P1 = Some [w_path].
Proof.
  destruct (pick (schedule_sample w_world (mkP None None false) w_id1 (w_rel w_add)) (fun '(W1, P1, b) => b = true
    /\ output_dir P1 = Some [w_path])) as [[[W1 P1] b] [E [-> H]]]; [vm_compute; split; reflexivity|]. eauto.
Qed.

(** Two workers; the second sample starts before the first one writes. *)
Definition w_trace : list (@event nat) :=
  [Start 0 w_id1 (level w_add1); Call 0; Start 1 w_id2 (level w_add2); Call 1; Write 1; Write 0; Return 0; Return 1; Deliver 1; Deliver 0].

Example C137_example : exists W0 P s', new_pool w_world (Some (Rel [])) false = Ok (W0, P)
  /\ csteps false P w_trace (cstart W0) = Some s'
  /\ map (fun y => (fst (fst y), snd y)) (delivered s') = [(w_id2, true); (w_id1, true)]
  /\ cfiles_ s' [w_path; str "output"; str "several_successful"; w_id1; w_in] = Some (File 8)
  /\ cfiles_ s' [w_path; str "output"; str "several_successful"; w_id2; w_in] = Some (File 8).
Proof.
  destruct (pick (new_pool w_world (Some (Rel [])) false) (fun '(W0, P) => 
    match csteps false P w_trace (cstart W0) with Some s' => map (fun y => (fst (fst y), snd y)) (delivered s') = [(w_id2, true); (w_id1, true)] /\ cfiles_ s' [w_path; str "output"; str "several_successful"; w_id1; w_in] = Some (File 8) /\ cfiles_ s' [w_path; str "output"; str "several_successful"; w_id2; w_in] = Some (File 8) | None => False end)) as [[W0 P] [E H]];
    [vm_compute; repeat apply conj; reflexivity|].
  apply (pick_opt _ (fun s' => map (fun y => (fst (fst y), snd y)) (delivered s') = [(w_id2, true); (w_id1, true)] /\ cfiles_ s' [w_path; str "output"; str "several_successful"; w_id1; w_in] = Some (File 8) /\ cfiles_ s' [w_path; str "output"; str "several_successful"; w_id2; w_in] = Some (File 8))) in H. destruct H as [s' [E1 H]]. exists W0, P, s'. tauto.
Qed.

(** The second sample reads what the first one wrote: both programs end in the directory of the second. *)
Definition w_trace_threads : list (@event nat) :=
  [Start 0 w_id1 (level w_add1); Start 1 w_id2 (level w_add2); Call 0; Write 0; Return 0; Call 1; Write 1; Return 1; Deliver 0; Deliver 0].

Theorem C138_threads_refuted : exists W0 P s', new_pool w_world (Some (Rel [])) false = Ok (W0, P)
  /\ csteps true P w_trace_threads (cstart W0) = Some s'
  /\ map (fun y => (fst (fst y), snd y)) (delivered s') = [(w_id1, true); (w_id2, true)] /\ pending s' = [] /\ work s' 0 = Idle /\ work s' 1 = Idle
  /\ left_file (files W0) w_add1 w_in = Some (File 8) /\ left_file (files W0) w_add2 w_in = Some (File 8)
  /\ cfiles_ s' [w_path; str "output"; str "several_successful"; w_id1; w_in] = Some (File 7)
  /\ cfiles_ s' [w_path; str "output"; str "several_successful"; w_id2; w_in] = Some (File 9).
Proof.
  destruct (pick (new_pool w_world (Some (Rel [])) false) (fun '(W0, P) => left_file (files W0) w_add1 w_in = Some (File 8) /\ left_file (files W0) w_add2 w_in = Some (File 8) /\
    match csteps true P w_trace_threads (cstart W0) with Some s' => map (fun y => (fst (fst y), snd y)) (delivered s') = [(w_id1, true); (w_id2, true)] /\ pending s' = []
  /\ work s' 0 = Idle /\ work s' 1 = Idle
  /\ cfiles_ s' [w_path; str "output"; str "several_successful"; w_id1; w_in] = Some (File 7)
  /\ cfiles_ s' [w_path; str "output"; str "several_successful"; w_id2; w_in] = Some (File 9) | None => False end)) as [[W0 P] [E H]];
    [vm_compute; repeat apply conj; reflexivity|].
  destruct H as [HA [HB H]]. apply (pick_opt _ (fun s' => map (fun y => (fst (fst y), snd y)) (delivered s') = [(w_id1, true); (w_id2, true)] /\ pending s' = []
  /\ work s' 0 = Idle /\ work s' 1 = Idle
  /\ cfiles_ s' [w_path; str "output"; str "several_successful"; w_id1; w_in] = Some (File 7)
  /\ cfiles_ s' [w_path; str "output"; str "several_successful"; w_id2; w_in] = Some (File 9))) in H. destruct H as [s' [E1 H]]. exists W0, P, s'. tauto.
Qed.

Example C138_example : exists W0 P s', new_pool w_world (Some (Rel [])) false = Ok (W0, P)
  /\ csteps true P [Start 0 w_id1 (level w_add1); Call 0; Write 0; Return 0; Deliver 0] (cstart W0) = Some s'
  /\ cfiles_ s' [w_path; str "output"; str "several_successful"; w_id1; w_in] = Some (File 8).
Proof.
  destruct (pick (new_pool w_world (Some (Rel [])) false) (fun '(W0, P) => 
    match csteps true P [Start 0 w_id1 (level w_add1); Call 0; Write 0; Return 0; Deliver 0] (cstart W0) with Some s' => cfiles_ s' [w_path; str "output"; str "several_successful"; w_id1; w_in] = Some (File 8) | None => False end)) as [[W0 P] [E H]];
    [vm_compute; repeat apply conj; reflexivity|].
  apply (pick_opt _ (fun s' => cfiles_ s' [w_path; str "output"; str "several_successful"; w_id1; w_in] = Some (File 8))) in H. destruct H as [s' [E1 H]]. exists W0, P, s'. tauto.
Qed.

(** With debug, a directory left by an earlier run: the file [err] of the failed program is seen by the next program. *)
Definition w_see : pystr -> (pystr -> option (@entry nat)) -> list (pystr * nat) * bool :=
  fun _ v => ([], match v (str "old") with None => true | Some _ => false end).
Definition w_see1 := mkS w_id1 [[w_path; w_in]] w_see.
Definition w_old : @lsim nat := mkL true None (fun _ _ => ([(str "old", 1)], true)).

Theorem C139_debug_directory_refuted :
  (exists W1, w_run true [(w_id1, w_old); (w_id1, level w_see1)] = Ok (W1, [true; false]))
  /\ succeeds w_fs w_see1 = true.
Proof.
  split; [|vm_compute; reflexivity].
  destruct (pick (w_run true [(w_id1, w_old); (w_id1, level w_see1)]) (fun '(W1, bs) => bs = [true; false])) as [[W1 bs] [E ->]];
    [vm_compute; reflexivity|]. eauto.
Qed.

Example C139_example : exists W1, w_run true [(w_id1, level w_see1)] = Ok (W1, [true]).
Proof.
  destruct (pick (w_run true [(w_id1, level w_see1)]) (fun '(W1, bs) => bs = [true])) as [[W1 bs] [E ->]];
    [vm_compute; reflexivity|]. eauto.
Qed.

Print Assumptions C133_sample_directories.
Print Assumptions C134_new_pool_erases.
Print Assumptions C134_debug_keeps.
Print Assumptions C134_new_pool_possible.
Print Assumptions C135_failed_directory_partial.
Print Assumptions C135_failed_directory_refuted.
Print Assumptions C136_relative_names_partial.
Print Assumptions C136_relative_names_refuted.
Print Assumptions C136_previous_file_refuted.
Print Assumptions C137_processes.
Print Assumptions C137_no_sample_lost.
Print Assumptions C138_one_thread_partial.
Print Assumptions C138_threads_refuted.
Print Assumptions C139_new_directory_partial.
Print Assumptions C139_debug_directory_refuted.
