(** C221, C222: the environment of a run and the work for a command. *)
From Verif Require Import Base EnvModel.

(** *** Specification *)
(** A normalized absolute path /c1/.../cn. *)
Definition path (cs : list pystr) : pystr := match cs with [] => [slash] | _ => flat_map (fun c => slash :: c) cs end.
Definition name (c : pystr) : Prop := c <> [] /\ ~ In slash c.

Lemma is_slash_spec c : is_slash c = true <-> c = slash.
Proof. unfold is_slash. apply Ascii.eqb_eq. Qed.
Lemma before_app l r : ~ In slash l -> before_slash (l ++ slash :: r) = l.
Proof.
  induction l as [|c l IH]; intros N; cbn; [reflexivity|].
  destruct (is_slash c) eqn:E; [apply is_slash_spec in E; subst; exfalso; apply N; left; reflexivity|]. f_equal. apply IH. intros I. apply N. right. exact I.
Qed.
Lemma in_rev_slash l : ~ In slash l -> ~ In slash (rev l).
Proof. intros N I. apply N. apply in_rev. exact I. Qed.
(** Splitting h/c for a name c. *)
Lemma split_last h c : ~ In slash c -> path_split (h ++ slash :: c) = (if forallb is_slash (h ++ [slash]) then h ++ [slash] else rstrip (h ++ [slash]), c).
Proof.
  intros N. unfold path_split.
  assert (R : rev (h ++ slash :: c) = rev c ++ slash :: rev h). { rewrite rev_app_distr. cbn [rev]. rewrite <- app_assoc. reflexivity. }
  rewrite R, before_app by (apply in_rev_slash; exact N). rewrite rev_involutive.
  assert (F : firstn (length (h ++ slash :: c) - length c) (h ++ slash :: c) = h ++ [slash]).
  { replace (h ++ slash :: c) with ((h ++ [slash]) ++ c) by (rewrite <- app_assoc; reflexivity).
    rewrite firstn_app. replace (length ((h ++ [slash]) ++ c) - length c) with (length (h ++ [slash])) by (rewrite (app_length (h ++ [slash]) c); lia).
    rewrite firstn_all, Nat.sub_diag. cbn. apply app_nil_r. }
  rewrite F. reflexivity.
Qed.
Lemma rstrip_name h c : name c -> rstrip (h ++ c ++ [slash]) = h ++ c.
Proof.
  intros [NE NS]. unfold rstrip. rewrite app_assoc, rev_app_distr. cbn [rev app drop_slashes].
  replace (is_slash slash) with true by reflexivity. rewrite rev_app_distr.
  destruct (rev c) as [|x r] eqn:E; [exfalso; apply NE; rewrite <- (rev_involutive c), E; reflexivity|]. cbn.
  assert (X : is_slash x = false). { destruct (is_slash x) eqn:S; [|reflexivity]. apply is_slash_spec in S. subst x. exfalso. apply NS. apply in_rev. rewrite E. left. reflexivity. }
  rewrite X. rewrite <- (rev_involutive h) at 2. rewrite <- (rev_involutive c), E. rewrite <- rev_app_distr. reflexivity.
Qed.
Lemma not_all_slash h c r : name c -> forallb is_slash (h ++ c ++ r) = false.
Proof.
  intros [NE NS]. destruct c as [|x c]; [contradiction|]. rewrite forallb_app. cbn.
  destruct (is_slash x) eqn:S; [apply is_slash_spec in S; subst; exfalso; apply NS; left; reflexivity|]. cbn. apply andb_false_r.
Qed.

(** One iteration for /c1/.../cn or //c1/.../cn. *)
Lemma split_path lead cs c : forallb is_slash lead = true -> Forall name cs -> name c ->
  path_split (lead ++ path (cs ++ [c])) = (lead ++ path cs, c).
Proof.
  intros LS G [NE NS].
  assert (P : path (cs ++ [c]) = flat_map (fun c => slash :: c) cs ++ slash :: c).
  { unfold path. destruct (cs ++ [c]) as [|x l] eqn:E; [destruct cs; discriminate E|]. rewrite <- E, flat_map_app. cbn. rewrite app_nil_r. reflexivity. }
  rewrite P, app_assoc, split_last by exact NS.
  destruct cs as [|c0 cs0] eqn:EC.
  - cbn [flat_map path]. rewrite app_nil_r, forallb_app, LS. reflexivity.
  - rewrite <- EC in *. destruct (exists_last (l := cs)) as [ds [d ED]]; [rewrite EC; discriminate|].
    assert (ND : name d). { rewrite ED in G. apply Forall_app in G as [_ G]. inversion G; assumption. }
    assert (FD : flat_map (fun c => slash :: c) cs = (flat_map (fun c => slash :: c) ds ++ [slash]) ++ d). { rewrite ED, flat_map_app. cbn. rewrite app_nil_r, <- app_assoc. reflexivity. }
    assert (PC : path cs = flat_map (fun c => slash :: c) cs) by (rewrite EC; reflexivity).
    rewrite FD. rewrite (app_assoc lead). rewrite <- (app_assoc _ d). rewrite not_all_slash by exact ND. rewrite rstrip_name by exact ND.
    rewrite PC, FD, <- app_assoc. reflexivity.
Qed.
Lemma path_not_root cs c : Forall name (c :: cs) -> path (c :: cs) <> [slash].
Proof. intros G. inversion G as [|? ? [NE _] _]; subst. cbn. destruct c; [contradiction|]. discriminate. Qed.

Lemma loop_path : forall cs fuel t, Forall name cs -> length cs <= fuel -> root_loop fuel (path cs) t = Some (match cs with [] => t | c :: _ => Some c end).
Proof.
  intros cs. induction cs as [|c cs IH] using rev_ind; intros fuel t G L.
  - cbn [path]. destruct fuel; cbn; destruct (list_eq_dec ascii_dec [slash] [slash]); congruence.
  - rewrite app_length in L. cbn in L. destruct fuel as [|fuel]; [lia|]. cbn [root_loop].
    apply Forall_app in G as [G GC]. inversion GC as [|? ? NC _]; subst.
    destruct (list_eq_dec ascii_dec (path (cs ++ [c])) [slash]) as [E|_].
    + exfalso. destruct cs as [|c0 cs]; [apply (path_not_root [] c GC E)|]. apply (path_not_root (cs ++ [c]) c0); [|exact E].
      inversion G; subst. constructor; [assumption|]. apply Forall_app. split; assumption.
    + pose proof (split_path [] cs c eq_refl G NC) as S. cbn [app] in S. rewrite S. rewrite IH by (assumption || lia). destruct cs; reflexivity.
Qed.
Lemma loop_double : forall fuel cs t, Forall name cs -> root_loop fuel (slash :: path cs) t = None.
Proof.
  induction fuel as [|fuel IH]; intros cs t G; cbn [root_loop].
  - destruct (list_eq_dec ascii_dec (slash :: path cs) [slash]) as [E|_]; [|reflexivity]. exfalso. destruct cs; discriminate E.
  - destruct (list_eq_dec ascii_dec (slash :: path cs) [slash]) as [E|_]; [exfalso; destruct cs; discriminate E|].
    destruct cs as [|c0 cs0] eqn:EC.
    + exact (IH [] (Some []) (Forall_nil _)).
    + rewrite <- EC in *. destruct (exists_last (l := cs)) as [ds [d ED]]; [rewrite EC; discriminate|]. rewrite ED in *. apply Forall_app in G as [G GD]. inversion GD; subst.
      pose proof (split_path [slash] ds d eq_refl G) as S. cbn [app] in S. rewrite S by assumption. apply IH. exact G.
Qed.

(** *** C221: the cluster settings are chosen exactly for working directories under /storage *)
Definition chooses (run : nat -> option (res env)) (e : env) : Prop := exists n, forall fuel, n <= fuel -> run fuel = Some (Ok e).

(** True for normalized paths with one leading slash below the root; missing: the root, and paths with two leading slashes. *)
Theorem C221_environment_partial : forall c cs, Forall name (c :: cs) ->
  exists e, chooses (fun fuel => set_environment_variables fuel (path (c :: cs))) e /\
    (c = str "storage" -> e_qsub e = Some (str "/usr/bin/qsub") /\ e_sleep e = 30 /\ e_init_timeout e = 600 /\ e_timeout e = 0 /\ e_flow e = str "flow123d") /\
    (c <> str "storage" -> e_qsub e = None /\ e_sleep e = 1 /\ e_init_timeout e = 60 /\ e_timeout e = 60).
Proof.
  intros c cs G.
  assert (R : forall fuel, length (c :: cs) <= fuel -> set_environment_variables fuel (path (c :: cs)) = Some (Ok (if list_eq_dec ascii_dec c (str "storage") then metacentrum else local))).
  { intros fuel L. unfold set_environment_variables. rewrite loop_path by assumption. reflexivity. }
  eexists. split; [exists (length (c :: cs)); exact R|]. destruct (list_eq_dec ascii_dec c (str "storage")) as [E|N].
  - split; [intros _; repeat split|]. intros N. contradiction.
  - split; [intros E; contradiction|]. intros _. repeat split.
Qed.
Lemma ex_names : Forall name [str "storage"; str "brno2"].
Proof. repeat constructor; try discriminate; cbn; intros H; repeat (destruct H as [H|H]; [discriminate H|]); exact H. Qed.
Example C221_environment_partial_ex : Forall name [str "storage"; str "brno2"] /\ path [str "storage"; str "brno2"] = str "/storage/brno2" /\
  set_environment_variables 5 (str "/storage/brno2") = Some (Ok metacentrum) /\ set_environment_variables 5 (str "/home/storage") = Some (Ok local).
Proof. split; [exact ex_names|]. repeat split; reflexivity. Qed.

(** The root directory: unbound variable. A path with two leading slashes, which abspath keeps: the loop never ends. *)
Theorem C221_environment_refuted :
  (forall fuel, set_environment_variables fuel (path []) = Some (Err UnboundLocalError)) /\
  (forall cs, Forall name cs -> forall fuel, set_environment_variables fuel (slash :: path cs) = None) /\
  (exists dir, dir = str "//storage/brno2" /\ forall e, ~ chooses (fun fuel => set_environment_variables fuel dir) e).
Proof.
  assert (D : forall cs, Forall name cs -> forall fuel, set_environment_variables fuel (slash :: path cs) = None).
  { intros cs G fuel. unfold set_environment_variables. rewrite loop_double by exact G. reflexivity. }
  split; [|split; [exact D|]].
  - intros fuel. unfold set_environment_variables. rewrite loop_path; [reflexivity|constructor|cbn; lia].
  - eexists. split; [reflexivity|]. intros e [n H]. specialize (H n (Nat.le_refl n)).
    change (str "//storage/brno2") with (slash :: path [str "storage"; str "brno2"]) in H. rewrite (D _ ex_names) in H. discriminate H.
Qed.

(** *** C222: only the command 'run' schedules new samples or cleans; the others work with what is there *)
Definition schedules (t : list action) : Prop := In Generate t.
Definition cleans (t : list action) : Prop := exists n, In (Setup n true) t.

(** Cleaning only with 'run' and the option; the others append; an exception ends before anything is collected. Missing: scheduling. *)
Theorem C222_command_partial : forall setup_ok sets_sleep takes_sleep cmd clean, let '(append, (t, out)) := pb_init setup_ok sets_sleep takes_sleep cmd clean in
  (cleans t <-> cmd = Crun /\ clean = true) /\ (append = true <-> cmd <> Crun) /\
  (out = Ok tt <-> setup_ok = true /\ sets_sleep = true /\ takes_sleep = true) /\ (out = Ok tt <-> In CollectAll t).
Proof.
  intros so ss ts cmd cl. unfold pb_init, pb_run, cleans.
  destruct cmd, so, ss, ts, cl; cbn; (split; [|split; [|split]]);
    (split; [try (intros [n H]; intuition congruence); intuition (try congruence; try discriminate) | try (intros [H1 H2]; try discriminate; eexists; eauto); intuition (try congruence; try discriminate)]); eauto.
Qed.
Example C222_command_partial_ex : pb_init true true true Crun true = (false, ([Makedirs; Setup 1 true; Generate; CollectAll], Ok tt)).
Proof. reflexivity. Qed.

(** 'collect' and 'process' schedule like 'run'; 'collect', 'renew' and 'process' do the same; with the methods of the class itself no
    command gets to the collection. *)
Theorem C222_command_refuted :
  (exists cmd t, cmd <> Crun /\ cmd <> Crenew /\ pb_init true true true cmd false = (true, (t, Ok tt)) /\ schedules t) /\
  (forall so ss ts clean, pb_init so ss ts Ccollect clean = pb_init so ss ts Crenew clean /\ pb_init so ss ts Cprocess clean = pb_init so ss ts Crenew clean) /\
  (forall so ss cmd clean, exists e, snd (snd (pb_init so ss false cmd clean)) = Err e).
Proof.
  split; [|split].
  - exists Cprocess. eexists. split; [discriminate|]. split; [discriminate|]. split; [reflexivity|]. unfold schedules. cbn. tauto.
  - intros. split; reflexivity.
  - intros so ss cmd clean. destruct cmd, so, ss; eexists; reflexivity.
Qed.
