(** Properties of the scripts of PBS jobs: C154-C156. *)
From Verif Require Import Base BaseFacts TagModel TagSpec TagProofs ScriptModel.

(** ** Specification *)
(** A text without braces. *)
Definition plain (s : pystr) : Prop := ~ In "{"%char s /\ ~ In "}"%char s.
(** The settings of a user, as texts. *)
Record settings := { s_nodes : pystr; s_cores : pystr; s_mem : pystr; s_flags : option (list pystr); s_walltime : pystr; s_queue : pystr;
  s_name : pystr; s_python : option pystr; s_join : option pystr; s_requests : list pystr; s_env : list pystr }.
(** The keyword arguments give these settings; further keywords are allowed. *)
Definition gives (kw : config) (s : settings) : Prop :=
  cget kw (str "n_nodes") = Some (VS (s_nodes s)) /\ cget kw (str "n_cores") = Some (VS (s_cores s)) /\ cget kw (str "mem") = Some (VS (s_mem s))
  /\ cget kw (str "select_flags") = option_map VL (s_flags s) /\ cget kw (str "walltime") = Some (VS (s_walltime s))
  /\ cget kw (str "queue") = Some (VS (s_queue s)) /\ cget kw (str "pbs_name") = Some (VS (s_name s))
  /\ cget kw (str "python") = option_map VS (s_python s) /\ cget kw (str "std_out_err") = option_map VS (s_join s)
  /\ cget kw (str "optional_pbs_requests") = Some (VL (s_requests s)) /\ cget kw (str "env_setting") = Some (VL (s_env s)).
Definition default {A} (d : A) (o : option A) : A := match o with Some a => a | None => d end.
(** Each flag is appended after a colon. *)
Definition flag_text (l : list pystr) : pystr := concat (map (fun f => ":"%char :: f) l).
(** The script a user expects. *)
Definition head_lines (s : settings) (jobs job : pystr) : list pystr :=
  [ str "#!/bin/bash"; str "#PBS -S /bin/bash";
    str "#PBS -l select=" ++ s_nodes s ++ str ":ncpus=" ++ s_cores s ++ str ":mem=" ++ s_mem s ++ flag_text (default [] (s_flags s));
    str "#PBS -l walltime=" ++ s_walltime s; str "#PBS -q " ++ s_queue s; str "#PBS -N " ++ s_name s;
    str "#PBS -j " ++ default (str "oe") (s_join s);
    str "#PBS -o " ++ jobs ++ str "/" ++ job ++ str ".OU"; str "#PBS -e " ++ jobs ++ str "/" ++ job ++ str ".ER" ].
Definition command_line (python out jobs job : pystr) : pystr :=
  python ++ str " -m mlmc.tool.pbs_job " ++ out ++ str " " ++ job ++ str " >" ++ jobs ++ str "/" ++ job ++ str "_STDOUT 2>&1".
Definition expected_script (s : settings) (jobs out wd job : pystr) : list pystr :=
  head_lines s jobs job ++ s_requests s ++ [str "MLMC_WORKDIR=" ++ quote ++ wd ++ quote] ++ s_env s
  ++ [command_line (default (str "python3") (s_python s)) out jobs job].
(** The text a job name stands for: at least four decimal digits. *)
Definition names_job (t : pystr) (n : N) : Prop :=
  exists ds, t = map digit_char ds /\ Forall (fun d => (d < 10)%N) ds /\ 4 <= length ds /\ TagProofs.val ds = n.

(** ** Formatting of pieces *)
Inductive piece := PL (s : pystr) | PF (name : pystr).
Definition render1 (p : piece) : pystr := match p with PL s => s | PF n => "{"%char :: n ++ ["}"%char] end.
Fixpoint render (ps : list piece) : pystr := match ps with [] => [] | p :: ps' => render1 p ++ render ps' end.
Definition nobrace (a : ascii) : bool := negb (Ascii.eqb a "{") && negb (Ascii.eqb a "}").
Definition good_piece (p : piece) : bool :=
  match p with PL s => forallb nobrace s
  | PF n => forallb nobrace n && negb (existsb special n) && negb (forallb (fun a => match char_digit a with Some _ => true | None => false end) n) end.

Lemma plain_forallb s : plain s <-> forallb nobrace s = true.
Proof.
  unfold plain. rewrite forallb_forall. unfold nobrace. split.
  - intros (H1 & H2) x Hx. destruct (Ascii.eqb_spec x "{"); [subst; contradiction|]. destruct (Ascii.eqb_spec x "}"); [subst; contradiction|]. reflexivity.
  - intros H. split; intros Hx; specialize (H _ Hx); discriminate H.
Qed.

Lemma format_lit c s rest : forallb nobrace s = true ->
  format_ c Lit (s ++ rest) = bind (format_ c Lit rest) (fun r => Ok (s ++ r)).
Proof.
  induction s as [|a s IH]; cbn [app forallb]; intros H.
  - destruct (format_ c Lit rest); reflexivity.
  - apply andb_prop in H. destruct H as (H1 & H2). unfold nobrace in H1. apply andb_prop in H1. destruct H1 as (H1 & H3).
    cbn [format_]. apply Bool.negb_true_iff in H1, H3. rewrite H1, H3, IH by auto. destruct (format_ c Lit rest); reflexivity.
Qed.

Lemma format_name c n acc rest : forallb nobrace n = true ->
  format_ c (Name acc) (n ++ "}"%char :: rest) = bind (look_up c (rev acc ++ n)) (fun v => bind (format_ c Lit rest) (fun r => Ok (v ++ r))).
Proof.
  revert acc. induction n as [|a n IH]; intros acc H.
  - rewrite app_nil_r. reflexivity.
  - cbn [forallb] in H. apply andb_prop in H. destruct H as (H1 & H2). unfold nobrace in H1. apply andb_prop in H1. destruct H1 as (H1 & H3).
    apply Bool.negb_true_iff in H1, H3. cbn [app format_]. rewrite H1, H3, IH by auto. cbn [rev]. rewrite <- app_assoc. reflexivity.
Qed.

Lemma format_field c n rest : good_piece (PF n) = true ->
  format_ c Lit (render1 (PF n) ++ rest) =
  bind (match cget c n with Some (VS s) => Ok s | Some (VL _) => Err PyException | None => Err KeyError end)
       (fun v => bind (format_ c Lit rest) (fun r => Ok (v ++ r))).
Proof.
  cbn [good_piece render1]. intros H. apply andb_prop in H. destruct H as (H & H3). apply andb_prop in H. destruct H as (H1 & H2).
  apply Bool.negb_true_iff in H2, H3.
  destruct n as [|a n]; [discriminate H3|]. cbn [app]. rewrite <- app_assoc. cbn [app format_]. cbn [Ascii.eqb Bool.eqb].
  cbn [forallb] in H1. apply andb_prop in H1. destruct H1 as (H1 & H4). unfold nobrace in H1. apply andb_prop in H1. destruct H1 as (H1 & H5).
  apply Bool.negb_true_iff in H1, H5. rewrite H1, H5, format_name by auto. cbn [rev app]. unfold look_up. rewrite H3, H2. reflexivity.
Qed.

Fixpoint eval (c : config) (ps : list piece) : option pystr :=
  match ps with
  | [] => Some []
  | PL s :: ps' => match eval c ps' with Some r => Some (s ++ r) | None => None end
  | PF n :: ps' => match cget c n with Some (VS v) => match eval c ps' with Some r => Some (v ++ r) | None => None end | _ => None end
  end.

Lemma format_pieces c ps t : forallb good_piece ps = true -> eval c ps = Some t -> format c (render ps) = Ok t.
Proof.
  unfold format. revert t. induction ps as [|p ps IH]; intros t H E.
  - cbn in E. injection E as <-. reflexivity.
  - cbn [forallb] in H. apply andb_prop in H. destruct H as (H1 & H2). cbn [render]. destruct p as [s|n]; cbn [eval] in E.
    + cbn [good_piece] in H1. cbn [render1]. rewrite format_lit by auto. destruct (eval c ps) as [r|]; [|discriminate]. injection E as <-.
      rewrite (IH r) by auto. reflexivity.
    + rewrite format_field by auto. destruct (cget c n) as [[v|l]|]; try discriminate. destruct (eval c ps) as [r|]; [|discriminate].
      injection E as <-. cbn [bind]. rewrite (IH r) by auto. reflexivity.
Qed.

Lemma format_plain c s : plain s -> format c s = Ok s.
Proof.
  intros H. apply plain_forallb in H. unfold format. rewrite <- (app_nil_r s) at 1. rewrite format_lit by auto. cbn [format_ bind]. rewrite app_nil_r. reflexivity.
Qed.

Lemma format_all_app c a b : format_all c (a ++ b) = bind (format_all c a) (fun x => bind (format_all c b) (fun y => Ok (x ++ y))).
Proof.
  induction a as [|s a IH]; cbn [app format_all bind].
  - destruct (format_all c b); reflexivity.
  - rewrite IH. destruct (format c s); cbn [bind]; [|reflexivity]. destruct (format_all c a); cbn [bind]; [|reflexivity].
    destruct (format_all c b); reflexivity.
Qed.
Lemma format_all_plain c l : Forall plain l -> format_all c l = Ok l.
Proof. induction 1 as [|s l H _ IH]; [reflexivity|]. cbn [format_all]. rewrite format_plain by auto. cbn [bind]. rewrite IH. reflexivity. Qed.
Lemma format_all_length c l r : format_all c l = Ok r -> length r = length l.
Proof.
  revert r. induction l as [|s l IH]; intros r H; cbn [format_all] in H.
  - injection H as <-. reflexivity.
  - destruct (format c s); cbn [bind] in H; [|discriminate]. destruct (format_all c l) eqn:E; cbn [bind] in H; [|discriminate].
    injection H as <-. cbn [length]. rewrite (IH _ eq_refl). reflexivity.
Qed.

Lemma cget_cset c k v n : cget (cset c k v) n = if pystr_eq_dec n k then Some v else cget c n.
Proof.
  induction c as [|[m w] c IH]; cbn [cset cget].
  - destruct (pystr_eq_dec n k); reflexivity.
  - destruct (pystr_eq_dec k m) as [->|Hk]; cbn [cget].
    + destruct (pystr_eq_dec n m); reflexivity.
    + rewrite IH. destruct (pystr_eq_dec n m) as [->|]; [|reflexivity]. destruct (pystr_eq_dec m k); [congruence|reflexivity].
Qed.

Lemma join_flags l : l <> [] -> str ":" ++ join (str ":") l = flag_text l.
Proof.
  induction l as [|f l IH]; intros H; [congruence|]. unfold flag_text. cbn [map concat]. destruct l as [|g l].
  - cbn [join map concat]. rewrite app_nil_r. reflexivity.
  - change (join (str ":") (f :: g :: l)) with (f ++ str ":" ++ join (str ":") (g :: l)). rewrite IH by congruence. reflexivity.
Qed.

Lemma cget_default kw k d n : n <> k -> cget (with_default kw k d) n = cget kw n.
Proof. intros H. unfold with_default. destruct (cget kw k); [reflexivity|]. rewrite cget_cset. destruct (pystr_eq_dec n k); [contradiction|reflexivity]. Qed.
Lemma cget_default_same kw k d o : cget kw k = option_map VS o -> cget (with_default kw k d) k = Some (VS (default d o)).
Proof.
  intros H. unfold with_default. destruct o as [v|]; cbn [option_map default] in *; rewrite H; [exact H|]. rewrite cget_cset.
  destruct (pystr_eq_dec k k); [reflexivity|contradiction].
Qed.
Lemma cget_flags kw n : n <> str "select_flags" -> cget (with_flags kw) n = cget kw n.
Proof. intros H. unfold with_flags. rewrite cget_cset. destruct (pystr_eq_dec n _); [contradiction|reflexivity]. Qed.
Lemma cget_flags_same kw o : cget kw (str "select_flags") = option_map VL o ->
  cget (with_flags kw) (str "select_flags") = Some (VS (flag_text (default [] o))).
Proof.
  intros H. unfold with_flags. rewrite cget_cset. destruct (pystr_eq_dec _ _) as [_|X]; [|contradiction X; reflexivity]. rewrite H.
  destruct o as [[|f l]|]; cbn [option_map items default]; [reflexivity| |reflexivity]. rewrite join_flags by congruence. reflexivity.
Qed.
Lemma cget_complete kw n : n <> str "select_flags" -> n <> str "python" -> n <> str "std_out_err" -> cget (complete kw) n = cget kw n.
Proof. intros H1 H2 H3. unfold complete. rewrite !cget_default, cget_flags by assumption. reflexivity. Qed.

(** ** C154 *)
Ltac other := intros X; discriminate X.
Lemma complete_ok kw s : gives kw s -> let c := complete kw in
    cget c (str "n_nodes") = Some (VS (s_nodes s)) /\ cget c (str "n_cores") = Some (VS (s_cores s)) /\ cget c (str "mem") = Some (VS (s_mem s))
    /\ cget c (str "select_flags") = Some (VS (flag_text (default [] (s_flags s)))) /\ cget c (str "walltime") = Some (VS (s_walltime s))
    /\ cget c (str "queue") = Some (VS (s_queue s)) /\ cget c (str "pbs_name") = Some (VS (s_name s))
    /\ cget c (str "python") = Some (VS (default (str "python3") (s_python s))) /\ cget c (str "std_out_err") = Some (VS (default (str "oe") (s_join s))).
Proof.
  intros (G1 & G2 & G3 & G4 & G5 & G6 & G7 & G8 & G9 & G10 & G11). cbv zeta.
  split; [rewrite cget_complete by other; exact G1|]. split; [rewrite cget_complete by other; exact G2|]. split; [rewrite cget_complete by other; exact G3|].
  split; [unfold complete; rewrite !cget_default by other; apply cget_flags_same; exact G4|].
  split; [rewrite cget_complete by other; exact G5|]. split; [rewrite cget_complete by other; exact G6|]. split; [rewrite cget_complete by other; exact G7|].
  split; unfold complete.
  - rewrite cget_default by other. apply cget_default_same. rewrite cget_flags by other. exact G8.
  - apply cget_default_same. rewrite cget_default, cget_flags by other. exact G9.
Qed.
Lemma setting_ok kw reqs env wd : cget kw (str "optional_pbs_requests") = Some (VL reqs) -> cget kw (str "env_setting") = Some (VL env) ->
  pbs_common_setting wd kw = Ok (head_template ++ reqs ++ [work_dir_line wd] ++ env ++ [command_template], complete kw).
Proof. intros H1 H2. unfold pbs_common_setting. rewrite !cget_complete by other. rewrite H1, H2. reflexivity. Qed.

Theorem C154_script : forall kw s jobs out wd count,
  gives kw s -> plain wd -> Forall plain (s_requests s) -> Forall plain (s_env s) ->
  exists st job, pbs_common_setting wd kw = Ok st /\ names_job job count
    /\ create_script jobs out wd count (Some st) = Ok (expected_script s jobs out wd job).
Proof.
  intros kw s jobs out wd count G Hw Hr He. destruct (complete_ok kw s G) as (K1 & K2 & K3 & K4 & K5 & K6 & K7 & K8 & K9).
  destruct G as (_ & _ & _ & _ & _ & _ & _ & _ & _ & G10 & G11).
  eexists. exists (job_name count). split; [exact (setting_ok kw _ _ wd G10 G11)|]. split.
  { destruct (pad_dec_ok 4 count) as (P1 & P2 & _ & P4). exists (pad_dec 4 count). unfold job_name. auto. }
  unfold create_script. set (c1 := job_config jobs out wd count (complete kw)).
  assert (A : forall n, n <> str "job_name" -> n <> str "pbs_output_dir" -> n <> str "output_dir" -> n <> str "work_dir" -> cget c1 n = cget (complete kw) n).
  { intros n H1 H2 H3 H4. unfold c1, job_config. rewrite !cget_cset. repeat (destruct (pystr_eq_dec n _); [contradiction|]). reflexivity. }
  assert (B1 : cget c1 (str "job_name") = Some (VS (job_name count))) by (unfold c1, job_config; rewrite !cget_cset; reflexivity).
  assert (B2 : cget c1 (str "pbs_output_dir") = Some (VS jobs)) by (unfold c1, job_config; rewrite !cget_cset; reflexivity).
  assert (B3 : cget c1 (str "output_dir") = Some (VS out)) by (unfold c1, job_config; rewrite !cget_cset; reflexivity).
  assert (K : cget c1 (str "n_nodes") = Some (VS (s_nodes s)) /\ cget c1 (str "n_cores") = Some (VS (s_cores s)) /\ cget c1 (str "mem") = Some (VS (s_mem s))
    /\ cget c1 (str "select_flags") = Some (VS (flag_text (default [] (s_flags s)))) /\ cget c1 (str "walltime") = Some (VS (s_walltime s))
    /\ cget c1 (str "queue") = Some (VS (s_queue s)) /\ cget c1 (str "pbs_name") = Some (VS (s_name s))
    /\ cget c1 (str "python") = Some (VS (default (str "python3") (s_python s))) /\ cget c1 (str "std_out_err") = Some (VS (default (str "oe") (s_join s)))).
  { repeat split; (rewrite A by other; assumption). }
  clearbody c1. clear K1 K2 K3 K4 K5 K6 K7 K8 K9 A. destruct K as (K1 & K2 & K3 & K4 & K5 & K6 & K7 & K8 & K9).
  rewrite !format_all_app. rewrite (format_all_plain c1 _ Hr), (format_all_plain c1 _ He).
  assert (Pw : plain (work_dir_line wd)).
  { unfold work_dir_line. destruct Hw as (W1 & W2). split; intros X; repeat (apply in_app_iff in X; destruct X as [X|X]); try contradiction; vm_compute in X; intuition discriminate. }
  rewrite (format_all_plain c1 [_]) by (constructor; [exact Pw|constructor]).
  assert (F : forall ps t, forallb good_piece ps = true -> eval c1 ps = Some t -> format c1 (render ps) = Ok t) by (intros; apply format_pieces; assumption).
  assert (L1 : format c1 (str "#!/bin/bash") = Ok (str "#!/bin/bash")) by (apply format_plain, plain_forallb; reflexivity).
  assert (L2 : format c1 (str "#PBS -S /bin/bash") = Ok (str "#PBS -S /bin/bash")) by (apply format_plain, plain_forallb; reflexivity).
  assert (L3 : format c1 (str "#PBS -l select={n_nodes}:ncpus={n_cores}:mem={mem}{select_flags}") =
    Ok (str "#PBS -l select=" ++ s_nodes s ++ str ":ncpus=" ++ s_cores s ++ str ":mem=" ++ s_mem s ++ flag_text (default [] (s_flags s)))).
  { apply (F [PL (str "#PBS -l select="); PF (str "n_nodes"); PL (str ":ncpus="); PF (str "n_cores"); PL (str ":mem="); PF (str "mem"); PF (str "select_flags")]);
      [reflexivity|]. cbn [eval]. rewrite K1, K2, K3, K4. rewrite app_nil_r. reflexivity. }
  assert (L4 : format c1 (str "#PBS -l walltime={walltime}") = Ok (str "#PBS -l walltime=" ++ s_walltime s)).
  { apply (F [PL (str "#PBS -l walltime="); PF (str "walltime")]); [reflexivity|]. cbn [eval]. rewrite K5, app_nil_r. reflexivity. }
  assert (L5 : format c1 (str "#PBS -q {queue}") = Ok (str "#PBS -q " ++ s_queue s)).
  { apply (F [PL (str "#PBS -q "); PF (str "queue")]); [reflexivity|]. cbn [eval]. rewrite K6, app_nil_r. reflexivity. }
  assert (L6 : format c1 (str "#PBS -N {pbs_name}") = Ok (str "#PBS -N " ++ s_name s)).
  { apply (F [PL (str "#PBS -N "); PF (str "pbs_name")]); [reflexivity|]. cbn [eval]. rewrite K7, app_nil_r. reflexivity. }
  assert (L7 : format c1 (str "#PBS -j {std_out_err}") = Ok (str "#PBS -j " ++ default (str "oe") (s_join s))).
  { apply (F [PL (str "#PBS -j "); PF (str "std_out_err")]); [reflexivity|]. cbn [eval]. rewrite K9, app_nil_r. reflexivity. }
  assert (L8 : format c1 (str "#PBS -o {pbs_output_dir}/{job_name}.OU") = Ok (str "#PBS -o " ++ jobs ++ str "/" ++ job_name count ++ str ".OU")).
  { apply (F [PL (str "#PBS -o "); PF (str "pbs_output_dir"); PL (str "/"); PF (str "job_name"); PL (str ".OU")]); [reflexivity|]. cbn [eval]. rewrite B1, B2. reflexivity. }
  assert (L9 : format c1 (str "#PBS -e {pbs_output_dir}/{job_name}.ER") = Ok (str "#PBS -e " ++ jobs ++ str "/" ++ job_name count ++ str ".ER")).
  { apply (F [PL (str "#PBS -e "); PF (str "pbs_output_dir"); PL (str "/"); PF (str "job_name"); PL (str ".ER")]); [reflexivity|]. cbn [eval]. rewrite B1, B2. reflexivity. }
  assert (L10 : format c1 (str "{python} -m mlmc.tool.pbs_job {output_dir} {job_name} >{pbs_output_dir}/{job_name}_STDOUT 2>&1") =
    Ok (command_line (default (str "python3") (s_python s)) out jobs (job_name count))).
  { apply (F [PF (str "python"); PL (str " -m mlmc.tool.pbs_job "); PF (str "output_dir"); PL (str " "); PF (str "job_name"); PL (str " >");
              PF (str "pbs_output_dir"); PL (str "/"); PF (str "job_name"); PL (str "_STDOUT 2>&1")]); [reflexivity|].
    cbn [eval]. rewrite K8, B1, B2, B3. reflexivity. }
  unfold head_template, command_template. change (str "{python} -m mlmc.tool.pbs_job {output_dir} {job_name} >" ++ str "{pbs_output_dir}/{job_name}_STDOUT 2>&1")
    with (str "{python} -m mlmc.tool.pbs_job {output_dir} {job_name} >{pbs_output_dir}/{job_name}_STDOUT 2>&1").
  cbn [format_all]. rewrite L1, L2, L3, L4, L5, L6, L7, L8, L9, L10. reflexivity.
Qed.

Lemma names_job_inj job n1 n2 : names_job job n1 -> names_job job n2 -> n1 = n2.
Proof.
  intros (a & -> & Fa & _ & Va) (b & E & Fb & _ & Vb). subst. pose proof (numeral_map _ Fa) as Ha. pose proof (numeral_map _ Fb) as Hb. rewrite E in Ha. congruence.
Qed.
(** The lines with the output files differ between jobs, so no job writes to the output of another. *)
Theorem C154_jobs : forall kw s jobs out wd n1 n2 st s1 s2,
  gives kw s -> plain wd -> Forall plain (s_requests s) -> Forall plain (s_env s) -> n1 <> n2 ->
  pbs_common_setting wd kw = Ok st -> create_script jobs out wd n1 (Some st) = Ok s1 -> create_script jobs out wd n2 (Some st) = Ok s2 ->
  nth_error s1 7 <> nth_error s2 7 /\ nth_error s1 8 <> nth_error s2 8
  /\ nth_error s1 (length s1 - 1) <> nth_error s2 (length s2 - 1) /\ (forall i, i < 7 -> nth_error s1 i = nth_error s2 i).
Proof.
  intros kw s jobs out wd n1 n2 st s1 s2 G Hw Hr He Hn E E1 E2.
  destruct (C154_script kw s jobs out wd n1 G Hw Hr He) as (st1 & j1 & F1 & J1 & R1).
  destruct (C154_script kw s jobs out wd n2 G Hw Hr He) as (st2 & j2 & F2 & J2 & R2).
  rewrite F1 in E. injection E as ->. rewrite F1 in F2. injection F2 as <-.
  rewrite E1 in R1. rewrite E2 in R2. injection R1 as ->. injection R2 as ->.
  assert (Hj : j1 <> j2) by (intros ->; apply Hn; eapply names_job_inj; eauto).
  assert (T : forall pre suf, pre ++ j1 ++ suf <> pre ++ j2 ++ suf).
  { intros pre suf X. apply app_inv_head in X. apply app_inv_tail in X. contradiction. }
  unfold expected_script. split; [|split; [|split]].
  - cbn [head_lines app nth_error]. intros X. injection X as X. apply app_inv_head in X. exact (T (str "/") (str ".OU") X).
  - cbn [head_lines app nth_error]. intros X. injection X as X. apply app_inv_head in X. exact (T (str "/") (str ".ER") X).
  - assert (Last : forall (a b c d : list pystr) (x : pystr), nth_error (a ++ b ++ c ++ d ++ [x]) (length (a ++ b ++ c ++ d ++ [x]) - 1) = Some x).
    { intros a b c d x. rewrite !app_assoc. rewrite app_length. cbn [length]. rewrite Nat.add_sub, nth_error_app2, Nat.sub_diag by lia. reflexivity. }
    rewrite !Last. intros X. apply (f_equal (fun o => match o with Some x => x | None => [] end)) in X. unfold command_line in X.
    apply app_inv_head in X. apply app_inv_head in X. apply app_inv_head in X. apply app_inv_head in X.
    destruct J1 as (d1 & -> & D1 & _ & V1). destruct J2 as (d2 & -> & D2 & _ & V2).
    assert (Sp : forall ds ds' r r', Forall (fun d => (d < 10)%N) ds -> Forall (fun d => (d < 10)%N) ds' ->
              map digit_char ds ++ " "%char :: r = map digit_char ds' ++ " "%char :: r' -> map digit_char ds = map digit_char ds').
    { intros ds. induction ds as [|x ds IH]; intros [|y ds'] r r' Fa Fb Y; cbn [map app] in Y |- *; auto.
      - exfalso. inversion Fb as [|? ? Hy]; subst. apply (f_equal (fun l => hd "a"%char l)) in Y. cbn [hd] in Y.
        pose proof (is_digit_char _ Hy) as Z. rewrite <- Y in Z. discriminate Z.
      - exfalso. inversion Fa as [|? ? Hy]; subst. apply (f_equal (fun l => hd "a"%char l)) in Y. cbn [hd] in Y.
        pose proof (is_digit_char _ Hy) as Z. rewrite Y in Z. discriminate Z.
      - inversion Fa; inversion Fb; subst. pose proof (f_equal (fun l => hd "a"%char l) Y) as Y1. pose proof (f_equal (@tl ascii) Y) as Y2. cbn [hd tl] in Y1, Y2.
        rewrite Y1. f_equal. eapply IH; eauto. }
    apply Hj. exact (Sp d1 d2 _ _ D1 D2 X).
  - intros i Hi. do 7 (destruct i as [|i]; [reflexivity|]). lia.
Qed.

(** ** C155 *)
Lemma create_script_eq jobs out wd count t c : create_script jobs out wd count (Some (t, c)) = format_all (job_config jobs out wd count c) t.
Proof. reflexivity. Qed.
Lemma format_all_user c h reqs m env l script : Forall plain reqs -> Forall plain env ->
  format_all c (h ++ reqs ++ [m] ++ env ++ [l]) = Ok script ->
  exists head middle last, length head = length h /\ script = head ++ reqs ++ [middle] ++ env ++ [last].
Proof.
  intros Hr He. rewrite !format_all_app, (format_all_plain c _ Hr), (format_all_plain c _ He).
  destruct (format_all c h) as [h'|] eqn:Eh; cbn [bind]; [|discriminate].
  destruct (format_all c [m]) as [m'|] eqn:Em; cbn [bind]; [|discriminate].
  destruct (format_all c [l]) as [l'|] eqn:El; cbn [bind]; [|discriminate].
  apply format_all_length in Eh, Em, El. cbn [length] in Em, El. intros E.
  destruct m' as [|m' [|? ?]]; try discriminate. destruct l' as [|l' [|? ?]]; try discriminate.
  exists h', m', l'. split; [exact Eh|]. injection E as <-. reflexivity.
Qed.
(** The lines of the user appear unchanged and in order if they contain no braces. *)
Theorem C155_partial : forall kw reqs env jobs out wd count st script,
  cget kw (str "optional_pbs_requests") = Some (VL reqs) -> cget kw (str "env_setting") = Some (VL env) ->
  Forall plain reqs -> Forall plain env ->
  pbs_common_setting wd kw = Ok st -> create_script jobs out wd count (Some st) = Ok script ->
  exists head middle last, length head = 9 /\ script = head ++ reqs ++ [middle] ++ env ++ [last].
Proof.
  intros kw reqs env jobs out wd count st script G1 G2 Hr He E1 E2. rewrite (setting_ok kw reqs env wd G1 G2) in E1.
  apply (f_equal (fun r => match r with Ok x => x | Err _ => st end)) in E1. subst st.
  rewrite create_script_eq in E2.
  exact (format_all_user (job_config jobs out wd count (complete kw)) head_template reqs _ env _ script Hr He E2).
Qed.

(** A user can get any line by writing each brace twice. *)
Definition escape (s : pystr) : pystr := flat_map (fun a => if nobrace a then [a] else [a; a]) s.
Theorem C155_escaped_partial : forall c s, format c (escape s) = Ok s.
Proof.
  intros c s. unfold format. induction s as [|a s IH]; [reflexivity|]. unfold escape. cbn [flat_map]. fold (escape s). unfold nobrace.
  destruct (Ascii.eqb_spec a "{") as [->|H1]; [|destruct (Ascii.eqb_spec a "}") as [->|H2]]; cbn [negb andb app format_].
  - change (Ascii.eqb "{" "{") with true. cbn [andb]. rewrite IH. reflexivity.
  - change (Ascii.eqb "}" "{") with false. change (Ascii.eqb "}" "}") with true. rewrite IH. reflexivity.
  - destruct (Ascii.eqb_spec a "{"); [contradiction|]. destruct (Ascii.eqb_spec a "}"); [contradiction|]. rewrite IH. reflexivity.
Qed.

Definition sample_settings (env : list pystr) : config :=
  [(str "n_nodes", VS (str "1")); (str "n_cores", VS (str "2")); (str "mem", VS (str "4gb")); (str "select_flags", VL [str "cgroups=cpuacct"; str "scratch=1gb"]);
   (str "walltime", VS (str "1:00:00")); (str "queue", VS (str "charon")); (str "pbs_name", VS (str "MLMC_test"));
   (str "optional_pbs_requests", VL [str "#PBS -m ae"]); (str "env_setting", VL env)].
(** An environment line with a shell variable in braces makes every submission raise a KeyError; a line with the braces of a
    known name is changed silently. *)
Theorem C155_refuted :
  (exists kw wd st line, cget kw (str "env_setting") = Some (VL [line]) /\ pbs_common_setting wd kw = Ok st
     /\ forall jobs out count, create_script jobs out wd count (Some st) = Err KeyError)
  /\ (exists kw wd st line script, cget kw (str "env_setting") = Some (VL [line]) /\ pbs_common_setting wd kw = Ok st
     /\ create_script (str "/w/output/jobs") (str "/w/output") wd 0 (Some st) = Ok script /\ ~ In line script).
Proof.
  split.
  - exists (sample_settings [str "export PATH=${HOME}/bin:$PATH"]), (str "/w"). eexists. eexists. split; [reflexivity|]. split; [reflexivity|].
    intros jobs out count. unfold create_script. cbn [app items]. generalize (job_name count). intros j.
    vm_compute. reflexivity.
  - exists (sample_settings [str "cp ${queue} x"]), (str "/w"). eexists. eexists. eexists. split; [reflexivity|]. split; [reflexivity|].
    split; [vm_compute; reflexivity|]. intros X. vm_compute in X. repeat destruct X as [X|X]; try discriminate X; exact X.
Qed.

(** ** C156 *)
(** A word of letters, digits and / . _ -: the shell gives it to the program unchanged. *)
Definition safe_char (a : ascii) : Prop :=
  let n := N_of_ascii a in (97 <= n <= 122 \/ 65 <= n <= 90 \/ 45 <= n <= 57 \/ n = 95)%N.
Definition safe_word (s : pystr) : Prop := s <> [] /\ Forall safe_char s.

Lemma safe_not_blank a : safe_char a -> Ascii.eqb a " " = false.
Proof. intros H. destruct (Ascii.eqb_spec a " ") as [->|]; [|reflexivity]. exfalso. unfold safe_char in H. cbn in H. lia. Qed.
Lemma safe_not_redirect a : safe_char a -> Ascii.eqb a ">" = false.
Proof. intros H. destruct (Ascii.eqb_spec a ">") as [->|]; [|reflexivity]. exfalso. unfold safe_char in H. cbn in H. lia. Qed.
Lemma words_safe w acc rest : Forall safe_char w -> rev acc ++ w <> [] -> words_ acc (w ++ " "%char :: rest) = (rev acc ++ w) :: words rest.
Proof.
  revert acc. induction w as [|a w IH]; intros acc H N.
  - rewrite app_nil_r in *. cbn [app words_]. change (Ascii.eqb " " " ") with true. cbn iota. destruct acc; [contradiction N; reflexivity|]. reflexivity.
  - inversion H; subst. cbn [app words_]. rewrite safe_not_blank by auto. rewrite IH; auto; cbn [rev]; rewrite <- app_assoc; auto.
Qed.
Lemma words_word w rest : safe_word w -> words (w ++ " "%char :: rest) = w :: words rest.
Proof. intros (N & H). unfold words at 1. rewrite words_safe; auto. Qed.
Lemma words_redirect rest : exists w ws, words (">"%char :: rest) = (">"%char :: w) :: ws.
Proof.
  unfold words. cbn [words_]. change (Ascii.eqb ">" " ") with false. cbn iota.
  assert (X : forall rest acc, exists w ws, words_ (acc ++ [">"%char]) rest = (">"%char :: w) :: ws).
  { induction rest0 as [|a r IH]; intros acc; cbn [words_].
    - exists (rev acc), []. destruct acc; [reflexivity|]. cbn [app]. rewrite app_comm_cons, rev_app_distr. reflexivity.
    - destruct (Ascii.eqb a " ").
      + exists (rev acc), (words_ [] r). destruct acc; [reflexivity|]. cbn [app]. rewrite app_comm_cons, rev_app_distr. reflexivity.
      + exact (IH (a :: acc)). }
  exact (X rest []).
Qed.
Lemma until_safe w l : safe_word w -> until_redirection (w :: l) = w :: until_redirection l.
Proof. intros (N & H). destruct w as [|a w]; [congruence|]. inversion H; subst. cbn [until_redirection]. rewrite safe_not_redirect; auto. Qed.
Lemma digits_safe ds : Forall (fun d => (d < 10)%N) ds -> Forall safe_char (map digit_char ds).
Proof.
  induction 1 as [|d ds H _ IH]; [constructor|]. cbn [map]. constructor; auto. revert d H. apply digit_lt10; right; right; left; cbn; lia.
Qed.

(** The worker of a submitted job finds the directory and the number of the job it was submitted for. *)
Theorem C156_partial : forall kw s jobs out wd count st script,
  gives kw s -> plain wd -> Forall plain (s_requests s) -> Forall plain (s_env s) ->
  safe_word out -> safe_word (default (str "python3") (s_python s)) -> s_python s <> Some (str "-m") ->
  pbs_common_setting wd kw = Ok st -> create_script jobs out wd count (Some st) = Ok script ->
  exists line job, nth_error script (length script - 1) = Some line /\ names_job job count /\ command_params line = Ok (job, out).
Proof.
  intros kw s jobs out wd count st script G Hw Hr He Ho Hp Hm E E1.
  destruct (C154_script kw s jobs out wd count G Hw Hr He) as (st1 & j1 & F1 & J1 & R1).
  rewrite F1 in E. injection E as ->. rewrite E1 in R1. injection R1 as ->.
  exists (command_line (default (str "python3") (s_python s)) out jobs j1), j1. split; [|split; [exact J1|]].
  - unfold expected_script. rewrite !app_assoc. rewrite app_length. cbn [length]. rewrite Nat.add_sub, nth_error_app2, Nat.sub_diag by lia. reflexivity.
  - assert (Hj : safe_word j1).
    { destruct J1 as (ds & -> & D & L & _). split; [|apply digits_safe; auto]. destruct ds; [cbn in L; lia|discriminate]. }
    unfold command_params, argv, command_line.
    change (str " -m mlmc.tool.pbs_job " ++ out ++ str " " ++ j1 ++ str " >" ++ jobs ++ str "/" ++ j1 ++ str "_STDOUT 2>&1")
      with (" "%char :: (str "-m" ++ " "%char :: (str "mlmc.tool.pbs_job" ++ " "%char :: (out ++ " "%char :: (j1 ++ " "%char :: (">"%char :: jobs ++ str "/" ++ j1 ++ str "_STDOUT 2>&1")))))).
    rewrite words_word by exact Hp.
    assert (S1 : safe_word (str "-m")) by (split; [discriminate|]; repeat (apply Forall_cons; [unfold safe_char; cbn; lia|]); apply Forall_nil).
    assert (S2 : safe_word (str "mlmc.tool.pbs_job")) by (split; [discriminate|]; repeat (apply Forall_cons; [unfold safe_char; cbn; lia|]); apply Forall_nil).
    rewrite (words_word _ _ S1), (words_word _ _ S2), (words_word _ _ Ho), (words_word _ _ Hj).
    cbn [argv_]. destruct (pystr_eq_dec (default (str "python3") (s_python s)) (str "-m")) as [X|_].
    { exfalso. destruct (s_python s); cbn [default] in X; [subst; congruence|discriminate X]. }
    cbn [argv_]. destruct (pystr_eq_dec (str "-m") (str "-m")) as [_|X]; [|congruence].
    destruct (words_redirect (jobs ++ str "/" ++ j1 ++ str "_STDOUT 2>&1")) as (w & ws & ->).
    rewrite !until_safe by assumption. reflexivity.
Qed.

(** With a blank in the path of the working directory the worker gets another directory and another job. *)
Theorem C156_refuted : exists kw s jobs out wd st script line params,
  gives kw s /\ plain wd /\ Forall plain (s_requests s) /\ Forall plain (s_env s)
  /\ pbs_common_setting wd kw = Ok st /\ create_script jobs out wd 3 (Some st) = Ok script
  /\ nth_error script (length script - 1) = Some line /\ command_params line = Ok params
  /\ snd params <> out /\ ~ names_job (fst params) 3.
Proof.
  exists (sample_settings [str "module load python"]),
    {| s_nodes := str "1"; s_cores := str "2"; s_mem := str "4gb"; s_flags := Some [str "cgroups=cpuacct"; str "scratch=1gb"]; s_walltime := str "1:00:00";
       s_queue := str "charon"; s_name := str "MLMC_test"; s_python := None; s_join := None; s_requests := [str "#PBS -m ae"]; s_env := [str "module load python"] |},
    (str "/home/u/my work/output/jobs"), (str "/home/u/my work/output"), (str "/home/u/my work").
  eexists. eexists. eexists. exists (str "work/output", str "/home/u/my").
  assert (P : forall t, forallb nobrace t = true -> plain t) by (intros t; apply plain_forallb).
  split; [unfold gives; do 10 (split; [reflexivity|]); reflexivity|].
  split; [apply P; reflexivity|]. split; [repeat (constructor; [apply P; reflexivity|]); constructor|].
  split; [repeat (constructor; [apply P; reflexivity|]); constructor|].
  split; [reflexivity|]. split; [vm_compute; reflexivity|]. split; [vm_compute; reflexivity|]. split; [vm_compute; reflexivity|].
  split; [intros X; discriminate X|]. intros (ds & X & F & _). cbn [fst] in X. destruct ds as [|d ds]; [discriminate X|].
  inversion F as [|? ? Hd]; subst. apply (f_equal (fun l => hd "a"%char l)) in X. cbn [map hd] in X.
  pose proof (is_digit_char _ Hd) as Z. rewrite <- X in Z. discriminate Z.
Qed.

(** ** Examples *)
Example C154_example :
  match pbs_common_setting (str "/w") (sample_settings [str "module load python"]) with
  | Ok st => create_script (str "/w/output/jobs") (str "/w/output") (str "/w") 12 (Some st)
  | Err e => Err e
  end = Ok [str "#!/bin/bash"; str "#PBS -S /bin/bash"; str "#PBS -l select=1:ncpus=2:mem=4gb:cgroups=cpuacct:scratch=1gb"; str "#PBS -l walltime=1:00:00";
            str "#PBS -q charon"; str "#PBS -N MLMC_test"; str "#PBS -j oe"; str "#PBS -o /w/output/jobs/0012.OU"; str "#PBS -e /w/output/jobs/0012.ER";
            str "#PBS -m ae"; str "MLMC_WORKDIR=" ++ quote ++ str "/w" ++ quote; str "module load python";
            str "python3 -m mlmc.tool.pbs_job /w/output 0012 >/w/output/jobs/0012_STDOUT 2>&1"].
Proof. vm_compute. reflexivity. Qed.
Example C155_example : format [] (str "export PATH=${{HOME}}/bin") = Ok (str "export PATH=${HOME}/bin") /\ escape (str "${HOME}") = str "${{HOME}}".
Proof. split; vm_compute; reflexivity. Qed.
Example C156_example : command_params (str "python3 -m mlmc.tool.pbs_job /w/output 0012 >/w/output/jobs/0012_STDOUT 2>&1") = Ok (str "0012", str "/w/output").
Proof. vm_compute. reflexivity. Qed.

Print Assumptions C154_script.
Print Assumptions C154_jobs.
Print Assumptions C155_partial.
Print Assumptions C155_escaped_partial.
Print Assumptions C155_refuted.
Print Assumptions C156_partial.
Print Assumptions C156_refuted.
