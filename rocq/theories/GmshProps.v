(** Mesh and field files: C60, C95, C96. *)
From Verif Require Import Base BaseFacts FieldModel GmshModel GmshProofs GmshSpec.

Section Proofs.
Context {V : Type}.
Variable show : V -> pystr.
Variable rd : pystr -> option V.
Variable t0 : V.
Hypothesis FT : float_text show rd t0.

Lemma ft_word x : word (show x).
Proof. destruct FT as [H _]. destruct (H x) as [A [B _]]. split; assumption. Qed.
Lemma ft_rd x : rd (show x) = Some x.
Proof. destruct FT as [H _]. apply H. Qed.
Lemma ft_zero : rd (show_int 0) = Some t0.
Proof. apply FT. Qed.
Lemma ft_version : exists v0, rd (str "2.2") = Some v0.
Proof. destruct FT as [_ [_ H]]. destruct (rd (str "2.2")) as [v|]; [exists v; reflexivity|congruence]. Qed.

Lemma clean_int z : clean (show_int z).
Proof. apply word_clean. apply show_int_word. Qed.
Lemma clean_num x : clean (show x).
Proof. apply word_clean. apply ft_word. Qed.
Lemma clean_all {A} (f : A -> pystr) l : (forall a, In a l -> clean (f a)) -> Forall clean (map f l).
Proof. intros H. apply Forall_forall. intros x Hx. apply in_map_iff in Hx as [a [<- Ha]]. auto. Qed.
Lemma clean_quoted n : clean n -> clean (quoted n).
Proof. intros H c [<-|Hc]; [split; discriminate|]. apply in_app_or in Hc as [Hc|[<-|[]]]; [auto|split; discriminate]. Qed.
Lemma clean_row z (xs : list V) : clean (show_int z ++ sp ++ join sp (map show xs)).
Proof. repeat apply clean_app; auto using clean_int, clean_sp. apply clean_join, clean_all. intros; apply clean_num. Qed.
Lemma clean_str (s : string) : forallb (fun c => negb (Ascii.eqb c nl) && negb (Ascii.eqb c cr)) (str s) = true -> clean (str s).
Proof.
  intros H c Hc. rewrite forallb_forall in H. apply H in Hc. apply andb_prop in Hc as [A B]. apply negb_true_iff in A. apply negb_true_iff in B.
  split; apply Ascii.eqb_neq; assumption.
Qed.
Lemma clean_format : Forall clean format_lines.
Proof. unfold format_lines. repeat (apply Forall_cons; [apply clean_str; reflexivity|]). apply Forall_nil. Qed.
Lemma clean_element p : clean (element_line p).
Proof.
  destruct p as [id [[ty tags] nds]]. unfold element_line.
  repeat apply clean_app; auto using clean_int, clean_sp; apply clean_join, clean_all; intros; apply clean_int.
Qed.

Lemma fold_physical ps : forall s : @rstate V, fold_left (fun s p => put_physical p s) ps s
  = mkR (mkMesh (nodes (msh s)) (elements (msh s)) (psets (map (fun p => (quoted (fst p), snd p)) ps) (physical (msh s))) (element_data (msh s))) (mode s) (ftype s) (cur s).
Proof. induction ps as [|p ps IH]; intros s; [destruct s as [[? ? ? ?] ? ? ?]; reflexivity|]. cbn [fold_left]. rewrite IH. reflexivity. Qed.
Lemma fold_nodes ps : forall s : @rstate V, fold_left (fun s p => put_node p s) ps s
  = mkR (mkMesh (zsets ps (nodes (msh s))) (elements (msh s)) (physical (msh s)) (element_data (msh s))) (mode s) (ftype s) (cur s).
Proof. induction ps as [|p ps IH]; intros s; [destruct s as [[? ? ? ?] ? ? ?]; reflexivity|]. cbn [fold_left]. rewrite IH. reflexivity. Qed.
Lemma fold_elements ps : forall s : @rstate V, fold_left (fun s p => put_element p s) ps s
  = mkR (mkMesh (nodes (msh s)) (zsets ps (elements (msh s))) (physical (msh s)) (element_data (msh s))) (mode s) (ftype s) (cur s).
Proof. induction ps as [|p ps IH]; intros s; [destruct s as [[? ? ? ?] ? ? ?]; reflexivity|]. cbn [fold_left]. rewrite IH. reflexivity. Qed.

Lemma quoted_inj a b : quoted a = quoted b -> a = b.
Proof. unfold quoted. intros H. injection H as H. apply app_inv_tail in H. exact H. Qed.
Lemma pget_quoted {A} (ps : list (pystr * A)) n : pget (map (fun p => (quoted (fst p), snd p)) ps) (quoted n) = pget ps n.
Proof.
  induction ps as [|[k v] ps IH]; [reflexivity|]. cbn [map pget fst snd]. rewrite IH.
  destruct (pystr_eq_dec (quoted n) (quoted k)) as [E|E], (pystr_eq_dec n k) as [E'|E']; auto; [apply quoted_inj in E; congruence|congruence].
Qed.
Lemma pget_quoted_some {A} (ps : list (pystr * A)) n : pget (map (fun p => (quoted (fst p), snd p)) ps) n <> None -> exists n0, n = quoted n0.
Proof.
  induction ps as [|[k v] ps IH]; cbn [map pget fst snd]; [congruence|]. destruct (pystr_eq_dec n (quoted k)); [intros _; exists k; assumption|exact IH].
Qed.
Lemma nodup_quoted {A} (ps : list (pystr * A)) : NoDup (map fst ps) -> NoDup (map fst (map (fun p => (quoted (fst p), snd p)) ps)).
Proof.
  induction ps as [|[k v] ps IH]; cbn; intros H; [constructor|]. inversion H; subst. constructor; [|auto].
  intros Hin. rewrite map_map in Hin. cbn in Hin. apply in_map_iff in Hin as [[k' v'] [E Hin]]. cbn in E. apply quoted_inj in E. subst k'.
  apply H2. change k with (fst (k, v')). apply in_map. exact Hin.
Qed.
Lemma reads_section t k (s : @rstate V) : strip is_space (str t) = str t -> str t <> [] ->
  (forall rest, step rd (str t) rest s = Ok (set_mode s k, rest)) -> reads rd [str t] s (set_mode s k).
Proof. intros A B C. apply reads_step; rewrite A; assumption. Qed.

Lemma write_read m : is_mesh m -> plain_nodes m -> plain_elements m -> plain_names m ->
  exists m', read rd empty_mesh (write_ascii show m) = Ok m' /\ same_nodes m m' /\ same_elements m m' /\ quoted_physical m m' /\ element_data m' = [].
Proof.
  intros [ND1 [ND2 ND3]] PN PE PP. destruct ft_version as [v0 Hv].
  set (ps := sort_by (fun a b => str_leb (fst a) (fst b)) (physical m)).
  set (ns := sort_by (fun a b => (fst a <=? fst b)%Z) (nodes m)).
  set (es := sort_by (fun a b => (fst a <=? fst b)%Z) (elements m)).
  assert (Pp : Permutation ps (physical m)) by apply sort_perm.
  assert (Pn : Permutation ns (nodes m)) by apply sort_perm.
  assert (Pe : Permutation es (elements m)) by apply sort_perm.
  assert (Dp : NoDup (map fst ps)) by (apply (Permutation_NoDup (Permutation_map fst (Permutation_sym Pp)) ND3)).
  assert (Dn : NoDup (map fst ns)) by (apply (Permutation_NoDup (Permutation_map fst (Permutation_sym Pn)) ND1)).
  assert (De : NoDup (map fst es)) by (apply (Permutation_NoDup (Permutation_map fst (Permutation_sym Pe)) ND2)).
  assert (Fp : Forall (fun p => forall c, In c (fst p) -> is_space c = false) ps) by (apply (Permutation_Forall (Permutation_sym Pp) PP)).
  assert (Fn : Forall (fun p => length (snd p) = 3) ns) by (apply (Permutation_Forall (Permutation_sym Pn) PN)).
  assert (Fe : Forall (fun p : Z * element => let '(_, tags, nds) := snd p in 3 <= length tags + length nds) es) by (apply (Permutation_Forall (Permutation_sym Pe) PE)).
  set (qs := map (fun p => (quoted (fst p), snd p)) ps).
  set (m' := mkMesh (zsets ns []) (zsets es []) (psets qs []) []).
  exists m'. split.
  2:{ unfold m'. split; [|split; [|split; [|reflexivity]]].
      - intros k. cbn. rewrite zget_zsets by exact Dn. rewrite (zget_perm _ _ Pn Dn). cbn. destruct (zget (nodes m) k); reflexivity.
      - intros k. cbn. rewrite zget_zsets by exact De. rewrite (zget_perm _ _ Pe De). cbn. destruct (zget (elements m) k); reflexivity.
      - split.
        + intros n. cbn. change (""""%char :: n ++ [""""%char]) with (quoted n). rewrite pget_psets by (apply nodup_quoted; exact Dp). unfold qs. rewrite pget_quoted.
          rewrite (pget_perm _ _ Pp Dp). destruct (pget (physical m) n); reflexivity.
        + intros n. cbn. rewrite pget_psets by (apply nodup_quoted; exact Dp). intros H. apply (pget_quoted_some ps). fold qs. destruct (pget qs n); [discriminate|cbn in H; congruence]. }
  change m' with (msh (mkR m' 0 (Some 0%Z) ([], 0%Z, 0%Z))). unfold write_ascii. fold ps ns es. apply read_reads; [| |reflexivity].
  { repeat (apply Forall_app; split).
    - apply clean_format.
    - constructor; [apply clean_str; reflexivity|]. constructor; [apply clean_int|constructor].
    - apply clean_all. intros [n [i d]] H. rewrite Forall_forall in Fp. pose proof (Fp _ H) as H0. cbn in H0. unfold physical_line.
      repeat apply clean_app; auto using clean_int, clean_sp. apply clean_quoted, word_clean. exact H0.
    - constructor; [apply clean_str; reflexivity|]. constructor; [apply clean_str; reflexivity|]. constructor; [apply clean_int|constructor].
    - apply clean_all. intros [i xs] _. apply clean_row.
    - constructor; [apply clean_str; reflexivity|]. constructor; [apply clean_str; reflexivity|]. constructor; [apply clean_int|constructor].
    - apply clean_all. intros; apply clean_element.
    - constructor; [apply clean_str; reflexivity|constructor]. }
  eapply reads_app; [apply (reads_format rd v0 Hv)|]. cbn [msh cur].
  (* physical names *)
  eapply reads_app.
  { change [str "$PhysicalNames"; count (physical m)] with ([str "$PhysicalNames"] ++ [count (physical m)]).
    eapply reads_app; [apply (reads_section "$PhysicalNames" 5); [reflexivity|discriminate|reflexivity]|]. apply reads_count; [cbn; auto|reflexivity]. }
  eapply reads_app.
  { apply (reads_map rd physical_line put_physical (at_mode 5) _ ps (fun a s Qa Ps => reads_physical rd a s Qa Ps) Fp). split; reflexivity. }
  rewrite fold_physical. fold qs. cbn [set_mode msh mode ftype cur nodes elements physical element_data empty_mesh].
  (* nodes *)
  eapply reads_app.
  { change [str "$EndPhysicalNames"; str "$Nodes"; count (nodes m)] with ([str "$EndPhysicalNames"] ++ [str "$Nodes"] ++ [count (nodes m)]).
    eapply reads_app; [apply (reads_section "$EndPhysicalNames" 0); [reflexivity|discriminate|reflexivity]|].
    eapply reads_app; [apply (reads_section "$Nodes" 1); [reflexivity|discriminate|reflexivity]|]. apply reads_count; [cbn; auto|reflexivity]. }
  eapply reads_app.
  { apply (reads_map rd (node_line show) put_node (at_mode 1) _ ns (fun a s Qa Ps => reads_node show rd ft_word ft_rd a s Qa Ps) Fn). split; reflexivity. }
  rewrite fold_nodes. cbn [set_mode msh mode ftype cur nodes elements physical element_data empty_mesh].
  (* elements *)
  eapply reads_app.
  { change [str "$EndNodes"; str "$Elements"; count (elements m)] with ([str "$EndNodes"] ++ [str "$Elements"] ++ [count (elements m)]).
    eapply reads_app; [apply (reads_section "$EndNodes" 0); [reflexivity|discriminate|reflexivity]|].
    eapply reads_app; [apply (reads_section "$Elements" 3); [reflexivity|discriminate|reflexivity]|]. apply reads_count; [cbn; auto|reflexivity]. }
  eapply reads_app.
  { apply (reads_map rd element_line put_element (at_mode 3) _ es (fun a s Qa Ps => reads_element rd a s Qa Ps) Fe). split; reflexivity. }
  rewrite fold_elements. cbn [set_mode msh mode ftype cur nodes elements physical element_data empty_mesh]. apply (reads_section "$EndElements" 0); [reflexivity|discriminate|reflexivity].
Qed.

Lemma zget_combine {A} (ids : list Z) : NoDup ids -> forall (vs : list A) i id, length vs = length ids -> nth_error ids i = Some id ->
  zget (combine ids vs) id = nth_error vs i.
Proof.
  induction 1 as [|x ids Hx _ IH]; intros vs i id L H; [destruct i; discriminate|]. destruct vs as [|v vs]; [discriminate|]. cbn in L. cbn [combine zget].
  destruct i as [|i]; cbn in H.
  - injection H as <-. rewrite Z.eqb_refl. reflexivity.
  - destruct (Z.eqb_spec id x) as [->|]; [exfalso; apply Hx; eapply nth_error_In; exact H|]. cbn. apply IH; [lia|exact H].
Qed.
Lemma map_fst_combine {A} (ids : list Z) : forall (vs : list A), length vs = length ids -> map fst (combine ids vs) = ids.
Proof. induction ids as [|x ids IH]; intros [|v vs] L; try discriminate; [reflexivity|]. cbn in *. rewrite IH by lia. reflexivity. Qed.
Lemma field_lines_ok ids fields : ids <> [] -> Forall (fun f => length (snd f) = length ids) fields -> exists ls, field_lines show ids fields = Ok ls.
Proof.
  intros Hi. induction 1 as [|[n vs] fs H _ [ls IH]]; [exists []; reflexivity|]. cbn in *. destruct ids; [congruence|]. destruct vs; [discriminate|].
  cbn [write_element_data bind]. rewrite IH. eexists. reflexivity.
Qed.
Lemma field_lines_clean ids fields : Forall (fun f => clean (fst f)) fields -> forall ls, field_lines show ids fields = Ok ls -> Forall clean ls.
Proof.
  induction 1 as [|[n vs] fs H _ IH]; intros ls W; cbn [field_lines] in W; [injection W as <-; constructor|].
  destruct vs as [|r vs]; [discriminate|]. cbn [write_element_data bind] in W. destruct (field_lines show ids fs) as [b|]; [|discriminate]. cbn [bind] in W.
  apply (f_equal (fun r => match r with Ok x => x | Err _ => [] end)) in W. cbv beta iota in W. rewrite <- W. cbn [fst] in H. rewrite <- app_assoc. cbn [app].
  repeat (apply Forall_cons; [first [apply clean_int | apply clean_quoted; exact H | apply clean_str; reflexivity]|]).
  rewrite <- app_assoc. apply Forall_app. split; [|apply Forall_cons; [apply clean_str; reflexivity|apply IH; reflexivity]].
  apply clean_all. intros [i xs] _. apply clean_row.
Qed.
Lemma is_quote_neq c : c <> """"%char -> is_quote c = false.
Proof. intros H. apply Ascii.eqb_neq. exact H. Qed.

Lemma pget_map_snd {A B} (f : A -> B) (l : list (pystr * A)) n : pget (map (fun p => (fst p, f (snd p))) l) n = option_map f (pget l n).
Proof. induction l as [|[k v] l IH]; [reflexivity|]. cbn. rewrite IH. destruct (pystr_eq_dec n k); reflexivity. Qed.
Lemma pget_in {A} (l : list (pystr * A)) n v : pget l n = Some v -> In (n, v) l.
Proof. induction l as [|[k w] l IH]; [discriminate|]. cbn. destruct (pystr_eq_dec n k); [intros E; injection E as ->; subst; auto|auto]. Qed.

Lemma fields_read ids fields : is_fields ids fields -> Forall plain_field fields ->
  exists text m', write_fields show ids fields = Ok text /\ read rd empty_mesh text = Ok m' /\ same_fields t0 ids fields m' /\ nodes m' = [] /\ elements m' = [] /\ physical m' = [].
Proof.
  intros [NDi [Hi [NDf Ff]]] PF. destruct ft_version as [v0 Hv].
  destruct (field_lines_ok ids fields) as [ls W].
  { exact Hi. } { eapply Forall_impl; [|exact Ff]. intros f [L _]. exact L. }
  assert (H : Forall (fun f => no_outer_quotes (fst f) /\ exists n, n <= 4 /\ Forall (fun r => length r = n) (snd f)) fields).
  { rewrite Forall_forall in *. intros f Hf. destruct (PF f Hf) as [P4 [_ [Q1 Q2]]]. destruct (Ff f Hf) as [L [n Hn]]. split.
    - split; intros c Hc; apply is_quote_neq; auto.
    - exists n. split; [|exact Hn]. destruct (snd f) as [|r rs]; [destruct ids; [congruence|discriminate]|].
      inversion P4; subst. inversion Hn; subst. assumption. }
  unfold write_fields. rewrite W. cbn [bind].
  set (s0 := mkR empty_mesh 0 None ([], 0%Z, 0%Z) : @rstate V).
  set (s1 := mkR (msh s0) 0 (Some 0%Z) (cur s0) : @rstate V).
  destruct (reads_fields show rd ft_word ft_rd t0 ft_zero ids fields H NDf ls s1 W eq_refl) as [c R].
  { intros f Hf. reflexivity. } { reflexivity. }
  eexists. eexists. split; [reflexivity|]. split.
  { eapply read_reads; [| |].
    - apply Forall_app. split; [apply clean_format|]. apply (field_lines_clean ids fields); [|exact W].
      eapply Forall_impl; [|exact PF]. intros f [_ [Cl _]] c' Hc. apply Cl. exact Hc.
    - eapply reads_app; [apply (reads_format rd v0 Hv)|]. exact R.
    - reflexivity. }
  split; [|cbn; auto].
  pose (g := fun values : list (list V) => [(0%Z, (t0, zsets (combine ids values) []))]).
  change (same_fields t0 ids fields (mkMesh [] [] [] (psets (map (fun f : pystr * list (list V) => (fst f, g (snd f))) fields) []))).
  assert (ND : NoDup (map fst (map (fun f : pystr * list (list V) => (fst f, g (snd f))) fields))) by (rewrite map_map; exact NDf).
  split; cbn [element_data].
  - intros n values Hn. exists (zsets (combine ids values) []). rewrite pget_psets by exact ND. rewrite pget_map_snd, Hn. cbn [option_map]. split; [reflexivity|].
    apply pget_in in Hn. rewrite Forall_forall in Ff. destruct (Ff _ Hn) as [L _]. cbn in L.
    assert (NDc : NoDup (map fst (combine ids values))) by (rewrite map_fst_combine by exact L; exact NDi).
    split.
    + intros i id E. rewrite zget_zsets by exact NDc. rewrite (zget_combine ids NDi values i id L E).
      destruct (nth_error values i) eqn:E'; [reflexivity|]. reflexivity.
    + intros id E. rewrite zget_zsets by exact NDc. rewrite zget_none by (rewrite map_fst_combine by exact L; exact E). reflexivity.
  - intros n Hn. rewrite pget_psets by exact ND. rewrite pget_map_snd, Hn. reflexivity.
Qed.
End Proofs.

(** C95: a mesh with three coordinates a node, three tags and nodes an element at least, and names without white space is read back
    from its file, the names in quotes. *)
Theorem C95_mesh {V} (show : V -> pystr) rd t0 m : float_text show rd t0 -> is_mesh m -> plain_nodes m -> plain_elements m -> plain_names m ->
  exists m', read rd empty_mesh (write_ascii show m) = Ok m' /\ same_nodes m m' /\ same_elements m m' /\ quoted_physical m m' /\ element_data m' = [].
Proof. intros FT. apply (write_read show rd t0 FT). Qed.
Print Assumptions C95_mesh.
(** C95: fields with at most four components are read back. *)
Theorem C95_fields {V} (show : V -> pystr) rd t0 ids fields : float_text show rd t0 -> is_fields ids fields -> Forall plain_field fields ->
  exists text m', write_fields show ids fields = Ok text /\ read rd empty_mesh text = Ok m' /\ same_fields t0 ids fields m'
    /\ nodes m' = [] /\ elements m' = [] /\ physical m' = [].
Proof. intros FT. apply (fields_read show rd t0 FT). Qed.
Print Assumptions C95_fields.

(** C60 for meshes without names of physical groups. Missing: names, which come back with quotes added, elements with fewer numbers, fields
    with more components; see C60_refuted. *)
Theorem C60_partial {V} (show : V -> pystr) rd t0 m : float_text show rd t0 -> is_mesh m -> plain_nodes m -> plain_elements m -> physical m = [] ->
  exists m', read rd empty_mesh (write_ascii show m) = Ok m' /\ same_nodes m m' /\ same_elements m m' /\ same_physical m m'.
Proof.
  intros FT IM PN PE E. destruct (write_read show rd t0 FT m IM PN PE) as [m' [R [A [B [[C D] _]]]]].
  { unfold plain_names. rewrite E. constructor. }
  exists m'. repeat split; auto. intros n. rewrite E. cbn. destruct (pget (physical m') n) eqn:G; [|reflexivity].
  destruct (D n) as [n0 ->]; [congruence|]. rewrite C, E in G. discriminate.
Qed.
Print Assumptions C60_partial.

(** The state after the lines of a file so far, for the counterexample. *)
Lemma five_raise {V} (show : V -> pystr) rd t0 x : float_text show rd t0 -> read_int (show x) = None ->
  read rd empty_mesh (unlines (format_lines ++ [str "$ElementData"; str "1"; quoted (str "k"); str "1"; show_int 0; str "3"; show_int 0; show_int 5; show_int 1;
     value_line show (1%Z, [x; x; x; x; x]); str "$EndElementData"])) = Err NameError.
Proof.
  intros FT Hx. destruct (ft_version show rd t0 FT) as [v0 Hv].
  pose proof (ft_word show rd t0 FT) as W. pose proof (ft_rd show rd t0 FT) as Rd.
  unfold read. rewrite split_unlines.
  2:{ apply Forall_app. split; [apply clean_format|]. repeat (apply Forall_cons; [first [apply clean_int | apply clean_quoted, clean_str; reflexivity | apply clean_str; reflexivity | apply (clean_row show rd t0 FT)]|]). apply Forall_nil. }
  destruct (reads_format rd v0 Hv (mkR empty_mesh 0 None ([], 0%Z, 0%Z))) as [k [K R]]. cbn [msh cur] in R.
  rewrite !app_length. cbn [length]. rewrite <- app_assoc. cbn in K. 
  replace (S (length format_lines + 11 + 1)) with (k + S (S (14 - k))) by (change (length format_lines) with 3; lia). rewrite R. clear R.
  cbn [app]. cbn [read_loop readline]. change (strip is_space (str "$ElementData")) with (str "$ElementData").
  match goal with |- context [step rd (str "$ElementData") ?r ?s] => set (rest := r); set (s0 := s) end.
  assert (E : step rd (str "$ElementData") rest s0 = Ok (mkR (mkMesh [] [] [] [(str "k", [(0%Z, (t0, []))])]) 6 (Some 0%Z) (str "k", 0%Z, 5%Z),
     [value_line show (1%Z, [x; x; x; x; x]); str "$EndElementData"; []])).
  { change (step rd (str "$ElementData") rest s0) with (section_line rd (str "$ElementData") rest s0). unfold section_line.
    repeat match goal with |- context [pystr_eq_dec (str ?a) (str ?b)] =>
       first [ (assert (a = b) by reflexivity; destruct (pystr_eq_dec (str a) (str b)); [|congruence])
             | (destruct (pystr_eq_dec (str a) (str b)) as [X|_]; [vm_compute in X; discriminate X|]) ] end.
    cbn [orb]. unfold rest.
    pose proof (read_head_written rd t0 (ft_zero show rd t0 FT) (str "k") [x; x; x; x; x] [[x]]) as RH.
    change (count [x; x; x; x; x]) with (show_int 5) in RH. change (count [[x]]) with (show_int 1) in RH. rewrite RH.
    - reflexivity.
    - split; intros c Hc; injection Hc as <-; reflexivity. }
  rewrite E. cbn [bind]. change (str "$ElementData") with ("$"%char :: str "ElementData"). cbn [read_loop readline]. clear E rest s0.
  set (line := value_line show (1%Z, [x; x; x; x; x])). set (s := mkR _ 6 _ _).
  destruct (strip_first is_space "1"%char (sp ++ join sp (map show [x; x; x; x; x]))) as [t Et]; [reflexivity|].
  change ("1"%char :: sp ++ join sp (map show [x; x; x; x; x])) with line in Et.
  assert (D : data_line rd (strip is_space line) s = Err NameError).
  { unfold data_line. rewrite split_strip. unfold line, value_line. cbn [fst snd]. rewrite split_cons by apply show_int_word.
    rewrite split_join by (apply Forall_forall; intros y Hy; apply in_map_iff in Hy as [z [<- _]]; apply W).
    cbn [map s mode Nat.eqb data_row bind]. rewrite read_show_int. cbn [need bind all_some]. rewrite Rd. cbn.
    unfold element_row. cbn [map all_some]. rewrite Hx. destruct (read_int _); reflexivity. }
  unfold step. revert D. rewrite Et. intros D. cbn [dollar]. change (Ascii.eqb "1" "$") with false. cbn [mode s Nat.eqb]. fold s. rewrite D. reflexivity.
Qed.
(** C60 is false, whatever way numbers are written: a mesh with a group called "a" comes back with that name in quotes; and if numbers are
    not written as integers, a field with five components cannot be read. *)
Theorem C60_refuted {V} (show : V -> pystr) rd t0 : float_text show rd t0 ->
  (exists m m', is_mesh m /\ read rd empty_mesh (write_ascii show m) = Ok m' /\ ~ same_physical m m')
  /\ forall x, read_int (show x) = None ->
     exists ids fields text, is_fields ids fields /\ write_fields show ids fields = Ok text /\ read rd empty_mesh text = Err NameError.
Proof.
  intros FT. split.
  - set (m := mkMesh [] [] [(str "a", (1%Z, 2%Z))] [] : @mesh V).
    destruct (write_read show rd t0 FT m) as [m' [R [_ [_ [[_ D] _]]]]].
    + repeat split; cbn; repeat constructor; cbn; tauto.
    + constructor.
    + constructor.
    + constructor; [|constructor]. cbn. intros c [<-|[]]. reflexivity.
    + exists m, m'. split; [repeat split; cbn; repeat constructor; cbn; tauto|]. split; [exact R|]. intros Sm. specialize (Sm (str "a")).
      change (pget (physical m) (str "a")) with (Some (1%Z, 2%Z)) in Sm. destruct (D (str "a")) as [n0 E]; [congruence|]. discriminate E.
  - intros x Hx. exists [1%Z], [(str "k", [[x; x; x; x; x]])]. eexists. split; [|split; [reflexivity|]].
    + split; [repeat constructor; cbn; tauto|]. split; [discriminate|]. split; [repeat constructor; cbn; tauto|].
      constructor; [|constructor]. split; [reflexivity|]. exists 5. repeat constructor.
    + apply (five_raise show rd t0 x FT Hx).
Qed.
Print Assumptions C60_refuted.
Corollary C60_refuted_full {V} (show : V -> pystr) rd t0 : float_text show rd t0 -> ~ mesh_files show rd.
Proof.
  intros FT H. destruct (C60_refuted show rd t0 FT) as [[m [m' [A [B C]]]] _]. destruct (H m A) as [m2 [R [_ [_ D]]]]. rewrite B in R. injection R as ->. auto.
Qed.

(** ** Every text is read: the number of lines is enough for [read]. *)
Lemma readline_length ls l r : readline ls = (l, r) -> length r <= length ls.
Proof. destruct ls; cbn; intros H; injection H as <- <-; cbn; lia. Qed.
Lemma head_int_total ls : match head_int ls with Ok (_, r) => length r <= length ls | Err e => e <> PyException end.
Proof.
  unfold head_int. destruct (readline ls) as [l r] eqn:E. apply readline_length in E. destruct (split _) as [|c cs]; [discriminate|].
  destruct (read_int c); cbn; [exact E|discriminate].
Qed.
Lemma head_float_total {V} (rd : pystr -> option V) ls : match head_float rd ls with Ok (_, r) => length r <= length ls | Err e => e <> PyException end.
Proof.
  unfold head_float. destruct (readline ls) as [l r] eqn:E. apply readline_length in E. destruct (split _) as [|c cs]; [discriminate|].
  destruct (rd c); cbn; [exact E|discriminate].
Qed.
Lemma read_head_total {V} (rd : pystr -> option V) ls : match read_head rd ls with Ok (_, r) => length r <= length ls | Err e => e <> PyException end.
Proof.
  unfold read_head.
  repeat match goal with
  | |- context [bind (head_int ?l) _] => pose proof (head_int_total l); destruct (head_int l) as [[? ?]|]; cbn [bind]; [|assumption]
  | |- context [bind (head_float rd ?l) _] => pose proof (head_float_total rd l); destruct (head_float rd l) as [[? ?]|]; cbn [bind]; [|assumption]
  | |- context [negb ?b] => destruct b; cbn [negb]; [|discriminate]
  | |- context [readline ?l] => let E := fresh in destruct (readline l) eqn:E; apply readline_length in E
  end. lia.
Qed.
Lemma section_total {V} (rd : pystr -> option V) line ls s : match section_line rd line ls s with Ok (_, r) => length r <= length ls | Err e => e <> PyException end.
Proof.
  unfold section_line. repeat match goal with |- context [pystr_eq_dec line ?x] => destruct (pystr_eq_dec line x); cbn [orb]; try lia end.
  pose proof (read_head_total rd ls) as H. destruct (read_head rd ls) as [[[[[fa ta] ia] na] ra]|]; cbn [bind]; [|exact H].
  match goal with |- context [zget ?t ?i] => destruct (zget t i) end; [discriminate|exact H].
Qed.
Lemma row_total {V} (rd : pystr -> option V) line s : data_line rd line s <> Err PyException.
Proof.
  assert (B : forall A B (r : res A) (k : A -> res B), r <> Err PyException -> (forall a, k a <> Err PyException) -> bind r k <> Err PyException).
  { intros A B [a|e] k H1 H2; cbn; [apply H2|congruence]. }
  assert (N : forall A (o : option A) e, e <> PyException -> need o e <> Err PyException) by (intros A [a|] e H; cbn; congruence).
  unfold data_line. apply B; [|intros s1; apply B; [|intros s2; apply B; [|intros s3]]].
  - destruct (Nat.eqb _ _); [|discriminate]. unfold data_row. destruct (split line); [discriminate|]. apply B; [apply N; discriminate|]. intros z.
    apply B; [apply N; discriminate|]. intros row. destruct (cur s) as [[? ?] ?]. destruct (negb _); discriminate.
  - destruct (Nat.eqb _ _); [|discriminate]. unfold physical_row. destruct (split line) as [|a [|b [|c [|d l]]]]; try discriminate.
    apply B; [apply N; discriminate|]. intros z. apply B; [apply N; discriminate|]. discriminate.
  - destruct (Nat.eqb _ _); [|discriminate]. unfold format_row. destruct (split line) as [|a [|b [|c [|d l]]]]; try discriminate.
    apply B; [apply N; discriminate|]. intros z. apply B; [apply N; discriminate|]. intros ft. apply B; [apply N; discriminate|]. intros _.
    destruct (_ && _)%bool; discriminate.
  - destruct (Nat.eqb _ 1).
    + unfold node_row. destruct (ftype s3); [|discriminate]. destruct (_ && _)%bool.
      * destruct (split line); [discriminate|]. destruct (read_int p); [destruct (all_some (map rd l)); discriminate|discriminate].
      * destruct (_ =? _)%Z; discriminate.
    + destruct (ftype s3); [|discriminate]. destruct (_ && _ && _)%bool.
      * unfold element_row. destruct (all_some (map read_int (split line))) as [ns|]; [|discriminate]. destruct ns as [|a [|b l]]; try discriminate. apply B.
        -- destruct (Nat.eqb _ _); [discriminate|]. destruct (nth_error _ _); discriminate.
        -- intros [? ?]; discriminate.
      * destruct (_ && _)%bool; discriminate.
Qed.
Lemma loop_total {V} (rd : pystr -> option V) fuel : forall ls s, length ls < fuel -> read_loop rd fuel ls s <> Err PyException.
Proof.
  induction fuel as [|fuel IH]; intros ls s H; [lia|]. cbn [read_loop].
  assert (T : forall line rest, match step rd line rest s with Ok (_, r) => length r <= length rest | Err e => e <> PyException end).
  { intros line rest. unfold step. destruct (dollar line); [apply section_total|]. destruct (Nat.eqb _ _); [lia|].
    pose proof (row_total rd line s) as R. destruct (data_line rd line s); cbn; [lia|congruence]. }
  destruct ls as [|l ls]; cbn [readline].
  - change (strip is_space []) with (@nil ascii). specialize (T [] []). destruct (step rd [] [] s) as [[s' r]|e]; cbn; congruence.
  - specialize (T (strip is_space l) ls). destruct (step rd _ ls s) as [[s' r]|e]; cbn [bind]; [|congruence].
    destruct (strip is_space l); [discriminate|]. apply IH. cbn in H. lia.
Qed.
Theorem read_total {V} (rd : pystr -> option V) m text : read rd m text <> Err PyException.
Proof.
  unfold read. pose proof (loop_total rd (S (length (split_lines text))) (split_lines text) (mkR m 0 None ([], 0%Z, 0%Z))) as H.
  destruct (read_loop _ _ _ _); cbn; [discriminate|]. specialize (H ltac:(lia)). congruence.
Qed.

(** ** Examples: integers written with a decimal part. *)
Definition ex_show (z : Z) : pystr := show_int z ++ str ".0".
Definition ex_rd (s : pystr) : option Z :=
  if pystr_eq_dec s (str "2.2") then Some 2%Z else if pystr_eq_dec s (str "0") then Some 0%Z else read_int (firstn (length s - 2) s).
Lemma ex_float : float_text ex_show ex_rd 0%Z.
Proof.
  split; [|split; [reflexivity|discriminate]]. intros x. unfold ex_show. destruct (show_int_word x) as [A B]. split; [|split].
  - destruct (show_int x); [congruence|discriminate].
  - intros c H. apply in_app_or in H as [H|H]; [auto|]. destruct H as [<-|[<-|[]]]; reflexivity.
  - unfold ex_rd. destruct (pystr_eq_dec _ (str "2.2")) as [E|_].
    { exfalso. apply (f_equal (fun l => nth 0 (rev l) nl)) in E. rewrite rev_app_distr in E. discriminate E. }
    destruct (pystr_eq_dec _ (str "0")) as [E|_].
    { exfalso. apply (f_equal (fun l => nth 1 (rev l) nl)) in E. rewrite rev_app_distr in E. discriminate E. }
    rewrite app_length. change (length (str ".0")) with 2. rewrite Nat.add_sub, firstn_app, Nat.sub_diag, firstn_all, firstn_O, app_nil_r. apply read_show_int.
Qed.
Definition ex_mesh : @mesh Z :=
  mkMesh [(3%Z, [0%Z; 1%Z; (-5)%Z]); (1%Z, [0%Z; 0%Z; 0%Z])] [(7%Z, (1%Z, [12%Z; 4%Z], [3%Z; 1%Z])); (5%Z, (15%Z, [11%Z; 1%Z], [1%Z]))]
    [(str "inlet", (12%Z, 1%Z))] [].
Example C95_example_mesh : is_mesh ex_mesh /\ plain_nodes ex_mesh /\ plain_elements ex_mesh /\ plain_names ex_mesh
  /\ read ex_rd empty_mesh (write_ascii ex_show ex_mesh)
     = Ok (mkMesh [(1%Z, [0%Z; 0%Z; 0%Z]); (3%Z, [0%Z; 1%Z; (-5)%Z])] [(5%Z, (15%Z, [11%Z; 1%Z], [1%Z])); (7%Z, (1%Z, [12%Z; 4%Z], [3%Z; 1%Z]))]
            [(str """inlet""", (12%Z, 1%Z))] []).
Proof.
  split; [|split; [|split; [|split; [|vm_compute; reflexivity]]]].
  - repeat split; cbn; repeat constructor; cbn; intuition discriminate.
  - repeat constructor.
  - repeat constructor.
  - constructor; [|constructor]. intros c H. cbn in H. intuition; subst; reflexivity.
Qed.
Definition ex_fields : list (pystr * list (list Z)) := [(str "conductivity", [[4%Z]; [(-2)%Z]]); (str "flux field", [[1%Z; 2%Z; 3%Z]; [0%Z; 0%Z; 0%Z]])].
Example C95_example_fields : is_fields [9%Z; 4%Z] ex_fields /\ Forall plain_field ex_fields.
Proof.
  split.
  - split; [repeat constructor; cbn; intuition discriminate|]. split; [discriminate|]. split; [repeat constructor; cbn; intuition discriminate|].
    constructor; [split; [reflexivity|exists 1; repeat constructor]|]. constructor; [split; [reflexivity|exists 3; repeat constructor]|constructor].
  - repeat apply Forall_cons; try apply Forall_nil; (split; [repeat constructor|]; split; [intros c H; cbn in H; intuition; subst; discriminate|]; split; intros c H; injection H as <-; discriminate).
Qed.
Example C95_example_fields_text : bind (write_fields ex_show [9%Z; 4%Z] ex_fields) (fun t => read ex_rd empty_mesh t)
  = Ok (mkMesh [] [] [] [(str "conductivity", [(0%Z, (0%Z, [(9%Z, [4%Z]); (4%Z, [(-2)%Z])]))]); (str "flux field", [(0%Z, (0%Z, [(9%Z, [1%Z; 2%Z; 3%Z]); (4%Z, [0%Z; 0%Z; 0%Z])]))])]).
Proof. vm_compute. reflexivity. Qed.
(** A line element with one tag is dropped, a name with a space is not read. *)
Example C60_example_dropped : read ex_rd empty_mesh (write_ascii ex_show (mkMesh [] [(7%Z, (15%Z, [12%Z], [3%Z]))] [(str "left side", (12%Z, 1%Z))] []))
  = Ok empty_mesh.
Proof. vm_compute. reflexivity. Qed.
