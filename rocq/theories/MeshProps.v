(** Fine and coarse simulation see the same field: C56, C87. *)
From Verif Require Import Base BaseFacts FieldModel FieldSpec FieldProofs FieldMeaning FieldProps MeshModel.

(** ** Specification *)
(** The name given last to a region number, without quotes, starts with a dot. *)
Fixpoint boundary (ph : list (pystr * nat)) (r : nat) : bool :=
  match ph with
  | [] => false
  | (name, id) :: ph' =>
      if existsb (fun x => Nat.eqb (snd x) r) ph' then boundary ph' r
      else if Nat.eqb id r then match strip_quotes name with c :: _ => Ascii.eqb c "." | [] => false end else false
  end.
Definition region (e : nat * (list nat * list nat)) : nat := hd 0 (fst (snd e)).
(** Elements that are not of a boundary region, in the order of the mesh. *)
Definition bulk (g : gmsh) : list (nat * (list nat * list nat)) :=
  filter (fun e => negb (boundary (g_physical g) (region e))) (g_elements g).
(** [c] is the mean of the nodes of element [e]. *)
Definition is_mean (l : list Q) (x : Q) : Prop := (inject_Z (Z.of_nat (length l)) * x == fold_right Qplus 0 l)%Q.
Definition barycentre (g : gmsh) (e : nat * (list nat * list nat)) (c : coord) : Prop :=
  exists l, Forall2 (fun k x => dget (g_nodes g) k = Some x) (snd (snd e)) l
    /\ is_mean (map (axis 0) l) (axis 0 c) /\ is_mean (map (axis 1) l) (axis 1 c) /\ is_mean (map (axis 2) l) (axis 2 c).
(** Rows of a field in a field file: number of each bulk element with the value at its barycentre, seen without an axis. *)
Definition rows {V} (zero : V) (rmap : list (pystr * nat)) (rs : list pystr) (v : list Q -> V) (a : option nat)
  (els : list (nat * (list nat * list nat))) (cs : list coord) : list (nat * V) :=
  map (fun ec => (fst (fst ec), if inside rmap rs (region (fst ec)) then v (project a (snd ec)) else zero)) (combine els cs).

(** ** Meshes *)
Lemma read_regions_ok ph : forall bc rm bc1 rm1, read_regions ph bc rm = Ok (bc1, rm1) ->
  forall r, dget bc1 r = if existsb (fun x => Nat.eqb (snd x) r) ph then Some (boundary ph r) else dget bc r.
Proof.
  induction ph as [|[name id] ph IH]; intros bc rm bc1 rm1; cbn.
  - now intros [= <- <-].
  - destruct (strip_quotes name) as [|c s] eqn:E; [discriminate|]. intros H r. rewrite (IH _ _ _ _ H r).
    destruct (existsb (fun x => Nat.eqb (snd x) r) ph) eqn:X; [now rewrite orb_true_r|]. rewrite orb_false_r.
    destruct (Nat.eqb_spec id r) as [->|N]; [now rewrite dget_dset_eq|]. now rewrite dget_dset_neq.
Qed.
Lemma bulk_elements_ok ph bc rm els : read_regions ph [] [] = Ok (bc, rm) -> forall l, bulk_elements bc els = Ok l ->
  l = filter (fun e => negb (boundary ph (region e))) els.
Proof.
  intros R. induction els as [|[id [tags nds]] els IH]; intros l; cbn [bulk_elements]; [now intros [= <-]|].
  destruct tags as [|r tags]; [discriminate|]. rewrite (read_regions_ok _ _ _ _ _ R r).
  destruct (existsb _ ph); [|discriminate]. destruct (bulk_elements bc els) as [l'|]; [|discriminate]. cbn [bind]. intros [= <-].
  cbn [filter]. unfold region at 1. cbn [snd fst hd]. rewrite (IH l' eq_refl). now destruct (boundary ph r).
Qed.
Lemma get_nodes_ok nodes nds : forall l, get_nodes nodes nds = Ok l -> Forall2 (fun k x => dget nodes k = Some x) nds l.
Proof.
  induction nds as [|k nds IH]; intros l; cbn; [intros [= <-]; constructor|]. destruct (dget nodes k) eqn:E; [|discriminate].
  destruct (get_nodes nodes nds); [|discriminate]. cbn. intros [= <-]. constructor; auto.
Qed.
Lemma average_mean l : is_mean l (average l).
Proof.
  unfold is_mean, average. destruct l as [|x l]; [reflexivity|]. set (s := fold_right Qplus 0%Q (x :: l)). cbn [length].
  field. unfold Qeq. cbn. lia.
Qed.
Lemma centers_ok g els : forall cs, centers (g_nodes g) els = Ok cs -> Forall2 (barycentre g) els cs.
Proof.
  induction els as [|[id [tags nds]] els IH]; intros cs; cbn; [intros [= <-]; constructor|].
  destruct (get_nodes (g_nodes g) nds) as [l|] eqn:E; [|discriminate]. cbn. destruct (centers (g_nodes g) els) as [cs'|]; [|discriminate].
  cbn. intros [= <-]. constructor; [|now apply IH]. exists l. split; [now apply get_nodes_ok|]. ands; apply average_mean.
Qed.
Lemma extract_mesh_ok g md : extract_mesh g = Ok md ->
  exists cs, Forall2 (barycentre g) (bulk g) cs /\ md_ids md = map fst (bulk g) /\ md_regions md = map region (bulk g)
    /\ md_points md = map (project (drop_axis cs)) cs /\ cs <> [].
Proof.
  unfold extract_mesh. destruct (read_regions (g_physical g) [] []) as [[bc rm]|] eqn:R; [|discriminate]. cbn [bind fst snd].
  destruct (bulk_elements bc (g_elements g)) as [els|] eqn:B; [|discriminate]. cbn [bind].
  destruct (centers (g_nodes g) els) as [cs|] eqn:C; [|discriminate]. cbn [bind].
  pose proof (bulk_elements_ok _ _ _ _ R _ B) as E. fold (bulk g) in E. rewrite E in *. apply centers_ok in C.
  destruct cs as [|c cs]; [discriminate|]. intros [= <-]. exists (c :: cs). cbn. ands; auto. discriminate.
Qed.
Lemma Forall2_len {A B} (R : A -> B -> Prop) l m : Forall2 R l m -> length l = length m.
Proof. induction 1; cbn; congruence. Qed.

Lemma rows_eq {V} (zero : V) rmap rs v a els cs : length els = length cs ->
  combine (map fst els) (on_mesh zero rmap rs v (combine (map (project a) cs) (map region els))) = rows zero rmap rs v a els cs.
Proof.
  unfold rows, on_mesh. revert cs. induction els as [|e els IH]; intros [|c cs] L; try discriminate; [reflexivity|].
  cbn. f_equal. apply IH. now injection L.
Qed.
Lemma on_mesh_app {V P} (zero : V) rmap rs (v : P -> V) a b : on_mesh zero rmap rs v (a ++ b) = on_mesh zero rmap rs v a ++ on_mesh zero rmap rs v b.
Proof. apply map_app. Qed.
Lemma combine_app {A B} (a a' : list A) (b b' : list B) : length a = length b -> combine (a ++ a') (b ++ b') = combine a b ++ combine a' b'.
Proof. revert b. induction a as [|x a IH]; intros [|y b] L; try discriminate; [reflexivity|]. cbn. f_equal. apply IH. now injection L. Qed.
Lemma on_mesh_len {V P} (zero : V) rmap rs (v : P -> V) mesh : length (on_mesh zero rmap rs v mesh) = length mesh.
Proof. apply map_length. Qed.
Lemma pget_map {A B} (f : A -> B) (d : list (pystr * A)) n : pget (map (fun nv => (fst nv, f (snd nv))) d) n = option_map f (pget d n).
Proof. induction d as [|[k w] d IH]; cbn; [reflexivity|]. destruct pystr_eq_dec; [reflexivity|exact IH]. Qed.
Lemma pget_files {V} (ids : list nat) (d : list (pystr * list V)) n : pget (field_file ids d) n = option_map (combine ids) (pget d n).
Proof. apply (pget_map (combine ids)). Qed.

(** C87: fields as in C86 and two meshes seen without the same axis. In one sample both simulations get, for every field
    asked for, a row for each bulk element in the order of the mesh, with one and the same function of the barycentre on
    the regions of the field and zero elsewhere. *)
Theorem C87_same_field {V} (zero : V) fmt rf_ok rf_draw G ss env fs outer m0 fine coarse fd cd m a cf cc :
  Forall (fun s => mk_field (s_name s) (s_kind s) (s_params s) (s_regions s) = Ok s) ss ->
  no_clash fmt ss -> NoDup (rf_used ss) -> means G 0 [] ss = Some env -> mk_fields fmt ss = Ok fs ->
  extract_mesh fine = Ok fd -> extract_mesh coarse = Ok cd ->
  Forall2 (barycentre fine) (bulk fine) cf -> md_points fd = map (project a) cf ->
  Forall2 (barycentre coarse) (bulk coarse) cc -> md_points cd = map (project a) cc ->
  make_fields zero rf_ok (with_outer fs outer) m0 fd (Some cd) = Ok m ->
  realised rf_draw G (m_draws m0) ss (md_map fd) (combine (md_points fd ++ md_points cd) (md_regions fd ++ md_regions cd)) ->
  (exists n, asked outer n /\ pget env n <> None) ->
  exists ffile cfile, field_files zero rf_ok rf_draw (with_outer fs outer) m0 fine (Some coarse) = Ok (ffile, Some cfile)
    /\ forall n rs v, pget env n = Some (rs, v) -> asked outer n ->
         pget ffile n = Some (rows zero (md_map fd) rs v a (bulk fine) cf)
         /\ pget cfile n = Some (rows zero (md_map fd) rs v a (bulk coarse) cc).
Proof.
  intros Hv Hc Hd Hm Ef Xf Xc Bf Pf Bc Pc Em Hr (n0 & As0 & En0).
  destruct (extract_mesh_ok fine fd Xf) as (cf' & _ & If & Rf & _). destruct (extract_mesh_ok coarse cd Xc) as (cc' & _ & Ic & Rc & _).
  unfold field_files. rewrite Xf, Xc. cbn [bind]. rewrite Em. cbn [bind].
  unfold make_fields in Em. destruct (Nat.eqb (length (hd [] _)) _); [|discriminate]. destruct (dict_eqb _ _); [|discriminate].
  destruct (C86_fields zero fmt rf_ok rf_draw G ss env Hv Hc Hd Hm) as (fs' & Ef' & H). rewrite Ef in Ef'. injection Ef' as <-.
  destruct (H outer m0 _ _ _ m Em Hr) as (m' & result & Er & A & _). clear H.
  unfold generate_random_sample. rewrite Er. cbn [bind fst snd].
  assert (length (bulk fine) = length cf) as Lf by now apply Forall2_len in Bf.
  assert (length (bulk coarse) = length cc) as Lc by now apply Forall2_len in Bc.
  assert (length (md_points fd) = length (md_regions fd)) as Lp by now rewrite Pf, Rf, !map_length.
  assert (forall n rs v, pget env n = Some (rs, v) -> asked outer n ->
    pget (field_file (md_ids fd) (map (fun nv => (fst nv, firstn (length (md_points fd)) (snd nv))) result)) n = Some (rows zero (md_map fd) rs v a (bulk fine) cf)
    /\ pget (field_file (md_ids cd) (map (fun nv => (fst nv, skipn (length (md_points fd)) (snd nv))) result)) n = Some (rows zero (md_map fd) rs v a (bulk coarse) cc)) as Hrows.
  { intros n rs v En As. destruct (A n rs v En) as [R _]. specialize (R As). rewrite !pget_files.
    rewrite (pget_map (firstn (length (md_points fd)))), (pget_map (skipn (length (md_points fd)))), R. cbn [option_map].
    rewrite combine_app by exact Lp. rewrite on_mesh_app.
    assert (length (on_mesh zero (md_map fd) rs v (combine (md_points fd) (md_regions fd))) = length (md_points fd)) as Lm
      by (rewrite on_mesh_len, combine_length, Lp; lia).
    rewrite firstn_app, skipn_app, Lm, Nat.sub_diag. cbn [firstn skipn].
    rewrite firstn_all2 by lia. rewrite skipn_all2 by lia. rewrite app_nil_r. cbn [app]. rewrite If, Ic, Rf, Rc, Pf, Pc.
    split; f_equal; now apply rows_eq. }
  destruct (pget env n0) as [[rs0 v0]|] eqn:E0; [|contradiction]. destruct (Hrows n0 rs0 v0 E0 As0) as [_ H0].
  destruct result as [|nv result]; [discriminate|]. eexists _, _. split; [reflexivity|]. exact Hrows.
Qed.
Print Assumptions C87_same_field.

(** Meshes in the plane z = 0 with a boundary point, and a field whose value is its point. *)
Definition c3 (x y : Z) : coord := (inject_Z x, inject_Z y, 0%Q).
Definition ex_ph : list (pystr * nat) := [(str """.bc""", 1); (str """top""", 2)].
Definition ex_fine : gmsh :=
  mkGm ex_ph [(10, ([1; 1], [1])); (11, ([2; 2], [1; 2; 3])); (12, ([2; 2], [2; 3; 4])); (13, ([2; 2], [4]))]
    [(1, c3 0 0); (2, c3 3 0); (3, c3 0 3); (4, c3 3 3)].
Definition ex_coarse : gmsh :=
  mkGm ex_ph [(20, ([2; 2], [1; 2; 3])); (21, ([2; 2], [4]))] [(1, c3 0 0); (2, c3 6 0); (3, c3 0 3); (4, c3 3 3)].
Definition ex_single : gmsh := mkGm ex_ph [(20, ([2; 2], [1; 2; 3]))] [(1, c3 0 0); (2, c3 6 0); (3, c3 0 3)].
Definition ex_set : list (@spec (list Q)) := [mkSpec (str "conductivity") (KRandom 0) [] []].
Definition ex_draw (r k : nat) (pts : list (list Q)) : list (list Q) := map (map Qred) pts.
Example C87_ex : exists fs fd cd,
  Forall (fun s => mk_field (s_name s) (s_kind s) (s_params s) (s_regions s) = Ok s) ex_set
  /\ no_clash (fun _ => []) ex_set /\ NoDup (rf_used ex_set)
  /\ mk_fields (fun _ => []) ex_set = Ok fs /\ extract_mesh ex_fine = Ok fd /\ extract_mesh ex_coarse = Ok cd
  /\ (exists cf cc, Forall2 (barycentre ex_fine) (bulk ex_fine) cf /\ md_points fd = map (project (Some 2)) cf
        /\ Forall2 (barycentre ex_coarse) (bulk ex_coarse) cc /\ md_points cd = map (project (Some 2)) cc)
  /\ means (fun _ => map Qred) 0 [] ex_set = Some [(str "conductivity", ([], map Qred))]
  /\ (exists m, make_fields [] (fun _ _ => true) fs (mkM 0 [] [] [] 0) fd (Some cd) = Ok m)
  /\ realised ex_draw (fun _ => map Qred) 0 ex_set (md_map fd) (combine (md_points fd ++ md_points cd) (md_regions fd ++ md_regions cd))
  /\ exists f c, field_files [] (fun _ _ => true) ex_draw fs (mkM 0 [] [] [] 0) ex_fine (Some ex_coarse)
       = Ok ([(str "conductivity", f)], Some [(str "conductivity", c)])
       /\ f = [(11, [1%Q; 1%Q]); (12, [2%Q; 2%Q]); (13, [3%Q; 3%Q])] /\ c = [(20, [2%Q; 1%Q]); (21, [3%Q; 3%Q])].
Proof.
  eexists _, _, _. split; [repeat constructor|]. split; [intros s c s' [<-|[]] []|]. split; [repeat constructor; intros []|].
  split; [vm_compute; reflexivity|]. split; [vm_compute; reflexivity|]. split; [vm_compute; reflexivity|]. split.
  { exists (map (fun e => match get_nodes (g_nodes ex_fine) (snd (snd e)) with Ok l => center l | Err _ => c3 0 0 end) (bulk ex_fine)),
            (map (fun e => match get_nodes (g_nodes ex_coarse) (snd (snd e)) with Ok l => center l | Err _ => c3 0 0 end) (bulk ex_coarse)).
    split; [apply centers_ok; vm_compute; reflexivity|]. split; [vm_compute; reflexivity|].
    split; [apply centers_ok; vm_compute; reflexivity|]. vm_compute; reflexivity. }
  split; [reflexivity|]. split; [eexists; vm_compute; reflexivity|]. split.
  { intros k s r H _. reflexivity. }
  eexists _, _. split; [vm_compute; reflexivity|]. split; reflexivity.
Qed.

(** C56 in full is false: with a coarse mesh of one element the first axis is dropped from the coarse mesh but the last one
    from the fine mesh, so the value of the coarse element is the field at another point. *)
Theorem C56_refuted : exists (fs : @fset (list Q)) fine coarse cf cc ffile cfile,
  mk_fields (fun _ => []) ex_set = Ok fs
  /\ field_files [] (fun _ _ => true) ex_draw fs (mkM 0 [] [] [] 0) fine (Some coarse) = Ok (ffile, Some cfile)
  /\ Forall2 (barycentre fine) (bulk fine) cf /\ Forall2 (barycentre coarse) (bulk coarse) cc
  /\ pget ffile (str "conductivity") = Some (rows [] [] [] (map Qred) (Some 2) (bulk fine) cf)
  /\ pget cfile (str "conductivity") = Some (rows [] [] [] (map Qred) (Some 0) (bulk coarse) cc)
  /\ rows [] [] [] (map Qred) (Some 0) (bulk coarse) cc <> rows [] [] [] (map Qred) (Some 2) (bulk coarse) cc.
Proof.
  eexists _, ex_fine, ex_single,
    (map (fun e => match get_nodes (g_nodes ex_fine) (snd (snd e)) with Ok l => center l | Err _ => c3 0 0 end) (bulk ex_fine)),
    (map (fun e => match get_nodes (g_nodes ex_single) (snd (snd e)) with Ok l => center l | Err _ => c3 0 0 end) (bulk ex_single)), _, _.
  split; [vm_compute; reflexivity|]. split; [vm_compute; reflexivity|].
  split; [apply centers_ok; vm_compute; reflexivity|]. split; [apply centers_ok; vm_compute; reflexivity|].
  split; [vm_compute; reflexivity|]. split; [vm_compute; reflexivity|]. vm_compute. discriminate.
Qed.
Print Assumptions C56_refuted.

(** C56, the part that holds for all fields and meshes: for every field in the files there is one list of values, one for
    each bulk element of the fine and then of the coarse mesh, and the files have them in the order of the elements.
    Missing: that all are values of one function of the point, which needs the conditions of [C87_same_field]. *)
Theorem C56_partial {V} (zero : V) fmt rf_ok rf_draw ss fs m0 fine coarse ffile cfile :
  Forall (fun s => mk_field (s_name s) (s_kind s) (s_params s) (s_regions s) = Ok s) ss -> mk_fields fmt ss = Ok fs ->
  field_files zero rf_ok rf_draw fs m0 fine (Some coarse) = Ok (ffile, Some cfile) ->
  map fst ffile = map fst cfile
  /\ forall n f c, pget ffile n = Some f -> pget cfile n = Some c ->
       map fst f = map fst (bulk fine) /\ map fst c = map fst (bulk coarse).
Proof.
  intros Hv Ef. unfold field_files. destruct (extract_mesh fine) as [fd|] eqn:Xf; [|discriminate].
  destruct (extract_mesh coarse) as [cd|] eqn:Xc; [|discriminate]. cbn [bind].
  destruct (make_fields zero rf_ok fs m0 fd (Some cd)) as [m|] eqn:Em; [|discriminate]. cbn [bind].
  destruct (extract_mesh_ok fine fd Xf) as (cf & Bf & If & Rf & Pf & _). destruct (extract_mesh_ok coarse cd Xc) as (cc & Bc & Ic & Rc & Pc & _).
  apply Forall2_len in Bf, Bc.
  unfold make_fields in Em. destruct (Nat.eqb (length (hd [] _)) _); [|discriminate]. destruct (dict_eqb _ _); [|discriminate].
  unfold generate_random_sample. destruct (sample zero rf_draw fs m) as [[m' result]|] eqn:Er; [|discriminate]. cbn [bind fst snd].
  destruct (C57_partial zero fmt rf_ok rf_draw ss fs Hv Ef) as [_ H]. specialize (H m0 _ _ _ m m' result Em Er).
  set (F := field_file (md_ids fd) (map (fun nv => (fst nv, firstn (length (md_points fd)) (snd nv))) result)).
  set (C := field_file (md_ids cd) (map (fun nv => (fst nv, skipn (length (md_points fd)) (snd nv))) result)).
  intros E. assert (ffile = F /\ cfile = C) as [-> ->].
  { subst F C. destruct result as [|nv result]; [discriminate|]. cbn [map] in *. injection E as <- <-. auto. } clear E.
  split; [subst F C; unfold field_file; now rewrite !map_map|].
  intros n f c. subst F C. rewrite !pget_files, (pget_map (firstn _)), (pget_map (skipn _)). destruct (pget result n) as [l|] eqn:El; [|discriminate].
  cbn [option_map]. intros [= <-] [= <-]. destruct (H n l El) as [L _]. rewrite app_length in L.
  assert (length (md_ids fd) = length (md_points fd)) as L1 by (rewrite If, Pf, !map_length; lia).
  assert (length (md_ids cd) = length (md_points cd)) as L2 by (rewrite Ic, Pc, !map_length; lia).
  rewrite <- If, <- Ic. assert (forall A B (a : list A) (b : list B), length a = length b -> map fst (combine a b) = a) as K.
  { intros A B a. induction a as [|x a IH]; intros [|y b] Hl; try discriminate; [reflexivity|]. cbn. f_equal. apply IH. now injection Hl. }
  rewrite !K; [auto| |]; [rewrite skipn_length|rewrite firstn_length]; lia.
Qed.
Print Assumptions C56_partial.
Example C56_partial_ex : exists fs ffile cfile, mk_fields (fun _ => []) ex_set = Ok fs
  /\ field_files [] (fun _ _ => true) ex_draw fs (mkM 0 [] [] [] 0) ex_fine (Some ex_single) = Ok (ffile, Some cfile)
  /\ map fst (match pget ffile (str "conductivity") with Some f => f | None => [] end) = [11; 12; 13].
Proof. eexists _, _, _. split; [vm_compute; reflexivity|]. split; [vm_compute; reflexivity|]. vm_compute; reflexivity. Qed.
