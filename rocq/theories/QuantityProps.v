(** Properties of quantity expressions: C34 C35 C36 C37 C52. *)
From Coq Require Import String ZArith SpecFloat.
From Verif Require Import Base BaseFacts QTypeModel QuantityModel QuantitySpec QuantityGraph QuantityCache QuantityCacheProofs QuantityFacts HdfModel StoreModel.
Local Open Scope string_scope.
Local Open Scope list_scope.
Local Open Scope nat_scope.
Notation length := List.length.
Notation skey := string.

(** * C34 *)
(** Whatever is built from stored data by arithmetic, functions, comparison, item access, composition, moments and
    selection: on a chunk made of two parts, it takes the values of the parts side by side. *)
Theorem C34_chunks : forall (V : Type) (g : graph skey V) a k e1 e2 e lvl cid,
  built string_dec g -> from_storage g a -> splits k e1 e2 e ->
  joined (samples string_dec e1 lvl cid g a) (samples string_dec e2 lvl cid g a) (samples string_dec e lvl cid g a).
Proof. intros. now apply (joined_samples string_dec k). Qed.
(** In particular the value on a chunk is made of the values on the chunks of one sample each, in order. *)
Theorem C34_samplewise : forall (V : Type) (g : graph skey V) a k N e lvl cid,
  built string_dec g -> from_storage g a -> (forall r, exists M, shaped M (S N) k (e r)) ->
  glued (map (fun i => samples string_dec (only i e) lvl cid g a) (seq 0 (S N))) (samples string_dec e lvl cid g a).
Proof. intros. now apply glued_samples with (k := k). Qed.
(** Arithmetic acts number by number. *)
Theorem C34_arithmetic : forall (V : Type) (g g' : graph skey V) f a b M N k x y e lvl cid,
  built string_dec g -> build string_dec g (CBin f a b) = Ok g' -> (from_storage g a \/ from_storage g b) ->
  samples string_dec e lvl cid g a = Ok (Num x) -> samples string_dec e lvl cid g b = Ok (Num y) -> shaped M N k x -> shaped M N k y ->
  exists z, samples string_dec e lvl cid g' (length g) = Ok (Num z) /\ shaped M N k z
  /\ forall m i j, entry z m i j = match entry x m i j, entry y m i j with Some u, Some v => Some (f u v) | _, _ => None end.
Proof.
  intros V g g' f a b M N k x y e lvl cid Hb H Hs Ex Ey Sx Sy. destruct (bin_shaped f M N k x y Sx Sy) as (z & E & L & R & Z).
  exists z. ands; auto.
  - rewrite (bin_value string_dec e lvl cid g g' f a b x y); auto; [now rewrite E|]. apply graph_ordered. now apply (built_inv string_dec).
  - split; auto.
Qed.
(** A constant list is used for all samples, a constant number for all components too. *)
Theorem C34_constant : forall (V : Type) (g g' : graph skey V) f a b M N k x c e lvl cid,
  built string_dec g -> build string_dec g (CBin f a b) = Ok g' -> from_storage g a ->
  samples string_dec e lvl cid g a = Ok (Num x) -> shaped M N k x ->
  (exists n, nth_error g b = Some n /\ n_op n = OConst c) -> (length c = M \/ length c = 1) ->
  exists z, samples string_dec e lvl cid g' (length g) = Ok (Num z) /\ shaped M N k z
  /\ forall m i j, entry z m i j = match entry x m i j, (if Nat.eqb (length c) 1 then nth_error c 0 else nth_error c m) with Some u, Some v => Some (f u v) | _, _ => None end.
Proof.
  intros V g g' f a b M N k x c e lvl cid Hb H Hs Ex Sx (n & En & Ho) Hc. destruct (bin_shaped_const f M N k x c Sx Hc) as (z & E & L & R & Z).
  pose proof (built_inv string_dec g Hb) as Hg. exists z. ands; auto.
  - rewrite (bin_value string_dec e lvl cid g g' f a b x (const_arr c)); auto; [now rewrite E| |].
    + now apply graph_ordered. + rewrite (samples_op string_dec _ _ _ _ _ _ Hg En), Ho. reflexivity.
  - split; auto.
  - intros m i j. rewrite Z. assert (Ec : const_entry c m = if Nat.eqb (length c) 1 then nth_error c 0 else nth_error c m) by (destruct c as [|v [|v' c]]; reflexivity).
    now rewrite Ec.
Qed.

(** * C35 *)
(** Without subsampling, combining quantities that take different samples from a chunk, or that come from different
    root quantities, raises; and a quantity depends only on its own root. *)
Theorem C35_selections_partial : forall (V : Type) (g : graph skey V) c a b,
  built string_dec g -> In a (operands c) -> In b (operands c) -> from_storage g a -> from_storage g b ->
  differ string_dec g a b -> exists e, build string_dec g c = Err e.
Proof. intros V. apply differ_raises. Qed.
Theorem C35_own_root_partial : forall (V : Type) (g : graph skey V) a s e e' lvl cid,
  built string_dec g -> store_of g a = Some s ->
  (forall n r, nth_error g s = Some n -> n_op n = ORoot r -> e r = e' r) ->
  samples string_dec e lvl cid g a = samples string_dec e' lvl cid g a.
Proof. intros V g a s e e' lvl cid Hb. apply own_root. now apply (built_inv string_dec). Qed.
(** C68 states the same as a property of programs without subsampling. *)
Theorem C68_selections : forall (V : Type) (g : graph skey V) c a b,
  built string_dec g -> In a (operands c) -> In b (operands c) -> from_storage g a -> from_storage g b ->
  differ string_dec g a b -> exists e, build string_dec g c = Err e.
Proof. exact C35_selections_partial. Qed.
Theorem C68_own_root : forall (V : Type) (g : graph skey V) a s e e' lvl cid,
  built string_dec g -> store_of g a = Some s ->
  (forall n r, nth_error g s = Some n -> n_op n = ORoot r -> e r = e' r) ->
  samples string_dec e lvl cid g a = samples string_dec e' lvl cid g a.
Proof. exact C35_own_root_partial. Qed.
(** In full the statement is false: a subsample keeps the selection of the whole quantity, so q.subsample(..) + q is
    built and adds values of different samples. *)
Definition sub_graph : res (graph skey Z) :=
  bind (build string_dec [] (CRoot 0 (QArray [1] QScalar))) (fun g =>
  bind (build string_dec g (CSub (fun _ _ => [1; 0]) 0)) (fun g => build string_dec g (CBin Z.add 1 0))).
Theorem C35_subsample_refuted : exists (g : graph skey Z) e,
  sub_graph = Ok g /\ samples string_dec e 0 0 g 0 = Ok (Num [[[1%Z]; [2%Z]]]) /\ samples string_dec e 0 0 g 1 = Ok (Num [[[2%Z]; [1%Z]]])
  /\ samples string_dec e 0 0 g 2 = Ok (Num [[[3%Z]; [3%Z]]]).
Proof.
  destruct sub_graph as [g|] eqn:E; [|discriminate]. exists g, (fun _ => [[[1%Z]; [2%Z]]]). injection E as <-. ands; reflexivity.
Qed.

(** * C36 *)
(** A condition holds for a sample iff it holds for every component of the fine and the coarse part. *)
Theorem C36_condition : forall (V : Type) (g g' : graph skey V) (c : V -> V -> bool) a b M N k x y e lvl cid,
  built string_dec g -> build string_dec g (CCmp c a b) = Ok g' -> 0 < M ->
  samples string_dec e lvl cid g a = Ok (Num x) -> samples string_dec e lvl cid g b = Ok (Num y) -> shaped M N k x -> shaped M N k y ->
  exists m, samples string_dec e lvl cid g' (length g) = Ok (Mask m) /\ length m = N
  /\ forall i, i < N -> (nth_error m i = Some true <-> forall q j u v, entry x q i j = Some u -> entry y q i j = Some v -> c u v = true).
Proof.
  intros V g g' c a b M N k x y e lvl cid Hb H HM Ex Ey Sx Sy. destruct (bin_shaped c M N k x y Sx Sy) as (z & E & L & R & Z).
  destruct (process_mask_entry M N k z HM L R) as (m & Em & Lm & Hm). exists m. ands; auto.
  - rewrite (cmp_value string_dec e lvl cid g g' c a b x y); auto; [rewrite E; cbn [bind]; now rewrite Em|]. apply graph_ordered. now apply (built_inv string_dec).
  - intros i Hi. rewrite (Hm i Hi). split.
    + intros A q j u v Hu Hv. apply (A q j). rewrite Z, Hu, Hv. reflexivity.
    + intros A q j t Ht. rewrite Z in Ht. destruct (entry x q i j) as [u|] eqn:Eu; [|discriminate]. destruct (entry y q i j) as [v|] eqn:Ev; [|discriminate].
      injection Ht as <-. eauto.
Qed.
Theorem C36_condition_constant : forall (V : Type) (g g' : graph skey V) (c : V -> V -> bool) a b M N k x v0 e lvl cid,
  built string_dec g -> build string_dec g (CCmp c a b) = Ok g' -> 0 < M ->
  samples string_dec e lvl cid g a = Ok (Num x) -> samples string_dec e lvl cid g b = Ok (Num [[[v0]]]) -> shaped M N k x ->
  exists m, samples string_dec e lvl cid g' (length g) = Ok (Mask m) /\ length m = N
  /\ forall i, i < N -> (nth_error m i = Some true <-> forall q j u, entry x q i j = Some u -> c u v0 = true).
Proof.
  intros V g g' c a b M N k x v0 e lvl cid Hb H HM Ex Ey Sx. destruct (bin_shaped_const c M N k x [v0] Sx (or_intror eq_refl)) as (z & E & L & R & Z).
  destruct (process_mask_entry M N k z HM L R) as (m & Em & Lm & Hm). exists m. ands; auto.
  - rewrite (cmp_value string_dec e lvl cid g g' c a b x [[[v0]]]); auto; [change [[[v0]]] with (const_arr [v0]); rewrite E; cbn [bind]; now rewrite Em|]. apply graph_ordered. now apply (built_inv string_dec).
  - intros i Hi. rewrite (Hm i Hi). split.
    + intros A q j u Hu. apply (A q j). rewrite Z, Hu. reflexivity.
    + intros A q j t Ht. rewrite Z in Ht. destruct (entry x q i j) as [u|] eqn:Eu; [|discriminate]. cbn in Ht. injection Ht as <-. eauto.
Qed.
(** Selection keeps, in order, exactly the samples for which all the conditions hold. *)
Theorem C36_select : forall (V : Type) (g g' : graph skey V) a ms cs M N k x e lvl cid,
  built string_dec g -> build string_dec g (CSelect a ms) = Ok g' ->
  samples string_dec e lvl cid g a = Ok (Num x) -> shaped M N k x ->
  Forall2 (fun m c => samples string_dec e lvl cid g m = Ok (Mask (map c (seq 0 N)))) ms cs ->
  samples string_dec e lvl cid g' (length g' - 1) = Ok (Num (map (take [] (kept N cs)) x)).
Proof. intros V g g' a ms cs M N k x e lvl cid Hb. apply select_value. apply graph_ordered. now apply (built_inv string_dec). Qed.
(** NaN never satisfies an ordering or equality comparison: the numbers are the IEEE numbers of Coq's SpecFloat. *)
Definition ordering (c : spec_float -> spec_float -> bool) : Prop :=
  c = SFltb \/ c = SFleb \/ c = (fun x y => SFltb y x) \/ c = (fun x y => SFleb y x) \/ c = SFeqb.
Lemma nan_false c x y : ordering c -> x = S754_nan \/ y = S754_nan -> c x y = false.
Proof. intros [->|[->|[->|[->| ->]]]] [->| ->]; try reflexivity; destruct x || destruct y; reflexivity. Qed.
Theorem C36_nan : forall (g g' : graph skey spec_float) c a b M N k x y e lvl cid i q j u v,
  built string_dec g -> ordering c -> build string_dec g (CCmp c a b) = Ok g' -> 0 < M -> i < N ->
  samples string_dec e lvl cid g a = Ok (Num x) -> samples string_dec e lvl cid g b = Ok (Num y) -> shaped M N k x -> shaped M N k y ->
  entry x q i j = Some u -> entry y q i j = Some v -> u = S754_nan \/ v = S754_nan ->
  exists m, samples string_dec e lvl cid g' (length g) = Ok (Mask m) /\ nth_error m i = Some false.
Proof.
  intros g g' c a b M N k x y e lvl cid i q j u v Hb Hc H HM Hi Ex Ey Sx Sy Eu Ev Hn.
  destruct (C36_condition _ g g' c a b M N k x y e lvl cid Hb H HM Ex Ey Sx Sy) as (m & Em & Lm & Hm). exists m. split; auto.
  destruct (nth_error m i) as [[|]|] eqn:En; [|reflexivity|apply nth_error_None in En; lia].
  pose proof (proj1 (Hm i Hi) En q j u v Eu Ev) as C. rewrite (nan_false c u v Hc Hn) in C. discriminate.
Qed.

(** * C37 *)
(** The objects a quantity is computed from. *)
Inductive deps {V} (g : graph skey V) (a : nat) : nat -> Prop :=
| deps_self : deps g a a
| deps_input b n c : deps g a b -> nth_error g b = Some n -> In c (inputs (n_op n)) -> deps g a c.
(** A session starts with no quantities and an empty cache. *)
Definition start {V} (d : QuantityCache.spec -> nat -> arr V) : session skey V := mkSession [] [] d.

(** C67, the part of C37 that holds: after any session, the reads of an estimate (clear the cache, then ask for the samples of a quantity chunk by chunk)
    return the current values; objects alive together have different addresses, and chunks are numbered within a level. *)
Theorem C67_estimate_reads : forall (V : Type) addr d h (w : session skey V) a pre s post,
  w = run_session string_dec addr (start d) h -> a < length (ss_graph w) ->
  (forall b c, deps (ss_graph w) a b -> deps (ss_graph w) a c -> addr b = addr c -> b = c) ->
  NoDup (map (fun s => (s_level s, s_chunk s)) (pre ++ s :: post)) ->
  exists r, snd (happen string_dec addr (run_session string_dec addr w (Clear :: map (Ask a) pre)) (Ask a s)) = Some r
  /\ forall v, r = Ok v <-> samples string_dec (ss_data w s) (s_level s) (s_chunk s) (ss_graph w) a = Ok v.
Proof.
  intros V addr d h w a pre s post -> Ha Hinj Hnd. set (w := run_session string_dec addr (start d) h) in *.
  assert (Ho : ordered (ss_graph w)). { apply (run_graph string_dec addr h (start d)). intros [|x] n E; discriminate. }
  set (P := deps (ss_graph w) a). set (Used := fun s0 => In s0 (pre ++ s :: post)).
  assert (Hused : forall s0 s1, Used s0 -> Used s1 -> cache_key s0 0 = cache_key s1 0 -> s0 = s1).
  { intros s0 s1 H0 H1 E. unfold cache_key in E. injection E as E1 E2 _. clear - H0 H1 E1 E2 Hnd. unfold Used in *. induction (pre ++ s :: post) as [|z l IH]; [destruct H0|].
    cbn in Hnd. inversion_clear Hnd as [|? ? N Hl]. destruct H0 as [->|H0], H1 as [->|H1]; auto.
    - exfalso. apply N. rewrite E1, E2. now apply (in_map (fun s => (s_level s, s_chunk s))).
    - exfalso. apply N. rewrite <- E1, <- E2. now apply (in_map (fun s => (s_level s, s_chunk s))). }
  set (w1 := fst (happen string_dec addr w Clear)).
  assert (Hw1 : good string_dec addr P Used w1) by (split; [exact Ho|intros s0 b v _ _ C; discriminate]).
  assert (Hcl : closed P (ss_graph w)) by (intros b n c Pb En Hc; exact (deps_input _ _ _ _ _ Pb En Hc)).
  assert (Hgr : forall l (w0 : session skey V), ss_graph (run_session string_dec addr w0 (map (Ask a) l)) = ss_graph w0 /\ ss_data (run_session string_dec addr w0 (map (Ask a) l)) = ss_data w0).
  { clear. induction l as [|s0 l IH]; intros w0; [auto|]. cbn [map run_session]. destruct (IH (fst (happen string_dec addr w0 (Ask a s0)))) as [-> ->]. cbn [happen].
    destruct (csamples _ _ _ _ _ _ _ _). auto. }
  destruct (Hgr pre w1) as [G1 G2]. cbn [run_session]. fold w1.
  assert (Hq : Forall (quiet (K:=skey) (V:=V) P Used) (map (Ask a) pre)).
  { apply Forall_forall. intros ev Hev. apply in_map_iff in Hev as (s0 & <- & Hs). split; [apply deps_self|]. apply in_or_app. now left. }
  pose proof (run_good string_dec addr P Used Hinj Hused (map (Ask a) pre) w1 Hw1 Hq ltac:(rewrite G1; exact Hcl)) as Hgood.
  destruct (ask_good string_dec addr P Used Hinj Hused _ a s Hgood ltac:(rewrite G1; exact Hcl) (deps_self _ _) ltac:(apply in_or_app; right; now left) ltac:(rewrite G1; exact Ha)) as (r & E & H).
  exists r. split; [exact E|]. rewrite G1, G2 in H. exact H.
Qed.
(** The chunks the file storage delivers for the levels of a level list are numbered that way. *)
Definition spec_of (c : chunk_spec) : QuantityCache.spec := mkSpec (c_level c) (c_id c) (Some (c_start c, c_stop c)).
Lemma number_ids {A} l : forall lid i (xs : list A) f, (forall j x, c_id (f j x) = j /\ c_level (f j x) = lid) -> number f i xs = l ->
  map (fun c => (c_level c, c_id c)) l = map (fun j => (lid, j)) (seq i (length xs)).
Proof.
  intros lid i xs f Hf <-. revert i. induction xs as [|x xs IH]; intros i; [reflexivity|]. cbn. destruct (Hf i x) as [-> ->]. now rewrite IH.
Qed.
Theorem C67_chunks_numbered : forall X (groups : list (nat * lgroup (list X * list X))) (c : nat) (css : list (list chunk_spec)),
  NoDup (map fst groups) -> Forall2 (fun lg cs => chunks c (fst lg) (snd lg) None = Ok cs) groups css ->
  NoDup (map (fun s => (s_level s, s_chunk s)) (map spec_of (concat css))).
Proof.
  intros X groups c css Hnd H. rewrite map_map. cbn [spec_of s_level s_chunk].
  assert (G : forall (lg : nat * lgroup (list X * list X)) cs, chunks c (fst lg) (snd lg) None = Ok cs -> exists n, map (fun z : chunk_spec => (c_level z, c_id z)) cs = map (fun j => (fst lg, j)) (seq 0 n)).
  { intros lg cs E. unfold chunks in E. destruct (g_cvals _) as [vs|]; [|discriminate]. injection E as <-. eexists. apply (number_ids _ _ _ _ _ ) with (2 := eq_refl). intros j x. split; reflexivity. }
  induction H as [|lg cs groups css E H IH]; [constructor|]. cbn in Hnd. inversion_clear Hnd as [|? ? N Hl]. cbn [concat]. rewrite map_app.
  destruct (G _ _ E) as [n ->]. specialize (IH Hl). 
  assert (D : forall p, In p (map (fun z => (c_level z, c_id z)) (concat css)) -> In (fst p) (map fst groups)).
  { clear - H G. induction H as [|lg cs groups css E H IH]; intros p Hp; [destruct Hp|]. cbn in Hp. rewrite map_app in Hp. apply in_app_or in Hp as [Hp|Hp].
    - left. destruct (G _ _ E) as [n En]. rewrite En in Hp. apply in_map_iff in Hp as (j & <- & _). reflexivity.
    - right. auto. }
  clear - N IH D. induction (seq_NoDup n 0) as [|j l Nj Hd IHd]; [exact IH|]. cbn. constructor; [|exact IHd].
  rewrite in_app_iff. intros [C|C].
  - apply in_map_iff in C as (j' & E & C). injection E as ->. contradiction.
  - apply N. apply (D _ C).
Qed.

(** C37 in full is false: without clearing, a value survives a change of the stored data ... *)
Definition whole (n : nat) : QuantityCache.spec := mkSpec 0 0 (Some (0, n)).
Definition plus_one : list (event skey Z) := [Build (CRoot 0 (QArray [1] QScalar)); Build (CUn (fun x => x + 1)%Z 0)].
Theorem C37_stale_refuted : exists (h : list (event skey Z)) addr d s v v',
  (forall a b, addr a = addr b -> a = b) /\
  let w := run_session string_dec addr (start d) h in
  snd (happen string_dec addr w (Ask 1 s)) = Some (Ok v) /\ samples string_dec (ss_data w s) (s_level s) (s_chunk s) (ss_graph w) 1 = Ok v' /\ v <> v'.
Proof.
  exists (plus_one ++ [Ask 1 (whole 1); Store (fun _ _ => [[[5%Z]]])]), (fun a => a), (fun _ _ => [[[1%Z]]]), (whole 1), (Num [[[2%Z]]]), (Num [[[6%Z]]]).
  split; [auto|]. cbv zeta. ands; [vm_compute; reflexivity|vm_compute; reflexivity|discriminate].
Qed.
(** ... two slices of the same length and chunk number share an entry ... *)
Theorem C37_slices_refuted : exists (h : list (event skey Z)) addr d s v v',
  (forall a b, addr a = addr b -> a = b) /\ (forall e, In e h -> forall x, e <> Store x) /\
  let w := run_session string_dec addr (start d) h in
  snd (happen string_dec addr w (Ask 1 s)) = Some (Ok v) /\ samples string_dec (ss_data w s) (s_level s) (s_chunk s) (ss_graph w) 1 = Ok v' /\ v <> v'.
Proof.
  exists (plus_one ++ [Ask 1 (mkSpec 0 0 (Some (0, 1)))]), (fun a => a),
         (fun s _ => match s_slice s with Some (0, _) => [[[1%Z]]] | _ => [[[5%Z]]] end), (mkSpec 0 0 (Some (1, 2))), (Num [[[2%Z]]]), (Num [[[6%Z]]]).
  split; [auto|]. split; [intros e He x; cbn in He; repeat (destruct He as [<-|He]; [discriminate|]); destruct He|]. cbv zeta. ands; [vm_compute; reflexivity|vm_compute; reflexivity|discriminate].
Qed.
(** ... and so do two objects that get the same address one after the other. *)
Theorem C37_addresses_refuted : exists (h : list (event skey Z)) addr d s v v',
  (forall e, In e h -> forall x, e <> Store x) /\
  let w := run_session string_dec addr (start d) h in
  snd (happen string_dec addr w (Ask 2 s)) = Some (Ok v) /\ samples string_dec (ss_data w s) (s_level s) (s_chunk s) (ss_graph w) 2 = Ok v' /\ v <> v'.
Proof.
  exists (plus_one ++ [Ask 1 (whole 1); Build (CUn (fun x => x * 10)%Z 0)]), (fun a => if Nat.eqb a 2 then 1 else a),
         (fun _ _ => [[[1%Z]]]), (whole 1), (Num [[[2%Z]]]), (Num [[[10%Z]]]).
  split; [intros e He x; cbn in He; repeat (destruct He as [<-|He]; [discriminate|]); destruct He|]. cbv zeta. ands; [vm_compute; reflexivity|vm_compute; reflexivity|discriminate].
Qed.

(** * C52 *)
(** Every sample of a subsample is a collected sample; a level read in one chunk gives exactly the requested number. *)
Theorem C52_collected : forall X n k (cs os : list (list X)), sub_level n k cs os -> incl (concat os) (concat cs).
Proof.
  intros X n k cs os H. induction H as [|c cs o os [size ps out Hh [Hl Hc] Hm] H IH]; [intros x []|]. cbn. intros x Hx. apply in_app_or in Hx as [Hx|Hx]; apply in_or_app; [left|right; now apply IH].
  apply (in_map Some) in Hx. rewrite <- Hm in Hx. apply in_map_iff in Hx as (p & E & Hp). eapply nth_error_In; eauto.
Qed.
Theorem C52_one_chunk_partial : forall X n k (c : list X) os, k <= n -> n = length c -> sub_level n k [c] os -> length (concat os) = k.
Proof.
  intros X n k c os Hk -> H. inversion H as [|? ? o os' Hp H']; subst. inversion H'; subst. cbn. rewrite app_nil_r.
  destruct Hp as [size ps out Hh [Hl Hc] Hm]. assert (E : length ps = length out) by (rewrite <- (map_length (nth_error c)), Hm; apply map_length).
  unfold hyper in Hh. lia.
Qed.
(** In full the statement is false: with two chunks, both draws use the numbers of the whole level. *)
Theorem C52_chunks_refuted : exists (cs os : list (list nat)) k,
  k <= length (concat cs) /\ sub_level (length (concat cs)) k cs os /\ length (concat os) <> k.
Proof.
  exists [[1; 2]; [3; 4]], [[1; 2]; [3; 4]], 2. ands; [cbn; lia| |cbn; lia].
  assert (P : forall c, length c = 2 -> picked (length (concat [[1; 2]; [3; 4]])) 2 c (map (fun i => nth i c 0) [0; 1])).
  { intros c Hc. apply picked_of with (size := 2) (ps := [0; 1]).
    - unfold hyper. rewrite Hc. cbn. lia.
    - split; [reflexivity|]. rewrite Hc. intros p [<-|[<-|[]]]; lia.
    - destruct c as [|x [|y [|]]]; try discriminate. reflexivity. }
  apply sub_cons; [exact (P [1; 2] eq_refl)|]. apply sub_cons; [exact (P [3; 4] eq_refl)|]. apply sub_nil.
Qed.

(** * Concrete cases *)
Definition demo_cmds : list (cmd skey Z) :=
  [CRoot 0 (QDict [("p", QArray [2] QScalar); ("q", QArray [2] QScalar)]); CItem (Key "p") 0; CItem (Key "q") 0; CBin Z.add 1 2;
   CConst [10%Z]; CCmp Z.ltb 3 4; CSelect 2 [5]; CUn Z.opp 6].
Fixpoint build_all (g : graph skey Z) (cs : list (cmd skey Z)) : res (graph skey Z) :=
  match cs with [] => Ok g | c :: cs' => bind (build string_dec g c) (fun g' => build_all g' cs') end.
Fixpoint plain_all (g : graph skey Z) (cs : list (cmd skey Z)) : Prop :=
  match cs with [] => True | c :: cs' => plain g c /\ match build string_dec g c with Ok g' => plain_all g' cs' | Err _ => True end end.
Lemma built_all cs : forall g g', built string_dec g -> plain_all g cs -> build_all g cs = Ok g' -> built string_dec g'.
Proof.
  induction cs as [|c cs IH]; intros g g' Hb Hp H; cbn in H; [now injection H as <-|].
  destruct (build string_dec g c) as [g1|] eqn:E; [|discriminate]. cbn [bind] in H. destruct Hp as [Hp Hp']. fold plain_all in Hp'. rewrite E in Hp'.
  exact (IH g1 g' (built_step string_dec g c g1 Hb Hp E) Hp' H).
Qed.
Definition demo_env : nat -> arr Z := fun _ => [[[1; 1]; [2; 3]; [4; 9]]; [[1; 1]; [2; 3]; [4; 5]]; [[0; 1]; [5; 6]; [7; 8]]; [[3; 2]; [1; 1]; [0; 0]]]%Z.
Lemma demo_built : exists g, build_all [] demo_cmds = Ok g /\ built string_dec g /\ from_storage g 7.
Proof.
  destruct (build_all [] demo_cmds) as [g|] eqn:E; [|discriminate]. exists g. ands; auto.
  - eapply built_all; [apply built_nil| |exact E]. cbn. ands; auto; discriminate.
  - injection E as <-. discriminate.
Qed.
Example demo_C34 : exists g, built string_dec g /\ from_storage g 7 /\ (forall r, exists M, shaped M 3 2 (demo_env r))
  /\ samples string_dec demo_env 1 0 g 3 = Ok (Num [[[1; 2]; [7; 9]; [11; 17]]; [[4; 3]; [3; 4]; [4; 5]]])%Z
  /\ samples string_dec demo_env 1 0 g 5 = Ok (Mask [true; true; false])
  /\ samples string_dec demo_env 1 0 g 7 = Ok (Num [[[0; -1]; [-5; -6]]; [[-3; -2]; [-1; -1]]])%Z
  /\ samples string_dec (only 1 demo_env) 1 0 g 7 = Ok (Num [[[-5; -6]]; [[-1; -1]]])%Z
  /\ samples string_dec (only 2 demo_env) 1 0 g 7 = Ok (Num [[]; []])
  /\ differ string_dec g 7 3 /\ build string_dec g (CBin Z.add 7 3) = Err PyException.
Proof.
  destruct demo_built as (g & E & Hb & Hs). exists g. 
  assert (Hsh : forall r, shaped 4 3 2 (demo_env r)).
  { intros r. split; [reflexivity|]. intros row Hr. cbn in Hr. repeat (destruct Hr as [<-|Hr]; [split; [reflexivity|]; intros s Hx; cbn in Hx; repeat (destruct Hx as [<-|Hx]; [reflexivity|]); destruct Hx|]). destruct Hr. }
  split; [exact Hb|]. split; [exact Hs|]. split; [intros r; exists 4; apply Hsh|]. clear Hb Hs. injection E as <-. ands; try reflexivity.
  right. exists demo_env, 2, 1, 0. eexists. eexists. exists 2, 3. split; [intros r; exists 4, 3; apply Hsh|]. ands; try reflexivity. discriminate.
Qed.
Example demo_C36 : kept 3 [fun i => Nat.ltb i 2; fun i => Nat.ltb 0 i] = [1] /\ take [] [1] [[1]; [2]; [3]] = [[2]].
Proof. ands; reflexivity. Qed.
(** The conditions 3 < u, with NaN in the second sample. *)
Example demo_nan : exists (g : graph skey spec_float) x y, built string_dec g /\ samples string_dec (fun _ => x) 0 0 g 0 = Ok (Num x)
  /\ samples string_dec (fun _ => x) 0 0 g 1 = Ok (Num y) /\ shaped 1 2 1 x /\ shaped 1 2 1 y /\ entry x 0 1 0 = Some S754_nan
  /\ ordering SFleb /\ exists g', build string_dec g (CCmp SFleb 0 1) = Ok g' /\ samples string_dec (fun _ => x) 0 0 g' 2 = Ok (Mask [true; false]).
Proof.
  destruct (build string_dec (V:=spec_float) [] (CRoot 0 (QArray [1] QScalar))) as [g1|] eqn:E1; [|discriminate].
  destruct (build string_dec g1 (CUn (fun x => x) 0)) as [g2|] eqn:E2; [|injection E1 as <-; discriminate].
  exists g2, [[[S754_zero false]; [S754_nan]]], [[[S754_zero false]; [S754_nan]]]. split.
  - eapply built_step; [eapply built_step; [apply built_nil| |exact E1]| |exact E2]; exact I.
  - injection E1 as <-. injection E2 as <-. ands; try reflexivity.
    + split; [reflexivity|]. intros row [<-|[]]. split; [reflexivity|]. intros s [<-|[<-|[]]]; reflexivity.
    + split; [reflexivity|]. intros row [<-|[]]. split; [reflexivity|]. intros s [<-|[<-|[]]]; reflexivity.
    + right. now left.
    + eexists. split; reflexivity.
Qed.
(** Two chunks of a quantity, read after the data changed and the cache was cleared. *)
Example demo_C37 : let w := run_session string_dec (fun a => a) (start (fun _ _ => [[[1%Z]]])) (plus_one ++ [Ask 1 (whole 1); Store (fun s _ => [[[Z.of_nat (s_chunk s)]]])]) in
  let w' := run_session string_dec (fun a => a) w (Clear :: map (Ask 1) [whole 1]) in
  snd (happen string_dec (fun a => a) w' (Ask 1 (mkSpec 0 1 (Some (1, 2))))) = Some (Ok (Num [[[2%Z]]]))
  /\ NoDup (map (fun s => (s_level s, s_chunk s)) [whole 1; mkSpec 0 1 (Some (1, 2))]) /\ 1 < length (ss_graph w).
Proof. cbv zeta. ands; [vm_compute; reflexivity| |vm_compute; auto]. repeat constructor; cbn; intuition discriminate. Qed.
Example demo_C52 : sub_level 3 2 [[7; 8; 9]] [[9; 7]].
Proof.
  constructor; [|constructor]. apply picked_of with (size := 2) (ps := [2; 0]); [unfold hyper; cbn; lia| |reflexivity].
  split; [reflexivity|]. cbn. intros p [<-|[<-|[]]]; lia.
Qed.

Print Assumptions C34_chunks.
Print Assumptions C34_samplewise.
Print Assumptions C34_arithmetic.
Print Assumptions C34_constant.
Print Assumptions C35_selections_partial.
Print Assumptions C35_own_root_partial.
Print Assumptions C35_subsample_refuted.
Print Assumptions C36_condition.
Print Assumptions C36_condition_constant.
Print Assumptions C36_select.
Print Assumptions C36_nan.
Print Assumptions C67_estimate_reads.
Print Assumptions C67_chunks_numbered.
Print Assumptions C37_stale_refuted.
Print Assumptions C37_slices_refuted.
Print Assumptions C37_addresses_refuted.
Print Assumptions C52_collected.
Print Assumptions C52_one_chunk_partial.
Print Assumptions C52_chunks_refuted.
Print Assumptions C68_selections.
Print Assumptions C68_own_root.
