(** The objects made from a list of fields have the meaning of the list. *)
From Verif Require Import Base BaseFacts FieldModel FieldSpec FieldProofs.

Section M.
Context {V P : Type}.
Variable zero : V.
Variable fmt : V -> pystr.
Notation obj := (obj zero).
Variable G : nat -> P -> V.
Variable all : list (@spec V).
Hypothesis Hvalid : Forall valid all.
Hypothesis Hclash : no_clash fmt all.
Hypothesis Honce : NoDup (rf_used all).

(** [k]: number of fields processed. *)
Record inv (fs : @fset V) (env : list (pystr * @entry V P)) (k : nat) (g val : nat -> P -> V) : Prop := {
  v_wf : wf zero fs;
  v_val : is_values zero fs g val;
  v_al : aligned zero fs;
  v_env : forall n regs v, pget env n = Some (regs, v) ->
    exists id a b, pget (names fs) n = Some id /\ order fs = a ++ id :: b /\ f_name (obj fs id) = n /\ f_regions (obj fs id) = regs
      /\ (forall p, val id p = v p) /\ f_outer (obj fs id) = true /\ (forall x, In x b -> f_name (obj fs x) <> n);
  v_keys : forall n, pget env n = None -> (forall id, In id (order fs) -> f_name (obj fs id) = n ->
             exists s c, In s all /\ In (PNum c) (s_params s) /\ n = str "const_" ++ fmt c);
  v_rand : forall id r, In id (order fs) -> f_kind (obj fs id) = KRandom r ->
    exists j s, j < k /\ nth_error all j = Some s /\ s_kind s = KRandom r /\ g id = G j
      /\ f_regions (obj fs id) = s_regions s /\ draw_no zero fs (order fs) id = draws_before all j;
  v_count : length (filter (is_random zero fs) (order fs)) = draws_before all k;
  v_once : single_use zero fs }.

Definition at_id {X} (f : nat -> X) (id : nat) (x : X) : nat -> X := fun j => if Nat.eqb j id then x else f j.
Lemma at_same {X} (f : nat -> X) id x : at_id f id x id = x.
Proof. unfold at_id. now rewrite Nat.eqb_refl. Qed.
Lemma at_other {X} (f : nat -> X) id x j : j <> id -> at_id f id x j = f j.
Proof. intros H. unfold at_id. now destruct (Nat.eqb_spec j id). Qed.

Lemma is_values_same fs fs' (g val val' : nat -> P -> V) id :
  wf zero fs -> In id (order fs) -> obj fs' id = obj fs id -> (forall x, In x (order fs) -> val' x = val x) ->
  is_values zero fs g val -> forall g', g' id = g id -> forall p,
  match f_kind (obj fs' id) with
  | KConst c => val' id p = c
  | KRandom _ => val' id p = g' id p
  | KFunc _ h => val' id p = h (map (fun q => val' q p) (f_params (obj fs' id)))
  end.
Proof.
  intros W I Eo Ev Hv g' Eg p. rewrite Eo, Eg, (Ev id I). specialize (Hv id I p). destruct (f_kind (obj fs id)); auto.
  rewrite Hv. f_equal. apply map_ext_in. intros q Hq. rewrite Ev; [reflexivity|].
  apply in_split in I as (l1 & l2 & E). pose proof (w_before _ _ W l1 id l2 E q Hq) as Hq1. rewrite E. apply in_or_app. now left.
Qed.

Lemma draw_no_ext fs fs' l id : (forall x, In x l -> is_random zero fs' x = is_random zero fs x) ->
  draw_no zero fs' l id = draw_no zero fs l id.
Proof.
  induction l as [|x l IH]; intros H; [reflexivity|]. cbn. rewrite (H x (or_introl eq_refl)), IH; [reflexivity|]. intros y Hy. apply H. now right.
Qed.
Lemma draw_no_in fs l l' id : In id l -> draw_no zero fs (l ++ l') id = draw_no zero fs l id.
Proof.
  induction l as [|x l IH]; intros H; [destruct H|]. cbn. destruct (Nat.eqb_spec x id) as [->|N]; [reflexivity|].
  rewrite IH; [reflexivity|]. destruct H; [contradiction|assumption].
Qed.
Lemma filter_ext_rand fs fs' l : (forall x, In x l -> is_random zero fs' x = is_random zero fs x) ->
  filter (is_random zero fs') l = filter (is_random zero fs) l.
Proof. intros H. apply filter_ext_in. exact H. Qed.

(** A number becomes a field. *)
Lemma inv_num fs env k g val s c fs1 id : inv fs env k g val -> In s all -> In (PNum c) (s_params s) ->
  (forall n v, pget env n = Some v -> n <> str "const_" ++ fmt c) ->
  get_field_obj fmt fs (s_regions s) (PNum c) = Ok (fs1, id) ->
  let val' := at_id val id (fun _ => c) in
  inv fs1 env k g val' /\ (forall x, In x (order fs) -> val' x = val x) /\ f_regions (obj fs1 id) = s_regions s.
Proof.
  intros Iv Hs Hc Nn E. pose proof (wf_get zero fmt fs _ _ _ _ (v_wf _ _ _ _ _ Iv) E) as (W1 & I1 & O1 & N1).
  pose proof (v_wf _ _ _ _ _ Iv) as W. cbn in E. injection E as <- <-. set (id := length (heap fs)) in *. set (fs1 := mkFS _ _ _) in *.
  assert (order fs1 = id :: order fs) as Eo by reflexivity.
  assert (obj fs1 id = mkF (str "const_" ++ fmt c) (KConst c) [] (s_regions s) true) as En by apply obj_new.
  assert (~ In id (order fs)) as Ni by (intros H; apply (w_in _ _ W) in H; unfold id in H; lia).
  assert (forall x, In x (order fs) -> at_id val id (fun _ => c) x = val x) as Ev by (intros x Hx; apply at_other; intros ->; contradiction).
  assert (forall x, In x (order fs) -> obj fs1 x = obj fs x) as Ho by (intros x Hx; now apply O1).
  assert (forall x, In x (order fs) -> is_random zero fs1 x = is_random zero fs x) as Hr by (intros x Hx; unfold is_random; now rewrite Ho).
  cbv zeta. split; [|split; [exact Ev|now rewrite En]]. constructor.
  - exact W1.
  - intros x Hx p. rewrite Eo in Hx. destruct Hx as [<-|Hx].
    + rewrite En. cbn. now rewrite at_same.
    + apply (is_values_same fs fs1 g val _ x W Hx); auto. exact (v_val _ _ _ _ _ Iv).
  - intros x Hx q Hq. rewrite Eo in Hx. destruct Hx as [<-|Hx]; [rewrite En in Hq; destruct Hq|].
    rewrite (Ho x Hx) in Hq |- *. assert (In q (order fs)) as Iq.
    { pose proof Hx as Hx'. apply in_split in Hx' as (l1 & l2 & El). pose proof (w_before _ _ W l1 x l2 El q Hq). rewrite El. apply in_or_app. now left. }
    rewrite (Ho q Iq). now apply (v_al _ _ _ _ _ Iv).
  - intros n regs v Hn. destruct (v_env _ _ _ _ _ Iv n regs v Hn) as (x & a & b & A & B & C & D & F & O & L).
    assert (In x (order fs)) as Hx by (rewrite B; apply in_or_app; right; now left).
    exists x, (id :: a), b. rewrite (Ho x Hx). ands; auto.
    + unfold fs1. cbn [names]. rewrite pget_pset_neq; [exact A|]. intros H. now apply (Nn n (regs, v) Hn).
    + rewrite Eo, B. reflexivity.
    + intros p. now rewrite Ev.
    + intros y Hy. assert (In y (order fs)) as Iy by (rewrite B; apply in_or_app; right; now right). rewrite Ho by exact Iy. now apply L.
  - intros n Hn x Hx Hname. rewrite Eo in Hx. destruct Hx as [<-|Hx].
    + rewrite En in Hname. cbn in Hname. exists s, c. auto.
    + rewrite (Ho x Hx) in Hname. exact (v_keys _ _ _ _ _ Iv n Hn x Hx Hname).
  - intros x r Hx Hk. rewrite Eo in Hx. destruct Hx as [<-|Hx]; [rewrite En in Hk; discriminate|].
    rewrite (Ho x Hx) in Hk |- *. destruct (v_rand _ _ _ _ _ Iv x r Hx Hk) as (j & s' & A & B & C & D & F & H).
    exists j, s'. ands; auto. rewrite Eo. cbn. destruct (Nat.eqb_spec id x) as [->|_]; [contradiction|].
    unfold is_random at 1. rewrite En. cbn. now rewrite (draw_no_ext fs fs1 _ _ Hr).
  - rewrite Eo. cbn. unfold is_random at 1. rewrite En. cbn. rewrite (filter_ext_rand fs fs1 _ Hr). apply (v_count _ _ _ _ _ Iv).
  - intros x y r Hx Hy Kx Ky. rewrite Eo in Hx, Hy. destruct Hx as [<-|Hx]; [rewrite En in Kx; discriminate|].
    destruct Hy as [<-|Hy]; [rewrite En in Ky; discriminate|]. rewrite (Ho x Hx) in Kx. rewrite (Ho y Hy) in Ky.
    exact (v_once _ _ _ _ _ Iv x y r Hx Hy Kx Ky).
Qed.

(** Parameters. *)
Lemma inv_args s ps : forall fs env k g val vs, inv fs env k g val -> In s all -> incl ps (s_params s) ->
  (forall n e c, pget env n = Some e -> In (PNum c) ps -> n <> str "const_" ++ fmt c) ->
  args env (s_regions s) ps = Some vs ->
  exists fs1 ids val', get_field_objs fmt fs (s_regions s) ps = Ok (fs1, ids) /\ inv fs1 env k g val'
    /\ (forall p, map (fun q => val' q p) ids = map (fun v => v p) vs)
    /\ (forall q, In q ids -> In q (order fs1) /\ f_regions (obj fs1 q) = s_regions s)
    /\ (forall x, In x (order fs) -> val' x = val x /\ In x (order fs1) /\ obj fs1 x = obj fs x).
Proof.
  induction ps as [|p ps IH]; intros fs env k g val vs Iv Hs Hi Hc Ha; cbn in Ha.
  - injection Ha as <-. exists fs, [], val. cbn. ands; auto. intros q [].
  - destruct (arg env (s_regions s) p) as [v|] eqn:Ep; [|discriminate].
    destruct (args env (s_regions s) ps) as [vs'|] eqn:Eps; [|discriminate]. injection Ha as <-.
    assert (exists fs1 id val1, get_field_obj fmt fs (s_regions s) p = Ok (fs1, id) /\ inv fs1 env k g val1
            /\ (forall x, val1 id x = v x) /\ In id (order fs1) /\ f_regions (obj fs1 id) = s_regions s
            /\ (forall x, In x (order fs) -> val1 x = val x /\ In x (order fs1) /\ obj fs1 x = obj fs x)) as H1.
    { destruct p as [n|c]; cbn in Ep.
      - destruct (pget env n) as [[regs' w]|] eqn:En; [|discriminate]. destruct list_eq_dec as [->|]; [|discriminate]. injection Ep as ->.
        destruct (v_env _ _ _ _ _ Iv n _ v En) as (id & a & b & A & B & C & D & F & _).
        exists fs, id, val. cbn. rewrite A. ands; auto. rewrite B. apply in_or_app. right. now left.
      - injection Ep as <-. destruct (get_field_obj fmt fs (s_regions s) (PNum c)) as [[fs1 id]|] eqn:Eg; [|discriminate].
        destruct (inv_num fs env k g val s c fs1 id Iv Hs) as (I1 & Ev & Er); auto.
        { apply Hi. now left. } { intros n e He. apply (Hc n e c He). now left. }
        pose proof (wf_get zero fmt fs _ _ _ _ (v_wf _ _ _ _ _ Iv) Eg) as (_ & Iid & O1 & _).
        exists fs1, id, (at_id val id (fun _ => c)). ands; auto; try (intros x; now rewrite at_same); try (intros x Hx; destruct (O1 x Hx); auto). }
    destruct H1 as (fs1 & id & val1 & E1 & I1 & V1 & Iid & R1 & O1).
    destruct (IH fs1 env k g val1 vs' I1 Hs) as (fs2 & ids & val2 & E2 & I2 & V2 & R2 & O2); auto.
    { intros x Hx. apply Hi. now right. } { intros n e c He Hx. apply (Hc n e c He). now right. }
    exists fs2, (id :: ids), val2. cbn. rewrite E1. cbn. rewrite E2. cbn. ands; auto.
    + intros x. rewrite V2. f_equal. destruct (O2 id Iid) as (-> & _). apply V1.
    + intros q [<-|Hq]; [|now apply R2]. destruct (O2 id Iid) as (_ & A & ->). auto.
    + intros x Hx. destruct (O1 x Hx) as (A1 & A2 & A3). destruct (O2 x A2) as (B1 & B2 & B3). ands; congruence || auto.
Qed.

Lemma used_firstn k s : nth_error all k = Some s ->
  draws_before all (S k) = draws_before all k + match spec_random s with Some _ => 1 | None => 0 end.
Proof.
  unfold draws_before. intros H. assert (firstn (S k) all = firstn k all ++ [s]) as ->.
  { revert H. clear. revert k. induction all as [|x l IH]; intros [|k] H; try discriminate; cbn in *.
    - now injection H as ->.
    - f_equal. now apply IH. }
  unfold rf_used. rewrite flat_map_app, app_length. cbn. destruct (spec_random s); reflexivity.
Qed.
Lemma rand_unique j j' s s' r : nth_error all j = Some s -> nth_error all j' = Some s' ->
  s_kind s = KRandom r -> s_kind s' = KRandom r -> j = j'.
Proof.
  revert Honce. clear. unfold rf_used. revert j j'. induction all as [|x l IH]; intros j j' N H H' K K'; [destruct j; discriminate|].
  cbn in N. assert (forall i t, nth_error l i = Some t -> s_kind t = KRandom r -> In r (flat_map (fun s0 => match spec_random s0 with Some r0 => [r0] | None => [] end) l)) as Hin.
  { intros i t Hi Kt. apply in_flat_map. exists t. split; [eapply nth_error_In; eauto|]. unfold spec_random. rewrite Kt. now left. }
  destruct j as [|j], j' as [|j']; cbn in H, H'.
  - reflexivity.
  - injection H as ->. unfold spec_random in N at 1. rewrite K in N. cbn in N. apply NoDup_cons_iff in N as [N _]. exfalso. eauto.
  - injection H' as ->. unfold spec_random in N at 1. rewrite K' in N. cbn in N. apply NoDup_cons_iff in N as [N _]. exfalso. eauto.
  - f_equal. apply IH; auto. apply NoDup_app_iff in N. tauto.
Qed.

(** One field. *)
Lemma inv_add fs env k g val s v : inv fs env k g val -> nth_error all k = Some s -> meaning (G k) env s = Some v ->
  (forall n e, pget env n = Some e -> exists s', In s' all /\ s_name s' = n) ->
  exists fs1 g' val', add_field fmt fs s = Ok fs1 /\ inv fs1 (pset env (s_name s) (s_regions s, v)) (S k) g' val'.
Proof.
  intros Iv Hk Hm Hnames. assert (In s all) as Hs by (eapply nth_error_In; eauto).
  assert (valid s) as Vs by (rewrite Forall_forall in Hvalid; now apply Hvalid).
  assert (exists fs1 ids val1, get_field_objs fmt fs (s_regions s) (s_params s) = Ok (fs1, ids) /\ inv fs1 env k g val1
            /\ (forall p, v p = match s_kind s with KConst c => c | KRandom _ => G k p | KFunc _ h => h (map (fun q => val1 q p) ids) end)
            /\ (forall q, In q ids -> In q (order fs1) /\ f_regions (obj fs1 q) = s_regions s)) as H1.
  { unfold meaning in Hm. destruct (s_kind s) as [c|r|a h] eqn:K.
    - assert (s_params s = []) as -> by (unfold valid in Vs; rewrite K in Vs; cbn in Vs; destruct (s_params s); [reflexivity|discriminate]).
      injection Hm as <-. exists fs, [], val. ands; auto. intros q [].
    - assert (s_params s = []) as -> by (unfold valid in Vs; rewrite K in Vs; cbn in Vs; destruct (s_params s); [reflexivity|discriminate]).
      injection Hm as <-. exists fs, [], val. ands; auto. intros q [].
    - destruct (args env (s_regions s) (s_params s)) as [vs|] eqn:Ea; [|discriminate]. injection Hm as <-.
      destruct (inv_args s (s_params s) fs env k g val vs Iv Hs) as (fs1 & ids & val1 & E1 & I1 & V1 & R1 & _); auto.
      { apply incl_refl. } { intros n e c He Hc. destruct (Hnames n e He) as (s' & Hs' & <-). now apply (Hclash s c s' Hs Hc Hs'). }
      exists fs1, ids, val1. ands; auto. intros p. now rewrite V1. }
  destruct H1 as (fs1 & ids & val1 & E1 & I1 & Vp & Rq). unfold add_field. rewrite E1. cbn [bind].
  set (id := length (heap fs1)). set (f := mkF _ _ _ _ _). set (fs2 := mkFS _ _ _).
  exists fs2, (at_id g id (G k)), (at_id val1 id v).
  pose proof (v_wf _ _ _ _ _ I1) as W.
  assert (wf zero fs2) as W2.
  { apply (wf_add zero fmt fs s fs2 (v_wf _ _ _ _ _ Iv) Vs). unfold add_field. rewrite E1. reflexivity. }
  assert (order fs2 = order fs1 ++ [id]) as Eo by reflexivity.
  assert (obj fs2 id = f) as En by apply obj_new.
  assert (~ In id (order fs1)) as Ni by (intros H; apply (w_in _ _ W) in H; unfold id in H; lia).
  assert (forall x, In x (order fs1) -> obj fs2 x = obj fs1 x) as Ho by (intros x Hx; apply obj_app; now apply (w_in _ _ W)).
  assert (forall x, In x (order fs1) -> at_id val1 id v x = val1 x) as Ev by (intros x Hx; apply at_other; intros ->; contradiction).
  assert (forall x, In x (order fs1) -> is_random zero fs2 x = is_random zero fs1 x) as Hr by (intros x Hx; unfold is_random; now rewrite Ho).
  assert (forall x q, In x (order fs1) -> In q (f_params (obj fs1 x)) -> In q (order fs1)) as Hpar.
  { intros x q Hx Hq. apply in_split in Hx as (l1 & l2 & El). pose proof (w_before _ _ W l1 x l2 El q Hq). rewrite El. apply in_or_app. now left. }
  split; [reflexivity|]. constructor.
  - exact W2.
  - intros x Hx p. rewrite Eo in Hx. apply in_app_iff in Hx as [Hx|[<-|[]]].
    + apply (is_values_same fs1 fs2 g val1 _ x W Hx); auto; [exact (v_val _ _ _ _ _ I1)|]. apply at_other. intros ->. contradiction.
    + rewrite En. unfold f. cbn. rewrite !at_same, Vp. destruct (s_kind s); auto. f_equal. apply map_ext_in. intros q Hq.
      rewrite Ev; [reflexivity|]. now apply Rq.
  - intros x Hx q Hq. rewrite Eo in Hx. apply in_app_iff in Hx as [Hx|[<-|[]]].
    + rewrite (Ho x Hx) in Hq |- *. rewrite (Ho q) by eauto. now apply (v_al _ _ _ _ _ I1).
    + rewrite En in Hq |- *. unfold f in Hq |- *. cbn [f_params f_regions] in Hq |- *. destruct (Rq q Hq) as [A B]. now rewrite (Ho q A).
  - intros n regs w Hn. destruct (pystr_eq_dec (s_name s) n) as [<-|N].
    + rewrite pget_pset_eq in Hn. injection Hn as <- <-. exists id, (order fs1), []. rewrite En. unfold f. cbn. ands; auto.
      * apply pget_pset_eq.
      * intros p. now rewrite at_same.
    + rewrite pget_pset_neq in Hn by exact N. destruct (v_env _ _ _ _ _ I1 n regs w Hn) as (x & a & b & A & B & C & D & F & O & L).
      assert (In x (order fs1)) as Hx by (rewrite B; apply in_or_app; right; now left).
      exists x, a, (b ++ [id]). rewrite (Ho x Hx). ands; auto.
      * unfold fs2. cbn [names]. now rewrite pget_pset_neq.
      * rewrite Eo, B. now rewrite <- app_assoc.
      * intros p. now rewrite Ev.
      * intros y Hy. apply in_app_iff in Hy as [Hy|[<-|[]]]; [|rewrite En; exact N].
        assert (In y (order fs1)) as Iy by (rewrite B; apply in_or_app; right; now right). rewrite Ho by exact Iy. now apply L.
  - intros n Hn x Hx Hname. destruct (pystr_eq_dec (s_name s) n) as [<-|N]; [rewrite pget_pset_eq in Hn; discriminate|].
    rewrite pget_pset_neq in Hn by exact N. rewrite Eo in Hx. apply in_app_iff in Hx as [Hx|[<-|[]]]; [|rewrite En in Hname; contradiction].
    rewrite (Ho x Hx) in Hname. exact (v_keys _ _ _ _ _ I1 n Hn x Hx Hname).
  - intros x r Hx Hkd. rewrite Eo in Hx |- *. apply in_app_iff in Hx as [Hx|[<-|[]]].
    + rewrite (Ho x Hx) in Hkd |- *. destruct (v_rand _ _ _ _ _ I1 x r Hx Hkd) as (j & s' & A & B & C & D & F & H).
      exists j, s'. ands; auto; [rewrite at_other; [exact D|intros ->; contradiction]|].
      rewrite draw_no_in by exact Hx. now rewrite (draw_no_ext fs1 fs2 _ _ Hr).
    + rewrite En in Hkd |- *. exists k, s. ands; auto; [now rewrite at_same|].
      rewrite draw_no_app by exact Ni. unfold randoms. rewrite (filter_ext_rand fs1 fs2 _ Hr). apply (v_count _ _ _ _ _ I1).
  - rewrite Eo, filter_app, app_length, (filter_ext_rand fs1 fs2 _ Hr), (v_count _ _ _ _ _ I1), (used_firstn k s Hk). f_equal.
    cbn. unfold is_random, spec_random. rewrite En. unfold f. cbn. destruct (s_kind s); reflexivity.
  - assert (forall x r, In x (order fs1) -> f_kind (obj fs1 x) = KRandom r -> s_kind s <> KRandom r) as Hnew.
    { intros x r Hx Kx Ks. destruct (v_rand _ _ _ _ _ I1 x r Hx Kx) as (j & s' & A & B & C & _).
      assert (j = k) by (eapply (rand_unique j k s' s r); eauto). lia. }
    intros x y r Hx Hy Kx Ky. rewrite Eo in Hx, Hy. apply in_app_iff in Hx as [Hx|[<-|[]]], Hy as [Hy|[<-|[]]]; auto.
    + rewrite (Ho x Hx) in Kx. rewrite (Ho y Hy) in Ky. exact (v_once _ _ _ _ _ I1 x y r Hx Hy Kx Ky).
    + rewrite (Ho x Hx) in Kx. rewrite En in Ky. exfalso. exact (Hnew x r Hx Kx Ky).
    + rewrite (Ho y Hy) in Ky. rewrite En in Kx. exfalso. exact (Hnew y r Hy Ky Kx).
Qed.

Lemma inv_adds todo : forall done fs env g val env1, all = done ++ todo -> inv fs env (length done) g val ->
  (forall n e, pget env n = Some e -> exists s', In s' all /\ s_name s' = n) ->
  means G (length done) env todo = Some env1 ->
  exists fs1 g' val', add_fields fmt fs todo = Ok fs1 /\ inv fs1 env1 (length all) g' val'.
Proof.
  induction todo as [|s todo IH]; intros done fs env g val env1 E Iv Hn Hm; cbn in Hm.
  - injection Hm as <-. rewrite app_nil_r in E. rewrite E. exists fs, g, val. split; [reflexivity|exact Iv].
  - destruct (meaning (G (length done)) env s) as [v|] eqn:Ev; [|discriminate].
    assert (nth_error all (length done) = Some s) as Hs by (rewrite E, nth_error_app2, Nat.sub_diag by lia; reflexivity).
    destruct (inv_add fs env (length done) g val s v Iv Hs Ev Hn) as (fs1 & g1 & val1 & E1 & I1).
    destruct (IH (done ++ [s]) fs1 (pset env (s_name s) (s_regions s, v)) g1 val1 env1) as (fs2 & g2 & val2 & E2 & I2).
    + now rewrite <- app_assoc.
    + rewrite app_length. cbn. now rewrite Nat.add_1_r.
    + intros n e He. destruct (pystr_eq_dec (s_name s) n) as [<-|N]; [exists s; split; [eapply nth_error_In; eauto|reflexivity]|].
      rewrite pget_pset_neq in He by exact N. eauto.
    + rewrite app_length. cbn. now rewrite Nat.add_1_r.
    + exists fs2, g2, val2. cbn. rewrite E1. cbn. auto.
Qed.
Lemma inv_all env : means G 0 [] all = Some env -> exists fs g val, mk_fields fmt all = Ok fs /\ inv fs env (length all) g val.
Proof.
  intros Hm. apply (inv_adds all [] _ [] (fun _ _ => zero) (fun _ _ => zero)); auto; [|discriminate].
  constructor.
  - apply wf_empty.
  - intros id [].
  - intros id [].
  - discriminate.
  - intros n _ id [].
  - intros id r [].
  - reflexivity.
  - intros x y r [].
Qed.
End M.
