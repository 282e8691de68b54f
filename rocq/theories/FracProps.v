(** C216, C217: which region every point, segment and polygon of the fractured box carries. *)
From Coq Require Import String.
From Verif Require Import Base FracModel.

(** *** Specification *)
(** Segment [id] of the common decomposition lies on fracture [i]. *)
Definition on_frac (maps : list omap) (i : nat) (id : Z) : Prop := exists f, nth_error maps (S i) = Some f /\ In id (map fst (m_seg f)).
(** Segment [id] is a part of the segment [o] of the box; polygon [id] is a part of the polygon [o] of the box (0: the outside). *)
Definition on_side (maps : list omap) (o id : Z) : Prop := exists b, nth_error maps 0 = Some b /\ In (id, o) (m_seg b).
Definition in_box (maps : list omap) (id : Z) : Prop := exists b o, nth_error maps 0 = Some b /\ In (id, o) (m_poly b) /\ o <> 0%Z.
(** The region number of a segment: outflow 3, inflow 2, otherwise 4 + the number of the last fracture through it, otherwise 0. *)
Definition seg_ok (maps : list omap) (inflow outflow id : Z) (k : nat) : Prop :=
  (on_side maps outflow id -> k = 3) /\
  (on_side maps inflow id -> k = 2) /\
  (~ on_side maps outflow id -> ~ on_side maps inflow id ->
     (forall i, on_frac maps i id -> (forall j, i < j -> ~ on_frac maps j id) -> k = 4 + i) /\
     ((forall i, ~ on_frac maps i id) -> k = 0)).
Definition poly_ok (maps : list omap) (id : Z) (k : nat) : Prop := (in_box maps id -> k = 1) /\ (~ in_box maps id -> k = 0).
(** The maps of the box are a dict: no key twice. *)
Definition box_dict (maps : list omap) : Prop := forall b, nth_error maps 0 = Some b -> NoDup (map fst (m_seg b)).

(** *** Lemmas *)
Lemma zget_put {A} : forall (m : zdict A) k v k', zget (zput m k v) k' = if Z.eqb k' k then Ok v else zget m k'.
Proof.
  induction m as [|[a x] m IH]; intros k v k'; cbn.
  - reflexivity.
  - destruct (Z.eqb_spec k a) as [->|N]; cbn.
    + destruct (Z.eqb_spec k' a); reflexivity.
    + destruct (Z.eqb_spec k' a) as [->|N'].
      * destruct (Z.eqb_spec a k) as [->|]; [contradiction|reflexivity].
      * apply IH.
Qed.

Lemma floop_const {A} (r : A) : forall (l : zdict Z) m, exists m', floop (fun m e => Ok (zput m (fst e) r)) l m = Ok m' /\
  forall id, (In id (map fst l) -> zget m' id = Ok r) /\ (~ In id (map fst l) -> zget m' id = zget m id).
Proof.
  induction l as [|[a o] l IH]; intros m; cbn.
  - exists m. split; [reflexivity|]. intros id. split; [contradiction|reflexivity].
  - destruct (IH (zput m a r)) as [m' [E H]]. exists m'. split; [exact E|]. intros id. destruct (H id) as [H1 H2]. split.
    + intros [->|I]; [|exact (H1 I)]. destruct (in_dec Z.eq_dec id (map fst l)) as [I|N]; [exact (H1 I)|].
      rewrite (H2 N), zget_put, Z.eqb_refl. reflexivity.
    + intros N. rewrite H2 by tauto. rewrite zget_put. destruct (Z.eqb_spec id a) as [->|]; [tauto|reflexivity].
Qed.

Lemma floop_ext {A S} (f g : S -> A -> res S) : (forall s a, f s a = g s a) -> forall l s, floop f l s = floop g l s.
Proof. intros H l. induction l as [|a l IH]; intros s; cbn; [reflexivity|]. rewrite H. destruct (g s a); cbn; auto. Qed.

Section Loops.
Context {T : Type}.
Variable regions : list (region T).

Lemma none_spec r0 : lget regions 0 = Ok r0 -> forall keys m, (forall k r, zget m k = Ok r -> r = r0) ->
  exists m', floop (fun m key => bind (lget regions 0) (fun r => Ok (zput m key r))) keys m = Ok m' /\
   (forall k r, zget m' k = Ok r -> r = r0) /\ (forall k, In k keys \/ zget m k = Ok r0 -> zget m' k = Ok r0).
Proof.
  intros E. induction keys as [|k keys IH]; intros m H; cbn.
  - exists m. split; [reflexivity|]. split; [exact H|]. intros k [[]|G]. exact G.
  - rewrite E. rewrite E in IH. cbn. destruct (IH (zput m k r0)) as [m' [E' [H1 H2]]].
    + intros k' r. rewrite zget_put. destruct (Z.eqb_spec k' k); [congruence|]. apply H.
    + exists m'. split; [exact E'|]. split; [exact H1|]. intros k' [[<-|I]|G].
      * apply H2. right. rewrite zget_put, Z.eqb_refl. reflexivity.
      * apply H2. left. exact I.
      * apply H2. right. rewrite zget_put. destruct (Z.eqb k' k); [reflexivity|exact G].
Qed.

Lemma frac_spec : forall fmaps i segs, 4 + i + List.length fmaps <= List.length regions ->
  exists segs', frac_loop regions i fmaps segs = Ok segs' /\ forall id,
    ((forall j f, nth_error fmaps j = Some f -> ~ In id (map fst (m_seg f))) -> zget segs' id = zget segs id) /\
    (forall j f, nth_error fmaps j = Some f -> In id (map fst (m_seg f)) ->
      (forall j' f', j < j' -> nth_error fmaps j' = Some f' -> ~ In id (map fst (m_seg f'))) ->
      zget segs' id = lget regions (4 + i + j)).
Proof.
  induction fmaps as [|f fmaps IH]; intros i segs L.
  - exists segs. split; [reflexivity|]. intros id. split; [reflexivity|]. intros [|j] f' H; discriminate.
  - cbn [frac_loop]. cbn [List.length] in L.
    destruct (nth_error regions (4 + i)) as [r|] eqn:E; [|apply nth_error_None in E; lia].
    assert (G : lget regions (4 + i) = Ok r) by (unfold lget; rewrite E; reflexivity).
    rewrite (floop_ext _ (fun m e => Ok (zput m (fst e) r))); [|intros s a; rewrite G; reflexivity].
    destruct (floop_const r (m_seg f) segs) as [m1 [E1 H1]]. rewrite E1. cbn [bind].
    destruct (IH (S i) m1 ltac:(lia)) as [m2 [E2 H2]]. exists m2. split; [exact E2|]. intros id.
    destruct (H1 id) as [H1a H1b]. destruct (H2 id) as [H2a H2b]. split.
    + intros N. rewrite H2a.
      * apply H1b. exact (N 0 f eq_refl).
      * intros j f' I. exact (N (S j) f' I).
    + intros [|j] f' I IN LAST.
      * cbn in I. injection I as <-. rewrite H2a.
        -- rewrite (H1a IN). rewrite Nat.add_0_r. symmetry. exact G.
        -- intros j f' I'. apply (LAST (S j) f'); [lia|exact I'].
      * cbn in I. rewrite (H2b j f' I IN).
        -- f_equal. lia.
        -- intros j' f'' LT I'. apply (LAST (S j') f''); [lia|exact I'].
Qed.

Lemma poly_spec r1 : lget regions 1 = Ok r1 -> forall box polys, exists polys', poly_loop regions box polys = Ok polys' /\
  forall id, ((exists o, In (id, o) box /\ o <> 0%Z) -> zget polys' id = Ok r1) /\
             (~ (exists o, In (id, o) box /\ o <> 0%Z) -> zget polys' id = zget polys id).
Proof.
  intros E. unfold poly_loop. induction box as [|[a o] box IH]; intros polys; cbn [floop fst snd].
  - exists polys. split; [reflexivity|]. intros id. split; [intros [o [[] _]]|reflexivity].
  - rewrite E. rewrite E in IH. destruct (Z.eqb_spec o 0) as [->|NZ]; cbn [bind].
    + destruct (IH polys) as [p' [E' H]]. exists p'. split; [exact E'|]. intros id. destruct (H id) as [H1 H2]. split.
      * intros [o [[I|I] N]]; [congruence|]. apply H1. eauto.
      * intros N. apply H2. intros [o [I N']]. apply N. exists o. split; [right; exact I|exact N'].
    + destruct (IH (zput polys a r1)) as [p' [E' H]]. exists p'. split; [exact E'|]. intros id. destruct (H id) as [H1 H2].
      assert (D : (exists o, In (id, o) box /\ o <> 0%Z) \/ ~ (exists o, In (id, o) box /\ o <> 0%Z)).
      { clear. induction box as [|[b p] box IH]; [right; intros [o [[] _]]|]. destruct IH as [[o [I N]]|N].
        - left. exists o. split; [right; exact I|exact N].
        - destruct (Z.eq_dec b id) as [->|NB].
          + destruct (Z.eq_dec p 0) as [->|NP]; [|left; exists p; split; [left; reflexivity|exact NP]].
            right. intros [o [[I|I] N']]; [congruence|]. apply N. eauto.
          + right. intros [o [[I|I] N']]; [congruence|]. apply N. eauto. }
      split.
      * intros [o' [[I|I] N]].
        -- injection I as -> ->. destruct D as [D|D]; [exact (H1 D)|]. rewrite (H2 D), zget_put, Z.eqb_refl. reflexivity.
        -- apply H1. eauto.
      * intros N. rewrite H2.
        -- rewrite zget_put. destruct (Z.eqb_spec id a) as [->|]; [|reflexivity]. exfalso. apply N. exists o. split; [left; reflexivity|exact NZ].
        -- intros [o' [I N']]. apply N. exists o'. split; [right; exact I|exact N'].
Qed.

Lemma bc_spec r2 r3 inflow outflow : lget regions 2 = Ok r2 -> lget regions 3 = Ok r3 -> inflow <> outflow ->
  forall box segs, NoDup (map fst box) -> exists segs', bc_loop regions inflow outflow box segs = Ok segs' /\
  forall id, (In (id, outflow) box -> zget segs' id = Ok r3) /\ (In (id, inflow) box -> zget segs' id = Ok r2) /\
             (~ In (id, outflow) box -> ~ In (id, inflow) box -> zget segs' id = zget segs id).
Proof.
  intros E2 E3 NE. unfold bc_loop. induction box as [|[a o] box IH]; intros segs ND; cbn [floop fst snd].
  - exists segs. split; [reflexivity|]. intros id. repeat split; try contradiction.
  - cbn in ND. inversion ND as [|? ? NA ND']; subst. rewrite E2, E3. rewrite E2, E3 in IH.
    assert (NB : forall v, ~ In (a, v) box) by (intros v I; apply NA; exact (in_map fst _ _ I)).
    destruct (Z.eqb_spec o inflow) as [->|N2].
    + destruct (Z.eqb_spec inflow outflow) as [E|_]; [contradiction|]. cbn [bind].
      destruct (IH (zput segs a r2) ND') as [s' [E' H]]. exists s'. split; [exact E'|]. intros id. destruct (H id) as [H1 [H2 H3]]. split; [|split].
      * intros [I|I]; [congruence|exact (H1 I)].
      * intros [I|I]; [|exact (H2 I)]. injection I as ->. rewrite H3 by apply NB. rewrite zget_put, Z.eqb_refl. reflexivity.
      * intros A B. rewrite H3; [|intros I; apply A; right; exact I|intros I; apply B; right; exact I].
        rewrite zget_put. destruct (Z.eqb_spec id a) as [->|]; [|reflexivity]. exfalso. apply B. left. reflexivity.
    + cbn [bind]. destruct (Z.eqb_spec o outflow) as [->|N3]; cbn [bind].
      * destruct (IH (zput segs a r3) ND') as [s' [E' H]]. exists s'. split; [exact E'|]. intros id. destruct (H id) as [H1 [H2 H3]]. split; [|split].
        -- intros [I|I]; [|exact (H1 I)]. injection I as ->. rewrite H3 by apply NB. rewrite zget_put, Z.eqb_refl. reflexivity.
        -- intros [I|I]; [congruence|exact (H2 I)].
        -- intros A B. rewrite H3; [|intros I; apply A; right; exact I|intros I; apply B; right; exact I].
           rewrite zget_put. destruct (Z.eqb_spec id a) as [->|]; [|reflexivity]. exfalso. apply A. left. reflexivity.
      * destruct (IH segs ND') as [s' [E' H]]. exists s'. split; [exact E'|]. intros id. destruct (H id) as [H1 [H2 H3]]. split; [|split].
        -- intros [I|I]; [congruence|exact (H1 I)].
        -- intros [I|I]; [congruence|exact (H2 I)].
        -- intros A B. apply H3; intros I; [apply A|apply B]; right; exact I.
Qed.
End Loops.

Lemma comp_ok {A B} (f : A -> res B) (P : A -> B -> Prop) : forall l, (forall x, In x l -> exists y, f x = Ok y /\ P x y) ->
  exists r, comp f l = Ok r /\ Forall2 P l r.
Proof.
  induction l as [|x l IH]; intros H; cbn.
  - exists []. split; [reflexivity|constructor].
  - destruct (H x (or_introl eq_refl)) as [y [E Py]]. destruct (IH (fun x I => H x (or_intror I))) as [r [E' F]].
    rewrite E. cbn. rewrite E'. cbn. exists (y :: r). split; [reflexivity|constructor; assumption].
Qed.

Lemma regions_list {T} (zero ms fs : T) n : make_regions zero ms fs n =
  [mkRegion ("NONE"%string, None) (-1) zero false true 0; mkRegion ("bulk_0"%string, None) 2 ms false false 1;
   mkRegion (".bc_inflow"%string, None) 1 zero true false 2; mkRegion (".bc_outflow"%string, None) 1 zero true false 3]
  ++ map (fun i => mkRegion ("frac_"%string, Some i) 1 fs false false (4 + i)) (seq 0 n).
Proof.
  unfold make_regions. induction n as [|n IH]; [reflexivity|].
  rewrite seq_S, fold_left_app, map_app. cbn [fold_left map]. rewrite IH. unfold add_reg at 1.
  rewrite <- app_assoc. f_equal. f_equal. f_equal. rewrite app_length, map_length, seq_length. reflexivity.
Qed.
Lemma regions_frac {T} (zero ms fs : T) n i : i < n ->
  nth_error (make_regions zero ms fs n) (4 + i) = Some (mkRegion ("frac_"%string, Some i) 1 fs false false (4 + i)).
Proof.
  intros L. rewrite regions_list. rewrite nth_error_app2 by (cbn; lia). replace (4 + i - _) with i by (cbn; lia).
  rewrite (map_nth_error (fun i => mkRegion ("frac_"%string, Some i) 1 fs false false (4 + i)) i (seq 0 n) (d := i)); [reflexivity|].
  rewrite (nth_error_nth' _ 0) by (rewrite seq_length; exact L). rewrite seq_nth by exact L. reflexivity.
Qed.
Lemma regions_length {T} (zero ms fs : T) n : List.length (make_regions zero ms fs n) = 4 + n.
Proof. rewrite regions_list, app_length, map_length, seq_length. reflexivity. Qed.

Lemma frac_dec maps id : (forall i, ~ on_frac maps i id) \/ (exists i, on_frac maps i id /\ forall j, i < j -> ~ on_frac maps j id).
Proof.
  assert (D : forall i, on_frac maps i id \/ ~ on_frac maps i id).
  { intros i. unfold on_frac. destruct (nth_error maps (S i)) as [f|]; [|right; intros [f [E _]]; discriminate].
    destruct (in_dec Z.eq_dec id (map fst (m_seg f))) as [I|N]; [left; eauto|]. right. intros [g [E I]]. congruence. }
  assert (B : forall i, on_frac maps i id -> i < List.length maps).
  { intros i [f [E _]]. assert (S i < List.length maps) by (apply nth_error_Some; congruence). lia. }
  assert (G : forall k, (forall i, on_frac maps i id -> i < k) -> (forall i, ~ on_frac maps i id) \/ (exists i, on_frac maps i id /\ forall j, i < j -> ~ on_frac maps j id)).
  { induction k as [|k IH]; intros H.
    - left. intros i O. specialize (H i O). lia.
    - destruct (D k) as [O|N].
      + right. exists k. split; [exact O|]. intros j L O'. specialize (H j O'). lia.
      + apply IH. intros i O. specialize (H i O). assert (i <> k) by (intros ->; contradiction). lia. }
  exact (G _ B).
Qed.

(** *** C216 *)
Theorem C216_regions : forall (T : Type) (zero mesh_step frac_step : T) (n : nat),
  let rs := make_regions zero mesh_step frac_step n in
  List.length rs = 4 + n /\
  (forall k r, nth_error rs k = Some r -> r_id r = k) /\
  (exists r0 r1 r2 r3, firstn 4 rs = [r0; r1; r2; r3] /\ r_not_used r0 = true /\
    (r_dim r1 = 2%Z /\ r_step r1 = mesh_step /\ r_boundary r1 = false /\ r_not_used r1 = false) /\
    (forall r, r = r2 \/ r = r3 -> r_dim r = 1%Z /\ r_boundary r = true /\ r_not_used r = false)) /\
  (forall i, i < n -> exists r, nth_error rs (4 + i) = Some r /\ r_name r = ("frac_"%string, Some i) /\ r_dim r = 1%Z /\ r_step r = frac_step /\
    r_boundary r = false /\ r_not_used r = false) /\
  (forall r r', In r rs -> In r' rs -> r_name r = r_name r' -> r = r').
Proof.
  intros T zero ms fs n rs. unfold rs.
  assert (ID : forall k r, nth_error (make_regions zero ms fs n) k = Some r -> r_id r = k).
  { intros k r H. destruct (le_lt_dec 4 k) as [L|L].
    - assert (k < 4 + n). { rewrite <- (regions_length zero ms fs n). apply nth_error_Some. congruence. }
      replace k with (4 + (k - 4)) in H by lia. rewrite regions_frac in H by lia. injection H as <-. cbn [r_id]. lia.
    - rewrite regions_list in H. rewrite nth_error_app1 in H by (cbn; lia). destruct k as [|[|[|[|k]]]]; cbn in H; try lia; injection H as <-; reflexivity. }
  split; [apply regions_length|]. split; [exact ID|]. split; [|split].
  - rewrite regions_list. do 4 eexists. split; [reflexivity|]. cbn. repeat split; destruct H as [->| ->]; reflexivity.
  - intros i L. eexists. split; [exact (regions_frac zero ms fs n i L)|]. cbn. repeat split.
  - intros r r'. rewrite regions_list. intros I I' E.
    apply in_app_or in I. apply in_app_or in I'.
    destruct I as [I|I]; destruct I' as [I'|I'].
    + cbn in I, I'. repeat (destruct I as [<-|I]; [repeat (destruct I' as [<-|I']; [first [reflexivity|discriminate E]|]); contradiction|]). contradiction.
    + apply in_map_iff in I' as [i [<- _]]. cbn in I. repeat (destruct I as [<-|I]; [discriminate E|]). contradiction.
    + apply in_map_iff in I as [i [<- _]]. cbn in I'. repeat (destruct I' as [<-|I']; [discriminate E|]). contradiction.
    + apply in_map_iff in I as [i [<- _]]. apply in_map_iff in I' as [j [<- _]]. cbn in E. congruence.
Qed.

Theorem C216_region_ids : forall (T : Type) (zero mesh_step frac_step : T) (n : nat) (d : decomp) (maps : list omap) (inflow outflow : Z),
  List.length maps = S n -> box_dict maps -> inflow <> outflow ->
  exists pl sg nd, make_frac_mesh zero mesh_step frac_step n d maps inflow outflow = Ok (pl, sg, nd) /\
    Forall2 (poly_ok maps) (d_polygons d) pl /\ Forall2 (seg_ok maps inflow outflow) (d_segments d) sg /\ nd = repeat 0 (List.length (d_points d)).
Proof.
  intros T zero ms fs n d maps inflow outflow L BD NE.
  destruct (C216_regions T zero ms fs n) as [LEN [ID _]]. unfold make_frac_mesh, make_decomposition.
  set (rs := make_regions zero ms fs n) in *.
  assert (G : forall k, k < 4 + n -> exists r, lget rs k = Ok r /\ r_id r = k).
  { intros k LK. unfold lget. destruct (nth_error rs k) as [r|] eqn:E; [|apply nth_error_None in E; lia]. exists r. split; [reflexivity|exact (ID k r E)]. }
  destruct (G 0 ltac:(lia)) as [r0 [G0 I0]]. destruct (G 1 ltac:(lia)) as [r1 [G1 I1]].
  destruct (G 2 ltac:(lia)) as [r2 [G2 I2]]. destruct (G 3 ltac:(lia)) as [r3 [G3 I3]].
  assert (N : forall keys, exists m, none_map rs keys = Ok m /\ forall k, In k keys -> zget m k = Ok r0).
  { intros keys. destruct (none_spec rs r0 G0 keys []) as [m [E [_ H]]]; [intros k r H; discriminate H|]. exists m. split; [exact E|]. intros k I. apply H. left. exact I. }
  destruct (N (d_points d)) as [pts [EP HP]]. destruct (N (d_segments d)) as [segs [ES HS]]. destruct (N (d_polygons d)) as [polys [EL HL]].
  destruct maps as [|box fmaps]; [discriminate L|]. cbn [tl].
  destruct (frac_spec rs fmaps 0 segs) as [segs1 [EF HF]]; [cbn in L; lia|].
  destruct (poly_spec rs r1 G1 (m_poly box) polys) as [polys1 [EB HB]].
  destruct (bc_spec rs r2 r3 inflow outflow G2 G3 NE (m_seg box) segs1 (BD box eq_refl)) as [segs2 [EC HC]].
  rewrite EP, ES, EL. cbn [bind]. rewrite EF. cbn [bind]. change (lget (box :: fmaps) 0) with (Ok box). cbn [bind]. rewrite EB. cbn [bind]. rewrite EC. cbn [bind].
  unfold fill_ids.
  destruct (comp_ok (fun k => bind (zget polys1 k) (fun r => Ok (r_id r))) (poly_ok (box :: fmaps)) (d_polygons d)) as [pl [E1 F1]].
  { intros id IN. destruct (HB id) as [B1 B2].
    assert (EQ : in_box (box :: fmaps) id <-> exists o, In (id, o) (m_poly box) /\ o <> 0%Z).
    { split; [intros [b [o [E [I NZ]]]]; cbn in E; injection E as <-; eauto|intros [o [I NZ]]; exists box, o; split; [reflexivity|split; assumption]]. }
    assert (D : (exists o, In (id, o) (m_poly box) /\ o <> 0%Z) \/ ~ (exists o, In (id, o) (m_poly box) /\ o <> 0%Z)).
    { clear. induction (m_poly box) as [|[b p] l IH]; [right; intros [o [[] _]]|]. destruct IH as [[o [I N]]|N]; [left; exists o; split; [right; exact I|exact N]|].
      destruct (Z.eq_dec b id) as [->|NB]; [destruct (Z.eq_dec p 0) as [->|NP]; [|left; exists p; split; [left; reflexivity|exact NP]]|];
      right; intros [o [[I|I] N']]; try congruence; apply N; eauto. }
    destruct D as [D|D].
    - rewrite (B1 D). cbn. exists (r_id r1). split; [reflexivity|]. split; [intros _; exact I1|]. intros X. exfalso. apply X. apply EQ. exact D.
    - rewrite (B2 D), (HL id IN). cbn. exists (r_id r0). split; [reflexivity|]. split; [intros X; exfalso; apply D; apply EQ; exact X|]. intros _. exact I0. }
  rewrite E1. cbn [bind].
  destruct (comp_ok (fun k => bind (zget segs2 k) (fun r => Ok (r_id r))) (seg_ok (box :: fmaps) inflow outflow) (d_segments d)) as [sg [E2 F2]].
  { intros id IN. destruct (HC id) as [C1 [C2 C3]].
    assert (EQ : forall o, on_side (box :: fmaps) o id <-> In (id, o) (m_seg box)).
    { intros o. split; [intros [b [E I]]; cbn in E; injection E as <-; exact I|intros I; exists box; split; [reflexivity|exact I]]. }
    assert (PD : forall o, In (id, o) (m_seg box) \/ ~ In (id, o) (m_seg box)).
    { intros o. destruct (in_dec (fun a b : Z * Z => ltac:(decide equality; apply Z.eq_dec)) (id, o) (m_seg box)); auto. }
    assert (UNI : In (id, outflow) (m_seg box) -> In (id, inflow) (m_seg box) -> False).
    { intros A B. rewrite (C1 A) in C2. specialize (C2 B). injection C2 as Q. rewrite Q in I3. rewrite I2 in I3. discriminate I3. }
    destruct (PD outflow) as [O|NO]; [|destruct (PD inflow) as [J|NJ]].
    - rewrite (C1 O). cbn. exists (r_id r3). split; [reflexivity|]. split; [intros _; exact I3|]. split; [intros X; exfalso; exact (UNI O (proj1 (EQ _) X))|].
      intros X. exfalso. apply X. apply EQ. exact O.
    - rewrite (C2 J). cbn. exists (r_id r2). split; [reflexivity|]. split; [intros X; exfalso; exact (NO (proj1 (EQ _) X))|]. split; [intros _; exact I2|].
      intros _ X. exfalso. apply X. apply EQ. exact J.
    - rewrite (C3 NO NJ). destruct (HF id) as [HFa HFb].
      destruct (frac_dec (box :: fmaps) id) as [NF|[i [[f [EI IF]] LAST]]].
      + rewrite HFa.
        * rewrite (HS id IN). cbn. exists (r_id r0). split; [reflexivity|]. split; [intros X; exfalso; exact (NO (proj1 (EQ _) X))|].
          split; [intros X; exfalso; exact (NJ (proj1 (EQ _) X))|]. intros _ _. split; [|intros _; exact I0]. intros i O. exfalso. exact (NF i O).
        * intros j f E I. apply (NF j). exists f. split; [exact E|exact I].
      + cbn in EI. rewrite (HFb i f EI IF).
        * assert (i < n). { assert (i < List.length fmaps) by (apply nth_error_Some; congruence). cbn in L. lia. }
          destruct (G (4 + 0 + i) ltac:(lia)) as [r [Gr Ir]]. rewrite Gr. cbn [bind]. exists (r_id r). split; [reflexivity|].
          split; [intros X; exfalso; exact (NO (proj1 (EQ _) X))|]. split; [intros X; exfalso; exact (NJ (proj1 (EQ _) X))|].
          intros _ _. split.
          -- intros i' O' LAST'. destruct (lt_eq_lt_dec i i') as [[LT|<-]|LT].
             ++ exfalso. exact (LAST i' LT O').
             ++ rewrite Ir. lia.
             ++ exfalso. apply (LAST' i LT). exists f. split; [exact EI|exact IF].
          -- intros X. exfalso. apply (X i). exists f. split; [exact EI|exact IF].
        * intros j f' LT E I. apply (LAST j LT). exists f'. split; [exact E|exact I]. }
  rewrite E2. cbn [bind].
  destruct (comp_ok (fun k => bind (zget pts k) (fun r => Ok (r_id r))) (fun _ y => y = 0) (d_points d)) as [nd [E3 F3]].
  { intros id IN. rewrite (HP id IN). cbn. exists (r_id r0). split; [reflexivity|exact I0]. }
  rewrite E3. cbn [bind]. exists pl, sg, nd. split; [reflexivity|]. split; [exact F1|]. split; [exact F2|].
  clear - F3. induction F3 as [|x y l r H F IH]; [reflexivity|]. cbn. rewrite H, <- IH. reflexivity.
Qed.

(** A box with sides 1 (outflow) and 3 (inflow), two fractures crossing each other. *)
Definition ex_d : decomp := (mkDecomp [10; 11] [20; 21; 22; 23; 24; 25] [30; 31])%Z.
Definition ex_maps : list omap :=
  [mkOmap [(20, 1); (21, 3); (22, 0)] [(30, 0); (31, 1)]; mkOmap [(23, 0); (24, 0)] []; mkOmap [(25, 0); (24, 0)] []]%Z.
Example C216_region_ids_ex : List.length ex_maps = 3 /\ box_dict ex_maps /\ 3%Z <> 1%Z /\
  make_frac_mesh 0 5 1 2 ex_d ex_maps 3 1 = Ok ([0; 1], [3; 2; 0; 4; 5; 5], [0; 0]).
Proof.
  split; [reflexivity|]. split; [|split; [lia|reflexivity]].
  intros b E. cbn in E. injection E as <-. repeat constructor; cbn; intuition lia.
Qed.
Example C216_regions_ex : map r_id (make_regions 0 5 1 2) = [0; 1; 2; 3; 4; 5] /\ map r_step (make_regions 0 5 1 2) = [0; 5; 0; 0; 1; 1].
Proof. split; reflexivity. Qed.

(** *** C217: every part of a fracture carries the region of that fracture, numbered 1000 + i as the documentation says *)
(** [num i] is the number of the region of fracture i. *)
Definition fracture_regions (num : nat -> nat) (n : nat) (d : decomp) (maps : list omap) (sg : list nat) : Prop :=
  forall k id i, nth_error (d_segments d) k = Some id -> i < n -> on_frac maps i id -> nth_error sg k = Some (num i).

(** True with the numbers 4 + i when no segment lies on two fractures or on the inflow or outflow side; missing: the other cases and the
    documented numbers. *)
Theorem C217_fracture_partial : forall (T : Type) (zero mesh_step frac_step : T) (n : nat) (d : decomp) (maps : list omap) (inflow outflow : Z) pl sg nd,
  List.length maps = S n -> box_dict maps -> inflow <> outflow ->
  (forall i j id, on_frac maps i id -> on_frac maps j id -> i = j) ->
  (forall i id, on_frac maps i id -> ~ on_side maps inflow id /\ ~ on_side maps outflow id) ->
  make_frac_mesh zero mesh_step frac_step n d maps inflow outflow = Ok (pl, sg, nd) ->
  fracture_regions (fun i => 4 + i) n d maps sg.
Proof.
  intros T zero ms fs n d maps inflow outflow pl sg nd L BD NE U S E k id i NK LT O.
  destruct (C216_region_ids T zero ms fs n d maps inflow outflow L BD NE) as [pl' [sg' [nd' [E' [_ [F _]]]]]].
  rewrite E in E'. injection E' as <- <- <-.
  assert (X : exists y, nth_error sg k = Some y /\ seg_ok maps inflow outflow id y).
  { clear - F NK. revert k NK. induction F as [|x y l r H F IH]; intros [|k] NK; try discriminate NK.
    - cbn in NK. injection NK as ->. exists y. split; [reflexivity|exact H].
    - exact (IH k NK). }
  destruct X as [y [Y [_ [_ H]]]]. rewrite Y. f_equal. destruct (S i id O) as [S1 S2]. destruct (H S2 S1) as [H1 _].
  apply (H1 i O). intros j LJ O'. pose proof (U i j id O O'). lia.
Qed.
Example C217_fracture_partial_ex :
  let maps := [mkOmap [(20, 1); (21, 3)] [(31, 1)]; mkOmap [(23, 0); (24, 0)] []; mkOmap [(25, 0)] []]%Z in
  make_frac_mesh 0 5 1 2 (mkDecomp [] [20; 21; 23; 24; 25] [31])%Z maps 3 1 = Ok ([1], [3; 2; 4; 4; 5], []) /\
  on_frac maps 0 24 /\ on_frac maps 1 25 /\ ~ on_frac maps 0 25.
Proof.
  cbn zeta. split; [reflexivity|]. split; [eexists; split; [reflexivity|cbn; tauto]|]. split; [eexists; split; [reflexivity|cbn; tauto]|].
  intros [f [E I]]. cbn in E. injection E as <-. cbn in I. lia.
Qed.

(** Two equal fractures: the first one has no segment of its own. A fracture on the outflow side: none either. The documented numbers: never. *)
Theorem C217_fracture_refuted :
  (exists n d maps inflow outflow pl sg nd, List.length maps = S n /\ box_dict maps /\ inflow <> outflow /\
     make_frac_mesh 0 5 1 n d maps inflow outflow = Ok (pl, sg, nd) /\ (forall i id, on_frac maps i id -> ~ on_side maps outflow id /\ ~ on_side maps inflow id) /\
     ~ fracture_regions (fun i => 4 + i) n d maps sg /\ exists id, on_frac maps 0 id /\ In id (d_segments d) /\ ~ In 4 sg) /\
  (exists d maps inflow outflow pl sg nd, List.length maps = 2 /\ box_dict maps /\ inflow <> outflow /\
     make_frac_mesh 0 5 1 1 d maps inflow outflow = Ok (pl, sg, nd) /\ ~ fracture_regions (fun i => 4 + i) 1 d maps sg) /\
  (exists d maps inflow outflow pl sg nd, List.length maps = 2 /\ box_dict maps /\ inflow <> outflow /\
     make_frac_mesh 0 5 1 1 d maps inflow outflow = Ok (pl, sg, nd) /\
     fracture_regions (fun i => 4 + i) 1 d maps sg /\ ~ fracture_regions (fun i => 1000 + i) 1 d maps sg).
Proof.
  split; [|split].
  - exists 2, (mkDecomp [] [23] [])%Z, [mkOmap [] []; mkOmap [(23, 0)] []; mkOmap [(23, 0)] []]%Z, 3%Z, 1%Z, [], [5], [].
    split; [reflexivity|]. split; [intros b E; cbn in E; injection E as <-; constructor|]. split; [lia|]. split; [reflexivity|].
    split; [intros i id _; split; intros [b [E I]]; cbn in E; injection E as <-; exact I|].
    split.
    + intros H. specialize (H 0 23%Z 0 eq_refl ltac:(lia)). assert (X : nth_error [5] 0 = Some (4 + 0)) by (apply H; eexists; split; [reflexivity|cbn; tauto]). discriminate X.
    + exists 23%Z. split; [eexists; split; [reflexivity|cbn; tauto]|]. split; [cbn; tauto|]. cbn. lia.
  - exists (mkDecomp [] [23] [])%Z, [mkOmap [(23, 1)] []; mkOmap [(23, 0)] []]%Z, 3%Z, 1%Z, [], [3], [].
    split; [reflexivity|]. split; [intros b E; cbn in E; injection E as <-; repeat constructor; cbn; tauto|]. split; [lia|]. split; [reflexivity|].
    intros H. specialize (H 0 23%Z 0 eq_refl ltac:(lia)). assert (X : nth_error [3] 0 = Some (4 + 0)) by (apply H; eexists; split; [reflexivity|cbn; tauto]). discriminate X.
  - exists (mkDecomp [] [23] [])%Z, [mkOmap [] []; mkOmap [(23, 0)] []]%Z, 3%Z, 1%Z, [], [4], [].
    split; [reflexivity|]. split; [intros b E; cbn in E; injection E as <-; constructor|]. split; [lia|]. split; [reflexivity|]. split.
    + intros [|k] id i NK LT _; [|cbn in NK; destruct k; discriminate NK]. replace i with 0 by lia. reflexivity.
    + intros H. specialize (H 0 23%Z 0 eq_refl ltac:(lia)).
      assert (X : nth_error [4] 0 = Some (1000 + 0)) by (apply H; eexists; split; [reflexivity|cbn; tauto]). discriminate X.
Qed.
