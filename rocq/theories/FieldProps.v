(** Properties of sets of dependent fields: C57, C86. *)
From Verif Require Import Base BaseFacts FieldModel FieldSpec FieldProofs FieldMeaning.

Section Props.
Context {V P : Type}.
Variable zero : V.
Variable fmt : V -> pystr.
Variable rf_ok : nat -> list P -> bool.
Variable rf_draw : nat -> nat -> list P -> list V.

Definition with_outer (fs : @fset V) (outer : option (list pystr)) : fset :=
  match outer with None => fs | Some o => set_outer_fields fs o end.
Definition asked (outer : option (list pystr)) (n : pystr) : Prop :=
  match outer with None => True | Some o => In n o end.
(** Realisation [G k] of the random field at position [k] is what its sampler returns at the points of its regions. *)
Definition realised (G : nat -> P -> V) (d : nat) (ss : list (@spec V)) (rmap : list (pystr * nat)) (mesh : list (P * nat)) : Prop :=
  forall k s r, nth_error ss k = Some s -> s_kind s = KRandom r ->
    let pts := points_of rmap (s_regions s) mesh in
    rf_draw r (d + draws_before ss k) pts = map (G k) pts.

Lemma set_points_ok fs m0 points regs rmap m : wf zero fs -> single_use zero fs ->
  set_points zero rf_ok fs m0 points regs rmap = Ok m ->
  length points = length regs /\ m_n m = length points /\ m_draws m = m_draws m0
  /\ forall id, In id (order fs) -> placed zero points regs rmap fs m id.
Proof.
  intros W U. unfold set_points. destruct (Nat.eqb_spec (length points) (length regs)) as [L|]; [|discriminate]. intros E.
  destruct (set_fields_ok zero rf_ok points regs rmap fs (order fs) _ m E) as (A & B & C & _); auto.
  - apply (w_nodup _ _ W).
Qed.
Lemma with_outer_facts fs outer : wf zero fs -> forall id, In id (order fs) ->
  let f := obj zero fs id in let f' := obj zero (with_outer fs outer) id in
  f_name f' = f_name f /\ f_kind f' = f_kind f /\ f_params f' = f_params f /\ f_regions f' = f_regions f
  /\ (f_outer f = true -> (f_outer f' = true <-> asked outer (f_name f))).
Proof.
  intros W id I. destruct outer as [o|]; cbn [with_outer asked]; [|ands; auto; tauto].
  destruct (obj_outer zero fs o id) as (b & E & Hb). cbv zeta. rewrite E. cbn. ands; auto. intros _. apply Hb. now apply (w_in _ _ W).
Qed.

(** C86: a list of fields, each restricted to the same regions as its parameters, no two using one random field object,
    and none called like a number: the set is built, and after set_points a sample gives every field that is asked for
    its values at the points of its regions, computed from the values of its parameters at the same point, and zero
    elsewhere; nothing else but fields made of numbers is returned. *)
Theorem C86_fields G ss env :
  Forall (fun s => mk_field (s_name s) (s_kind s) (s_params s) (s_regions s) = Ok s) ss ->
  no_clash fmt ss -> NoDup (rf_used ss) -> means G 0 [] ss = Some env ->
  exists fs, mk_fields fmt ss = Ok fs
    /\ forall outer m0 points regs rmap m,
         set_points zero rf_ok (with_outer fs outer) m0 points regs rmap = Ok m ->
         realised G (m_draws m0) ss rmap (combine points regs) ->
         exists m' result, sample zero rf_draw (with_outer fs outer) m = Ok (m', result)
           /\ (forall n rs v, pget env n = Some (rs, v) ->
                 (asked outer n -> pget result n = Some (on_mesh zero rmap rs v (combine points regs)))
                 /\ (~ asked outer n -> pget result n = None))
           /\ (forall n, pget result n <> None -> pget env n <> None \/ exists s c, In s ss /\ In (PNum c) (s_params s) /\ n = str "const_" ++ fmt c).
Proof.
  intros Hv Hc Hd Hm. destruct (inv_all zero fmt G ss Hv Hc Hd env Hm) as (fs & g & val & E & Iv). exists fs. split; [exact E|].
  intros outer m0 points regs rmap m Es Hr. set (fs1 := with_outer fs outer) in *.
  pose proof (v_wf _ _ _ _ _ _ _ _ _ Iv) as W. pose proof (with_outer_facts fs outer W) as Wo. fold fs1 in Wo.
  assert (order fs1 = order fs) as Eo by (destruct outer; reflexivity).
  assert (wf zero fs1) as W1 by (destruct outer; [apply wf_outer, W|exact W]).
  assert (forall x, In x (order fs) -> forall q, In q (f_params (obj zero fs x)) -> In q (order fs)) as Hq.
  { intros x Hx q H. apply in_split in Hx as (l1 & l2 & El). pose proof (w_before _ _ W l1 x l2 El q H). rewrite El. apply in_or_app. now left. }
  assert (aligned zero fs1) as A1.
  { intros x Hx q. rewrite Eo in Hx. destruct (Wo x Hx) as (_ & _ & -> & -> & _). intros H.
    destruct (Wo q (Hq x Hx q H)) as (_ & _ & _ & -> & _). exact (v_al _ _ _ _ _ _ _ _ _ Iv x Hx q H). }
  assert (single_use zero fs1) as U1.
  { intros a b r Ha Hb. rewrite Eo in Ha, Hb. destruct (Wo a Ha) as (_ & -> & _), (Wo b Hb) as (_ & -> & _).
    exact (v_once _ _ _ _ _ _ _ _ _ Iv a b r Ha Hb). }
  assert (is_values zero fs1 g val) as V1.
  { intros x Hx p. rewrite Eo in Hx. destruct (Wo x Hx) as (_ & -> & -> & _). exact (v_val _ _ _ _ _ _ _ _ _ Iv x Hx p). }
  assert (forall l id, (forall x, In x l -> In x (order fs)) -> draw_no zero fs1 l id = draw_no zero fs l id) as Dn.
  { intros l id Hl. apply draw_no_ext. intros x Hx. unfold is_random. now destruct (Wo x (Hl x Hx)) as (_ & -> & _). }
  destruct (set_points_ok fs1 m0 points regs rmap m W1 U1 Es) as (L & Hn & Dm & Pl).
  destruct (sample_ok zero rf_draw points regs rmap L fs1 m g val W1 A1 V1 Hn Pl) as (m' & result & Es' & Gd).
  { intros id r Hid Kid. rewrite Eo in Hid |- *. destruct (Wo id Hid) as (_ & Kk & _ & Rr & _). rewrite Kk in Kid. rewrite Rr.
    destruct (v_rand _ _ _ _ _ _ _ _ _ Iv id r Hid Kid) as (j & s & _ & Hj & Ks & -> & -> & Dr).
    rewrite Dn, Dr, Dm by auto. exact (Hr j s r Hj Ks). }
  exists m', result. split; [exact Es'|]. destruct Gd as (_ & _ & _ & _ & _ & _ & R1 & R2).
  assert (forall n, pget result n <> None <-> In n (map fst result)) as Pk.
  { clear. intros n. induction result as [|[k w] l IH]; cbn; [tauto|]. destruct (pystr_eq_dec n k) as [->|N]; [split; [now left|discriminate]|].
    rewrite IH. intuition congruence. }
  split.
  - intros n rs v Hn'. destruct (v_env _ _ _ _ _ _ _ _ _ Iv n rs v Hn') as (id & a & b & _ & B & C & D & F & O & Lb).
    assert (In id (order fs)) as Hid by (rewrite B; apply in_or_app; right; now left).
    destruct (Wo id Hid) as (Nn & _ & _ & Rr & Oo). specialize (Oo O). rewrite C in Nn, Oo. split.
    + intros As. rewrite (R2 n id a b).
      * rewrite Rr, D. f_equal. unfold on_mesh. apply map_ext. intros pr. now rewrite F.
      * now rewrite Eo.
      * now apply Oo.
      * exact Nn.
      * intros x Hx Hxn. exfalso. apply (Lb x Hx). assert (In x (order fs)) as Ix by (rewrite B; apply in_or_app; right; now right).
        destruct (Wo x Ix) as (<- & _). exact Hxn.
    + intros Na. destruct (pget result n) as [l|] eqn:El; [|reflexivity]. exfalso.
      assert (In n (map fst result)) as Hin by (apply Pk; congruence). apply R1 in Hin as (x & Hx & Ox & Nx). rewrite Eo in Hx.
      destruct outer as [o|]; [|apply Na; exact I]. apply Na. cbn. destruct (obj_outer zero fs o x) as (bb & Ex & Hb).
      unfold fs1 in Ox, Nx. cbn [with_outer] in Ox, Nx. rewrite Ex in Ox, Nx. cbn in Ox, Nx. rewrite Nx in Hb. apply Hb; [|exact Ox]. now apply (w_in _ _ W).
  - intros n Hin. apply Pk, R1 in Hin as (x & Hx & Ox & Nx). rewrite Eo in Hx. destruct (Wo x Hx) as (Nn & _). rewrite Nn in Nx.
    destruct (pget env n) as [e|] eqn:En; [left; congruence|]. right. exact (v_keys _ _ _ _ _ _ _ _ _ Iv n En x Hx Nx).
Qed.
End Props.
Print Assumptions C86_fields.

(** C86: if the samplers of the random fields give the value of a realisation at each point, the value of a field is
    a function of the point and its region: permuting the points permutes the values. *)
Theorem C86_permutation {V P} (zero : V) (fmt : V -> pystr) (rf_ok : nat -> list P -> bool) (F : nat -> nat -> P -> V) d ss env fs outer n e :
  let rf_draw r k pts := map (F r k) pts in
  let G k p := match nth_error ss k with
               | Some s => match spec_random s with Some r => F r (d + draws_before ss k) p | None => zero end
               | None => zero end in
  Forall (fun s => mk_field (s_name s) (s_kind s) (s_params s) (s_regions s) = Ok s) ss ->
  no_clash fmt ss -> NoDup (rf_used ss) -> means G 0 [] ss = Some env -> mk_fields fmt ss = Ok fs ->
  pget env n = Some e -> asked outer n -> forall rmap,
  exists w : P * nat -> V, forall m0 points regs m,
    m_draws m0 = d -> set_points zero rf_ok (with_outer fs outer) m0 points regs rmap = Ok m ->
    exists m' result, sample zero rf_draw (with_outer fs outer) m = Ok (m', result)
      /\ pget result n = Some (map w (combine points regs)).
Proof.
  cbv zeta. intros Hv Hc Hd Hm Ef He Ha rmap. destruct e as [rs v].
  exists (fun pr => if inside rmap rs (snd pr) then v (fst pr) else zero). intros m0 points regs m Dm Es.
  destruct (C86_fields zero fmt rf_ok (fun r k pts => map (F r k) pts) _ ss env Hv Hc Hd Hm) as (fs' & Ef' & H).
  rewrite Ef in Ef'. injection Ef' as <-. destruct (H outer m0 points regs rmap m Es) as (m' & result & Er & A & _).
  - intros k s r Hk Ks. cbv zeta. apply map_ext. intros p. rewrite Hk. unfold spec_random. rewrite Ks. now rewrite Dm.
  - exists m', result. split; [exact Er|]. now apply (A n rs v He).
Qed.
Print Assumptions C86_permutation.

(** A random field on one region, a function of it and of a number there, a constant elsewhere; four points. *)
Definition ex_fmt (c : nat) : pystr := [ascii_of_nat (48 + c)].
Definition ex_F (r k p : nat) : nat := r + 10 * k + p.
Definition ex_specs : list (@spec nat) :=
  [mkSpec (str "por") (KRandom 3) [] [str "top"];
   mkSpec (str "cond") (KFunc 2 (fun l => 10 * nth 0 l 0 + nth 1 l 0)) [PName (str "por"); PNum 7] [str "top"];
   mkSpec (str "repo") (KConst 5) [] [str "bottom"]].
Example C86_ex :
  Forall (fun s => mk_field (s_name s) (s_kind s) (s_params s) (s_regions s) = Ok s) ex_specs
  /\ no_clash ex_fmt ex_specs /\ NoDup (rf_used ex_specs)
  /\ (exists env, means (fun _ p => 3 + p) 0 [] ex_specs = Some env
        /\ pget env (str "cond") <> None)
  /\ exists fs m result m',
       mk_fields ex_fmt ex_specs = Ok fs
       /\ set_points 0 (fun _ _ => true) (with_outer fs (Some [str "cond"; str "repo"])) (mkM 0 [] [] [] 0) [1; 2; 3; 4] [8; 9; 8; 9] [(str "bottom", 8); (str "top", 9)] = Ok m
       /\ sample 0 (fun r k => map (ex_F r k)) (with_outer fs (Some [str "cond"; str "repo"])) m = Ok (m', result)
       /\ result = [(str "cond", [0; 57; 0; 77]); (str "repo", [5; 0; 5; 0])].
Proof.
  split; [repeat constructor|]. split.
  { intros s c s' Hs Hc Hs'. cbn in Hs. destruct Hs as [<-|[<-|[<-|[]]]]; cbn in Hc; try (destruct Hc; fail).
    destruct Hc as [Hc|[Hc|[]]]; [discriminate|]. injection Hc as <-.
    cbn in Hs'. destruct Hs' as [<-|[<-|[<-|[]]]]; (split; [cbn; discriminate|]); cbn; intuition discriminate. }
  split; [repeat constructor; intros []|]. split; [eexists; split; [reflexivity|discriminate]|].
  eexists _, _, _, _. split; [vm_compute; reflexivity|]. split; [vm_compute; reflexivity|]. split; vm_compute; reflexivity.
Qed.

(** C57 in full is false. One random field object in two fields with different regions, as in the example in the
    documentation of Fields (correlated_field.py:119-127): the first field gets values of the points of the second. And a
    function restricted to other regions than its parameter is evaluated from values at other points. The sampler is the
    same at all points. *)
Theorem C57_refuted :
  (exists (F : nat -> nat -> nat -> nat) (ss : list (@spec nat)) fs m m' result v,
     Forall (fun s => mk_field (s_name s) (s_kind s) (s_params s) (s_regions s) = Ok s) ss
     /\ mk_fields ex_fmt ss = Ok fs
     /\ set_points 0 (fun _ _ => true) fs (mkM 0 [] [] [] 0) [5; 7] [1; 2] [(str "top", 1); (str "bottom", 2)] = Ok m
     /\ sample 0 (fun r k => map (F r k)) fs m = Ok (m', result)
     /\ nth_error ss 0 = Some (mkSpec (str "por_top") (KRandom 0) [] [str "top"])
     /\ pget result (str "por_top") = Some [v; 0] /\ forall k, v <> F 0 k 5)
  /\ (exists (F : nat -> nat -> nat -> nat) (ss : list (@spec nat)) fs m m' result a b h,
     Forall (fun s => mk_field (s_name s) (s_kind s) (s_params s) (s_regions s) = Ok s) ss
     /\ mk_fields ex_fmt ss = Ok fs
     /\ set_points 0 (fun _ _ => true) fs (mkM 0 [] [] [] 0) [5; 7] [1; 2] [(str "top", 1); (str "bottom", 2)] = Ok m
     /\ sample 0 (fun r k => map (F r k)) fs m = Ok (m', result)
     /\ nth_error ss 1 = Some (mkSpec (str "f") (KFunc 1 h) [PName (str "r")] [str "bottom"])
     /\ pget result (str "r") = Some [a; 0] /\ pget result (str "f") = Some [0; b]
     /\ b = h [a] /\ h [a] <> h [0]).
Proof.
  split.
  - exists (fun r k p => 100 * k + p),
      [mkSpec (str "por_top") (KRandom 0) [] [str "top"]; mkSpec (str "por_bot") (KRandom 0) [] [str "bottom"]].
    eexists _, _, _, _, 7. split; [repeat constructor|]. split; [vm_compute; reflexivity|]. split; [vm_compute; reflexivity|].
    split; [vm_compute; reflexivity|]. split; [reflexivity|]. split; [vm_compute; reflexivity|]. intros k. lia.
  - exists (fun r k p => 100 * k + p),
      [mkSpec (str "r") (KRandom 0) [] [str "top"]; mkSpec (str "f") (KFunc 1 (fun l => S (nth 0 l 0))) [PName (str "r")] [str "bottom"]].
    eexists _, _, _, _, 5, 6, (fun l => S (nth 0 l 0)). split; [repeat constructor|]. split; [vm_compute; reflexivity|]. split; [vm_compute; reflexivity|].
    split; [vm_compute; reflexivity|]. split; [reflexivity|]. split; [vm_compute; reflexivity|]. split; [vm_compute; reflexivity|].
    split; [reflexivity|]. cbn. lia.
Qed.
Print Assumptions C57_refuted.

(** ** Every set of fields *)
Section Any.
Context {V P : Type}.
Variable zero : V.
Variable fmt : V -> pystr.
Variable rf_ok : nat -> list P -> bool.
Variable rf_draw : nat -> nat -> list P -> list V.
Lemma set_points_ids fs l : forall points regs rmap m m1, m_n m = length points -> NoDup l ->
  set_fields zero rf_ok fs points (group_regions 0 regs []) rmap m l = Ok m1 ->
  m_n m1 = length points /\ (forall id, In id l -> exists ids, field_ids points regs rmap (obj zero fs id) ids /\ dget (m_ids m1) id = Some ids)
  /\ (forall id, ~ In id l -> dget (m_ids m1) id = dget (m_ids m) id).
Proof.
  induction l as [|id l IH]; intros points regs rmap m m1 Hn Nd; cbn.
  - intros [= <-]. ands; auto. intros id [].
  - destruct (set_field _ _ _ _ _ _ _ _) as [m2|] eqn:E; [|discriminate]. cbn. intros E1. apply NoDup_cons_iff in Nd as [Ni Nd].
    destruct (set_field_ok zero rf_ok points regs rmap fs m id m2 E Hn) as (ids & F & N2 & _ & I2 & _).
    destruct (IH points regs rmap m2 m1) as (A & B & C); auto; [congruence|]. ands; auto.
    + intros x [<-|Hx]; [|now apply B]. exists ids. split; [exact F|]. rewrite (C id Ni), I2. apply dget_dset_eq.
    + intros x Hx. rewrite C by (intros H; apply Hx; now right). rewrite I2. apply dget_dset_neq. intros ->. apply Hx. now left.
Qed.
Lemma field_sample_ids m f id m1 l : field_sample zero rf_draw m f id = Ok (m1, l) -> m_n m1 = m_n m /\ m_ids m1 = m_ids m.
Proof.
  unfold field_sample. destruct (f_kind f).
  - destruct (dget _ id); [|discriminate]. now intros [= <- <-].
  - destruct (dget _ r); [|discriminate]. now intros [= <- <-].
  - destruct (get_samples _ _); [|discriminate]. cbn. destruct (vec _ _ _); [|discriminate]. cbn. now intros [= <- <-].
Qed.
Lemma put_values_out ids : forall (l vals : list V) j, ~ In j ids -> nth_error (put_values l ids vals) j = nth_error l j.
Proof.
  induction ids as [|i ids IH]; intros l [|v vals] j N; cbn; auto. rewrite IH by (intros H; apply N; now right).
  rewrite nth_error_upd. destruct (Nat.eqb_spec i j) as [->|]; [exfalso; apply N; now left|reflexivity].
Qed.
Lemma sample_loop_zero fs (points : list P) regs rmap : length points = length regs -> forall l2 l1 m result m1 result1,
  m_n m = length points ->
  (forall id, In id (l1 ++ l2) -> exists ids, field_ids points regs rmap (obj zero fs id) ids /\ dget (m_ids m) id = Some ids) ->
  (forall n l, pget result n = Some l -> exists id, In id l1 /\ f_name (obj zero fs id) = n /\ f_outer (obj zero fs id) = true
     /\ length l = length points
     /\ forall i r, nth_error regs i = Some r -> inside rmap (f_regions (obj zero fs id)) r = false -> nth_error l i = Some zero) ->
  sample_loop zero rf_draw fs (m, result) l2 = Ok (m1, result1) ->
  (forall n l, pget result1 n = Some l -> exists id, In id (l1 ++ l2) /\ f_name (obj zero fs id) = n /\ f_outer (obj zero fs id) = true
     /\ length l = length points
     /\ forall i r, nth_error regs i = Some r -> inside rmap (f_regions (obj zero fs id)) r = false -> nth_error l i = Some zero).
Proof.
  intros L. induction l2 as [|id l2 IH]; intros l1 m result m1 result1 Hn Hi Hr; cbn [sample_loop].
  - intros [= <- <-]. rewrite app_nil_r. exact Hr.
  - destruct (sample_one zero rf_draw fs (m, result) id) as [[m2 result2]|] eqn:E; [|discriminate]. cbn [bind]. intros E1.
    replace (l1 ++ id :: l2) with ((l1 ++ [id]) ++ l2) by now rewrite <- app_assoc.
    unfold sample_one in E. destruct (field_sample zero rf_draw m (obj zero fs id) id) as [[m3 smp]|] eqn:Ef; [|discriminate].
    cbn [bind] in E. destruct (field_sample_ids _ _ _ _ _ Ef) as [N3 I3].
    assert (m_n m2 = length points /\ m_ids m2 = m_ids m /\
      (forall n l, pget result2 n = Some l -> pget result n = Some l \/ (n = f_name (obj zero fs id) /\ f_outer (obj zero fs id) = true
        /\ length l = length points
        /\ forall i r, nth_error regs i = Some r -> inside rmap (f_regions (obj zero fs id)) r = false -> nth_error l i = Some zero))) as (N2 & I2 & R2).
    { destruct (f_outer (obj zero fs id)) eqn:O.
      - destruct (Hi id) as (ids & F & Di); [apply in_or_app; right; now left|]. rewrite I3, Di in E.
        destruct (assign _ ids smp) as [l0|] eqn:Ea; [|discriminate]. cbn in E. injection E as <- <-. ands; [congruence|exact I3|].
        intros n l Hl. destruct (pystr_eq_dec (f_name (obj zero fs id)) n) as [<-|Nn].
        + rewrite pget_pset_eq in Hl. injection Hl as <-. right. split; [reflexivity|]. split; [reflexivity|].
          destruct (field_ids_ok points regs rmap L _ _ F) as [_ B]. unfold assign in Ea.
          assert (exists vals, l0 = put_values (repeat zero (m_n m3)) ids vals) as (vals & ->).
          { destruct (Nat.eqb _ _); [injection Ea as <-; eauto|]. destruct smp as [|v [|]]; try discriminate. injection Ea as <-. eauto. }
          rewrite put_values_len, repeat_length. split; [congruence|]. intros i r Hir Hin. rewrite put_values_out.
          * apply nth_error_repeat. rewrite N3, Hn, L. apply nth_error_Some. congruence.
          * intros H. apply B in H as (r' & Hr' & Hin'). congruence.
        + rewrite pget_pset_neq in Hl by exact Nn. now left.
      - injection E as <- <-. ands; [congruence|exact I3|]. intros n l Hl. now left. }
    apply (IH (l1 ++ [id]) m2 result2 m1 result1 N2); auto.
    + intros x Hx. rewrite I2. apply Hi. rewrite <- app_assoc in Hx. exact Hx.
    + intros n l Hl. destruct (R2 n l Hl) as [H|(-> & O & Ll & Z)].
      * destruct (Hr n l H) as (x & Hx & A). exists x. split; [apply in_or_app; now left|exact A].
      * exists id. ands; auto. apply in_or_app. right. now left.
Qed.

(** C57, the part that holds for every list of fields: every field is evaluated after the fields it is computed from, and
    what is returned has one value for each point, zero at the points outside the regions of a field of that name.
    Missing: values of fields that share a random field object or are restricted to other regions than a parameter, see
    [C57_refuted]; the others are in [C86_fields]. *)
Theorem C57_partial ss fs :
  Forall (fun s => mk_field (s_name s) (s_kind s) (s_params s) (s_regions s) = Ok s) ss ->
  mk_fields fmt ss = Ok fs ->
  evaluated_before zero fs
  /\ forall m0 points regs rmap m m' result, set_points zero rf_ok fs m0 points regs rmap = Ok m -> sample zero rf_draw fs m = Ok (m', result) ->
       forall n l, pget result n = Some l -> length l = length points
         /\ exists id, In id (order fs) /\ f_name (obj zero fs id) = n
              /\ forall i r, nth_error regs i = Some r -> inside rmap (f_regions (obj zero fs id)) r = false -> nth_error l i = Some zero.
Proof.
  intros Hv Hm. pose proof (wf_mk zero fmt ss fs Hv Hm) as W. split; [apply (w_before _ _ W)|].
  intros m0 points regs rmap m m' result Es Er n l Hl. unfold set_points in Es.
  destruct (Nat.eqb_spec (length points) (length regs)) as [L|]; [|discriminate].
  eapply set_points_ids in Es; [|reflexivity|apply (w_nodup _ _ W)]. destruct Es as (Hn & Hi & _).
  destruct (sample_loop_zero fs points regs rmap L (order fs) [] m [] m' result Hn Hi) with (n := n) (l := l) as (id & A & B & C & D & E); auto.
  - discriminate.
  - split; [exact D|]. exists id. auto.
Qed.
End Any.
Print Assumptions C57_partial.
Example C57_partial_ex : exists fs m m' result,
  mk_fields ex_fmt ex_specs = Ok fs
  /\ set_points 0 (fun _ _ => true) fs (mkM 0 [] [] [] 0) [1; 2; 3; 4] [8; 9; 8; 9] [(str "bottom", 8); (str "top", 9)] = Ok m
  /\ sample 0 (fun r k => map (ex_F r k)) fs m = Ok (m', result)
  /\ pget result (str "por") = Some [0; 5; 0; 7] /\ order fs = [1; 0; 2; 3].
Proof.
  eexists _, _, _, _. split; [vm_compute; reflexivity|]. split; [vm_compute; reflexivity|]. split; [vm_compute; reflexivity|]. split; vm_compute; reflexivity.
Qed.
