(** Properties of the shooting simulations. *)
From Coq Require Import Lqa.
From Verif Require Import Base BaseFacts ShootModel ShootSpec ShootProofs.
Local Open Scope Q_scope.

(** C103: the loop computes the closed form of the explicit Euler trajectory over exactly the given number of steps and
    gives NaN exactly when the trajectory leaves the area in one of them. *)
Theorem C103_trajectory : forall c F, 0 < max_time c -> F <> [] ->
  shot (area c) (max_time c) (start_position c) (start_velocity c) (fun j => fst (nth j F (0, 0))) (fun j => snd (nth j F (0, 0)))
       (length F) (run2 c F).
Proof. exact run2_shot. Qed.
Print Assumptions C103_trajectory.

(** A shot has one result: two results are both NaN or equal numbers. *)
Theorem C103_one_result : forall b T x v Fx Fy n r s,
  shot b T x v Fx Fy n r -> shot b T x v Fx Fy n s ->
  match r, s with
  | Some p, Some q => fst p == fst q /\ snd p == snd q
  | None, None => True
  | _, _ => False
  end.
Proof.
  intros b T x v Fx Fy n [ p | ] [ q | ]; unfold shot; intros H1 H2; [ | | | exact I ].
  - destruct H1 as (A & B & _), H2 as (C & D & _). split; [ rewrite A, C | rewrite B, D ]; reflexivity.
  - destruct H1 as (_ & _ & H1), H2 as (k & K1 & K2). exact (K2 (H1 k K1)).
  - destruct H2 as (_ & _ & H2), H1 as (k & K1 & K2). exact (K2 (H2 k K1)).
Qed.
Print Assumptions C103_one_result.

Definition demo : cfg := mkCfg (mkB (-100) 200 (-300) 400) (0, 0) (10, 0) 10 2 (1 # 2) 1 4 2.
Definition same_result (r s : option vec) : bool :=
  match r, s with
  | Some p, Some q => Qeq_bool (fst p) (fst q) && Qeq_bool (snd p) (snd q)
  | None, None => true
  | _, _ => false
  end.
Example C103_example :
  same_result (run2 demo [(1, 1); (0, 2); (1, -3); (7, 7)]) (Some (125, 25)) = true /\
  run2 demo [(20, 0); (0, 0); (0, 0); (0, 0)] = None.
Proof. vm_compute. auto. Qed.

(** C104: each of the two results of the 2D simulation comes from its own part of the random sample. *)
Definition results_of_own_samples (calc : cfg -> (Q -> Q) -> (Q -> Q) -> res (option vec * option vec)) : Prop :=
  forall c fx fy r s, 0 < max_time c -> calc c fx fy = Ok (r, s) ->
    let stop := fst (start_velocity c) * max_time c in
    (forall n, fine_n c = Z.of_nat n ->
       shot (area c) (max_time c) (start_position c) (start_velocity c) (force fx stop n) (force fy stop n) n r) /\
    (forall n, (0 < n)%nat -> coarse_n c = Z.of_nat n ->
       shot (area c) (max_time c) (start_position c) (start_velocity c) (force fx stop n) (force fy stop n) n s).
Theorem C104_refuted : ~ results_of_own_samples calculate2.
Proof.
  intros H.
  destruct (calculate2 demo (fun _ => 1) (fun _ => 1)) as [ [r s] | ] eqn:E; [ | vm_compute in E; discriminate ].
  destruct (H demo (fun _ => 1) (fun _ => 1) r s ltac:(reflexivity) E) as (_ & S2).
  specialize (S2 2%nat ltac:(lia) eq_refl). vm_compute in E. injection E as <- <-.
  unfold shot in S2. destruct S2 as (A & _). vm_compute in A. discriminate.
Qed.
Print Assumptions C104_refuted.

(** Missing: the coarse result. The fine result is right; the coarse result is always the fine one, so that every
    difference of levels is zero. *)
Theorem C104_partial : forall c fx fy r s, 0 < max_time c -> calculate2 c fx fy = Ok (r, s) ->
  let stop := fst (start_velocity c) * max_time c in
  (forall n, fine_n c = Z.of_nat n ->
     shot (area c) (max_time c) (start_position c) (start_velocity c) (force fx stop n) (force fy stop n) n r) /\ s = r.
Proof.
  intros c fx fy r s HT H. unfold calculate2 in H. destruct (create_points c) as [ p | ] eqn:P; [ | discriminate ]. cbn [bind] in H.
  destruct (create_points_ok c p P) as (nf & nc & A & B & C & ->). cbn [fst snd] in H.
  assert (F : forall f : Q -> Q, firstn nf (map f (linspace (fst (start_velocity c) * max_time c) nf ++ linspace (fst (start_velocity c) * max_time c) nc))
              = map f (linspace (fst (start_velocity c) * max_time c) nf)).
  { intros f. rewrite map_app, firstn_app, map_length, linspace_length, Nat.sub_diag. cbn [firstn]. rewrite app_nil_r.
    apply firstn_all2. rewrite map_length, linspace_length. lia. }
  rewrite !F in H. apply (f_equal (fun x => match x with Ok y => y | _ => (r, s) end)) in H.
  apply pair_equal_spec in H. destruct H as (<- & <-). split; [ | reflexivity ].
  intros n Hn. assert (n = nf) as -> by lia. apply run2_forces; [ exact HT | lia ].
Qed.
Print Assumptions C104_partial.
Example C104_example : exists p, calculate2 demo (fun x => x / 100) (fun _ => 1) = Ok (Some p, Some p).
Proof. eexists. vm_compute. reflexivity. Qed.

(** C105: the 1D simulation takes the fine and the coarse result from one realisation of the random field, each in the
    equidistant points of its own level; the coarse result is zero on the lowest level. *)
Theorem C105_calculate1 : forall c f r s, 0 < max_time c -> calculate1 c f = Ok (r, s) ->
  let stop := fst (start_velocity c) * max_time c in
  let result n p := shot (area c) (max_time c) (start_position c) (start_velocity c) (force f stop n) (force f stop n) n p in
  exists nf nc, fine_n c = Z.of_nat nf /\ coarse_n c = Z.of_nat nc /\ (nc < nf)%nat /\
    (exists p, result nf p /\ r = option_map snd p) /\
    (~ coarse_step c == 0 -> (0 < nc)%nat -> exists p, result nc p /\ s = option_map snd p) /\
    (coarse_step c == 0 \/ nc = 0%nat -> s = Some 0).
Proof.
  intros c f r s HT H. unfold calculate1 in H. destruct (create_points c) as [ p | ] eqn:P; [ | discriminate ]. cbn [bind] in H.
  destruct (create_points_ok c p P) as (nf & nc & A & B & C & ->). cbn [fst snd] in H. cbv zeta.
  set (stop := fst (start_velocity c) * max_time c) in *.
  rewrite map_app, firstn_app, skipn_app, map_length, linspace_length, Nat.sub_diag in H. cbn [firstn skipn] in H.
  rewrite app_nil_r, firstn_all2 in H by (rewrite map_length, linspace_length; lia).
  rewrite skipn_all2 in H by (rewrite map_length, linspace_length; lia). cbn [app] in H.
  apply (f_equal (fun x => match x with Ok y => y | _ => (r, s) end)) in H.
  apply pair_equal_spec in H. destruct H as (<- & <-).
  exists nf, nc. split; [ now symmetry | split; [ now symmetry | split; [ exact C | split; [ | split ] ] ] ].
  - destruct (run1_forces c f stop nf HT ltac:(lia)) as (q & Q1 & Q2). exists q. auto.
  - intros N Hn. destruct (Qeq_bool (coarse_step c) 0) eqn:E; [ apply Qeq_bool_iff in E; contradiction | ].
    destruct (run1_forces c f stop nc HT Hn) as (q & Q1 & Q2). exists q. auto.
  - intros [E | ->]; [ apply Qeq_bool_iff in E; rewrite E; reflexivity | ]. destruct (Qeq_bool _ _); reflexivity.
Qed.
Print Assumptions C105_calculate1.
Example C105_example :
  match calculate1 demo (fun x => 1) with
  | Ok (Some r, Some s) => Qeq_bool r (75 # 2) && Qeq_bool s 25
  | _ => false
  end = true.
Proof. vm_compute. reflexivity. Qed.

(** C106: every level simulation keeps the configuration of its own level. *)
Theorem C108_kept_1d : levels_kept level_instance1.
Proof.
  intros h self c0 params h' a E H. destruct (create_levels1 self c0 params h [0] h' a E H) as (A & _ & B).
  split; [ exact A | ]. intros l p Hp. destruct (B l p Hp) as (c & C1 & C2). exists c. split; [ exact C1 | ].
  apply set_level_ok in C2. destruct C2 as (D1 & D2 & D3 & D4 & D5 & D6 & D7 & _).
  unfold own_level. repeat (split; [ assumption || idtac | ]); try assumption. rewrite D2. destruct l; reflexivity.
Qed.
Print Assumptions C108_kept_1d.
(** C108: the numbers of elements are the integer parts of complexity over step. *)
Theorem C108_elements_1d : forall h self c0 params h' a l p c,
  nth_error h self = Some c0 -> create_levels level_instance1 h self [0] params = Ok (h', a) ->
  0 <= complexity c0 -> (forall q, In q params -> 0 < hd 0 q) ->
  nth_error a l = Some p -> nth_error h' p = Some c -> own_elements c.
Proof.
  intros h self c0 params h' a l p c E H Hc Hs Hp Hn. destruct (create_levels1 self c0 params h [0] h' a E H) as (A & _ & B).
  destruct (B l p Hp) as (c' & C1 & C2). rewrite Hn in C1. injection C1 as <-.
  apply set_level_ok in C2. destruct C2 as (D1 & D2 & _ & _ & _ & _ & D7 & D8 & D9).
  assert (Hl : (l < length params)%nat) by (rewrite <- A; apply nth_error_Some; congruence).
  unfold own_elements. rewrite D1, D2, D7, D8, D9. split; [ | split ].
  - apply py_int_elements; [ exact Hc | ]. apply Hs. now apply nth_In.
  - intros Hg. assert (E2 := proj2 (Qltb_lt _ _) Hg). rewrite E2. now apply py_int_elements.
  - intros Hg. destruct (Qltb 0 _) eqn:Q0; [ apply Qltb_lt in Q0; lra | reflexivity ].
Qed.
Print Assumptions C108_elements_1d.
(** In the 2D simulation all levels share one configuration, that of the last level. *)
Theorem C106_refuted : ~ levels_kept level_instance2.
Proof.
  intros H. destruct (create_levels level_instance2 [demo] 0 [0] [[1]; [1 # 2]]) as [ [h a] | ] eqn:E; [ | vm_compute in E; discriminate ].
  destruct (H [demo] 0%nat demo _ _ _ eq_refl E) as (_ & K). vm_compute in E. injection E as <- <-.
  destruct (K 0%nat 0%nat eq_refl) as (c & C1 & C2 & _). injection C1 as <-. discriminate.
Qed.
Print Assumptions C106_refuted.
Theorem C106_partial : forall h self c0 params h' a,
  nth_error h self = Some c0 -> params <> [] -> create_levels level_instance2 h self [0] params = Ok (h', a) ->
  length a = length params /\
  exists c, (forall l p, nth_error a l = Some p -> nth_error h' p = Some c) /\ fine_step c = level_step params (length params - 1).
Proof.
  intros h self c0 params h' a E Hne H. destruct (create_levels2 self params h c0 [0] h' a E Hne H) as (-> & c & C1 & C2).
  split; [ apply repeat_length | ]. exists c. split.
  - intros l p Hp. apply nth_error_In, repeat_spec in Hp. now subst p.
  - rewrite C2. unfold level_step. f_equal. clear -Hne. induction params as [ | x [ | y t ] IH ]; [ congruence | reflexivity | ].
    change (last (x :: y :: t) []) with (last (y :: t) []). rewrite IH by discriminate. cbn [length]. rewrite !Nat.sub_succ, !Nat.sub_0_r. reflexivity.
Qed.
Print Assumptions C106_partial.
Example C106_example :
  match create_levels level_instance1 [demo] 0 [0] [[1]; [1 # 2]; [1 # 4]], create_levels level_instance2 [demo] 0 [0] [[1]; [1 # 2]; [1 # 4]] with
  | Ok (h, a), Ok (h2, a2) => a = [1; 2; 3]%nat /\ a2 = [0; 0; 0]%nat /\ map fine_n h = [4; 2; 4; 8]%Z /\ map coarse_n h2 = [4%Z]
  | _, _ => False
  end.
Proof. vm_compute. auto. Qed.

(** C107: a finer level always gets its points: create_points does not fail for levels with decreasing positive steps. *)
Definition points_for_decreasing_steps (gap : Q -> Q -> Q -> Prop) : Prop :=
  forall c0 f g c, 0 < complexity c0 -> 0 < f -> f < g -> gap (complexity c0) f g -> f <= complexity c0 ->
    set_level c0 [f] [g] = Ok c -> exists p, create_points c = Ok p.
Theorem C107_refuted : ~ points_for_decreasing_steps (fun _ _ _ => True).
Proof.
  intros H. destruct (set_level demo [9 # 10] [1]) as [ c | ] eqn:E; [ | vm_compute in E; discriminate ].
  destruct (H demo (9 # 10) 1 c ltac:(reflexivity) ltac:(reflexivity) ltac:(reflexivity) I ltac:(vm_compute; discriminate) E) as (p & P).
  vm_compute in E. injection E as <-. vm_compute in P. discriminate.
Qed.
Print Assumptions C107_refuted.
(** It succeeds when the quotients of complexity and step differ by at least one, and exactly when the integer parts differ. *)
Theorem C107_partial : points_for_decreasing_steps (fun k f g => k / g + 1 <= k / f).
Proof.
  intros c0 f g c Hc Hf Hg Hgap Hle H. pose proof (set_level_ok _ _ _ _ H) as (D1 & D2 & D3 & D4 & D5 & D6 & D7 & D8 & D9).
  cbn [hd] in *. assert (0 < g) by lra. assert (E2 := proj2 (Qltb_lt _ _) H0). rewrite E2 in D9.
  destruct (py_int_elements (complexity c0) f ltac:(lra) Hf) as (n & N1 & N2 & N3).
  destruct (py_int_elements (complexity c0) g ltac:(lra) H0) as (m & M1 & M2 & M3).
  unfold create_points. rewrite D8, D9, N1, M1.
  assert ((m < n)%nat).
  { assert (qn m < qn n). { rewrite qn_S in N3. lra. }
    unfold qn in H1. rewrite <- Zlt_Qlt in H1. lia. }
  replace (Z.of_nat m <? Z.of_nat n)%Z with true by (symmetry; apply Z.ltb_lt; lia). cbn [negb].
  replace (Z.of_nat m <? 0)%Z with false by (symmetry; apply Z.ltb_ge; lia). eexists. reflexivity.
Qed.
Print Assumptions C107_partial.
Example C107_example : match set_level demo [1 # 2] [1] with Ok c => match create_points c with Ok (p, n) => length p = 6%nat /\ n = 4%nat | _ => False end | _ => False end.
Proof. vm_compute. auto. Qed.
