From Coq Require Import Lqa Qfield.
From Verif Require Import Base BaseFacts ShootModel ShootSpec.

Local Open Scope Q_scope.

Lemma qn_S k : qn (S k) == qn k + 1.
Proof. unfold qn. rewrite Nat2Z.inj_succ, <- Z.add_1_r, inject_Z_plus. reflexivity. Qed.
Lemma qsumn_ext f g k : (forall j, (j < k)%nat -> f j == g j) -> qsumn f k == qsumn g k.
Proof. induction k; intros H; cbn [qsumn]; [ reflexivity | ]. rewrite IHk by (intros; apply H; lia). rewrite (H k) by lia. reflexivity. Qed.
Lemma qsumn_add f g k : qsumn (fun j => f j + g j) k == qsumn f k + qsumn g k.
Proof. induction k; cbn [qsumn]; [ reflexivity | ]. rewrite IHk. ring. Qed.

Definition velocity (dt v : Q) (F : nat -> Q) (k : nat) : Q := v + dt * qsumn F k.
Lemma velocity_S dt v F k : velocity dt v F (S k) == velocity dt v F k + dt * F k.
Proof. unfold velocity. cbn [qsumn]. ring. Qed.
Lemma position_S dt x v F k : position dt x v F (S k) == position dt x v F k + dt * velocity dt v F k.
Proof.
  unfold position, velocity. cbn [qsumn].
  assert (E : qsumn (fun j => qn (S k - 1 - j) * F j) k == qsumn (fun j => qn (k - 1 - j) * F j) k + qsumn F k).
  { rewrite <- qsumn_add. apply qsumn_ext. intros j Hj.
    replace (S k - 1 - j)%nat with (S (k - 1 - j))%nat by lia. rewrite qn_S. ring. }
  rewrite E, qn_S. replace (S k - 1 - k)%nat with 0%nat by lia. change (qn 0) with 0. ring.
Qed.
Lemma position_0 dt x v F : position dt x v F 0 == x.
Proof. unfold position. cbn [qsumn]. change (qn 0) with 0. ring. Qed.

Lemma Qltb_lt a b : Qltb a b = true <-> a < b.
Proof.
  unfold Qltb. destruct (Qle_bool b a) eqn:E; cbn.
  - apply Qle_bool_iff in E. split; [ discriminate | intros H; lra ].
  - split; [ intros _ | reflexivity ]. apply Qnot_le_lt. intros H. apply Qle_bool_iff in H. congruence.
Qed.
Lemma outside_spec b p : if outside b p then ~ inside b p else inside b p.
Proof.
  unfold outside, inside.
  destruct (Qltb (x_hi b) (fst p)) eqn:A; [ apply Qltb_lt in A; cbn; intros H; lra | ].
  destruct (Qltb (fst p) (x_lo b)) eqn:B; [ apply Qltb_lt in B; cbn; intros H; lra | ].
  destruct (Qltb (y_hi b) (snd p)) eqn:C; [ apply Qltb_lt in C; cbn; intros H; lra | ].
  destruct (Qltb (snd p) (y_lo b)) eqn:D; [ apply Qltb_lt in D; cbn; intros H; lra | ].
  cbn. assert (N : forall u w, Qltb u w = false -> w <= u).
  { intros u w E. apply Qnot_lt_le. intros H. apply Qltb_lt in H. congruence. }
  apply N in A, B, C, D. auto.
Qed.
Lemma inside_eq b p q : fst p == fst q -> snd p == snd q -> inside b p -> inside b q.
Proof. unfold inside. intros E1 E2 H. rewrite <- E1, <- E2. exact H. Qed.

(** The loop from step [i]: positions and velocities agree with the closed form. *)
Lemma steps_shot b T dt x v Fx Fy n : 0 < T -> (0 < n)%nat -> dt == T / qn n ->
  forall F i X V,
    (i + length F = n)%nat ->
    (forall j, (j < length F)%nat -> nth_error F j = Some (Fx (i + j)%nat, Fy (i + j)%nat)) ->
    fst X == position dt (fst x) (fst v) Fx i -> snd X == position dt (snd x) (snd v) Fy i ->
    fst V == velocity dt (fst v) Fx i -> snd V == velocity dt (snd v) Fy i ->
    match steps b T dt F i X V with
    | Some p => fst p == fst (point_at dt x v Fx Fy n) /\ snd p == snd (point_at dt x v Fx Fy n) /\
                (forall k, (i < k <= n)%nat -> inside b (point_at dt x v Fx Fy k))
    | None => exists k, (i < k <= n)%nat /\ ~ inside b (point_at dt x v Fx Fy k)
    end.
Proof.
  intros HT Hn Hdt. induction F as [ | f F IH ]; intros i X V Hl HF HX1 HX2 HV1 HV2; cbn [steps].
  - cbn in Hl. replace i with n in * by lia. unfold point_at; cbn [fst snd]. split; [ exact HX1 | split; [ exact HX2 | intros k Hk; lia ] ].
  - cbn [length] in Hl.
    set (X1 := vadd X (vscale dt V)). set (V1 := vadd V (vscale dt f)).
    assert (P1 : fst X1 == position dt (fst x) (fst v) Fx (S i)).
    { unfold X1, vadd, vscale; cbn [fst snd]. rewrite HX1, HV1, position_S. reflexivity. }
    assert (P2 : snd X1 == position dt (snd x) (snd v) Fy (S i)).
    { unfold X1, vadd, vscale; cbn [fst snd]. rewrite HX2, HV2, position_S. reflexivity. }
    assert (Hf : f = (Fx i, Fy i)).
    { specialize (HF 0%nat ltac:(cbn [length]; lia)). cbn [nth_error] in HF. rewrite Nat.add_0_r in HF. congruence. }
    pose proof (outside_spec b X1) as O. destruct (outside b X1).
    + exists (S i). split; [ lia | ]. intros H. apply O. apply (inside_eq b (point_at dt x v Fx Fy (S i)) X1);
        [ symmetry; exact P1 | symmetry; exact P2 | exact H ].
    + assert (In1 : inside b (point_at dt x v Fx Fy (S i))) by (apply (inside_eq b X1); [ exact P1 | exact P2 | exact O ]).
      assert (Hq : 0 < qn n). { unfold qn. change 0 with (inject_Z 0). rewrite <- Zlt_Qlt. lia. }
      assert (HdT : dt * qn n == T) by (rewrite Hdt; field; lra).
      assert (Hdp : 0 < dt). { rewrite Hdt. apply Qlt_shift_div_l; [ exact Hq | lra ]. }
      destruct (Qle_bool T (dt * inject_Z (Z.of_nat (S i)))) eqn:HE.
      * apply Qle_bool_iff in HE. fold (qn (S i)) in HE.
        assert (n = S i) as ->.
        { destruct (Nat.eq_dec n (S i)) as [ E | E ]; [ exact E | exfalso ].
          assert (qn (S i) + 1 <= qn n). { rewrite <- qn_S. unfold qn. rewrite <- Zle_Qle. lia. } nra. }
        split; [ exact P1 | split; [ exact P2 | ] ]. intros k Hk. replace k with (S i) by lia. exact In1.
      * specialize (IH (S i) X1 V1 ltac:(lia)).
        destruct (steps b T dt F (S i) X1 V1) as [ p | ]; (lapply IH; [ clear IH; intros IH |
          intros j Hj; specialize (HF (S j) ltac:(cbn [length]; lia)); cbn [nth_error] in HF; rewrite HF; do 3 f_equal; lia ]);
          specialize (IH P1 P2);
          (lapply IH; [ clear IH; intros IH | unfold V1, vadd, vscale; cbn [fst snd]; rewrite HV1, Hf, velocity_S; reflexivity ]);
          (lapply IH; [ clear IH; intros IH | unfold V1, vadd, vscale; cbn [fst snd]; rewrite HV2, Hf, velocity_S; reflexivity ]).
        -- destruct IH as (A & B & C). split; [ exact A | split; [ exact B | ] ]. intros k Hk.
           destruct (Nat.eq_dec k (S i)) as [ -> | ]; [ exact In1 | apply C; lia ].
        -- destruct IH as (k & Hk & Hk2). exists k. split; [ lia | exact Hk2 ].
Qed.

Lemma steps_shot0 c F Fx Fy n : 0 < max_time c -> (0 < n)%nat -> length F = n ->
  (forall j, (j < n)%nat -> nth_error F j = Some (Fx j, Fy j)) ->
  shot (area c) (max_time c) (start_position c) (start_velocity c) Fx Fy n
       (steps (area c) (max_time c) (time_step c n) F 0 (start_position c) (start_velocity c)).
Proof.
  intros HT Hn Hl HF.
  pose proof (steps_shot (area c) (max_time c) (time_step c n) (start_position c) (start_velocity c) Fx Fy n HT Hn
                (Qeq_refl _) F 0%nat (start_position c) (start_velocity c) ltac:(lia)) as H.
  lapply H; [ clear H; intros H | intros j Hj; apply HF; lia ].
  specialize (H ltac:(rewrite position_0; reflexivity) ltac:(rewrite position_0; reflexivity)).
  specialize (H ltac:(unfold velocity; cbn [qsumn]; ring) ltac:(unfold velocity; cbn [qsumn]; ring)).
  unfold shot. change (time_step c n) with (max_time c / qn n) in *.
  destruct (steps _ _ _ _ _ _ _) as [ p | ].
  - destruct H as (A & B & C). split; [ exact A | split; [ exact B | intros k Hk; apply C; lia ] ].
  - destruct H as (k & Hk & N). exists k. split; [ lia | exact N ].
Qed.

Lemma run2_shot c F : 0 < max_time c -> F <> [] ->
  shot (area c) (max_time c) (start_position c) (start_velocity c) (fun j => fst (nth j F (0, 0))) (fun j => snd (nth j F (0, 0)))
       (length F) (run2 c F).
Proof.
  intros HT Hne. unfold run2. apply steps_shot0; [ exact HT | destruct F; cbn; [ congruence | lia ] | reflexivity | ].
  intros j Hj. rewrite (nth_error_nth' F (0, 0) Hj). destruct (nth j F (0, 0)); reflexivity.
Qed.
Lemma run1_shot c F : 0 < max_time c -> F <> [] ->
  exists r, run1 c F = option_map snd r /\
    shot (area c) (max_time c) (start_position c) (start_velocity c) (fun j => nth j F 0) (fun j => nth j F 0) (length F) r.
Proof.
  intros HT Hne. destruct F as [ | f F ]; [ congruence | ]. unfold run1. eexists. split; [ reflexivity | ].
  apply steps_shot0; [ exact HT | cbn; lia | apply map_length | ].
  intros j Hj. rewrite nth_error_map, (nth_error_nth' (f :: F) 0 Hj). reflexivity.
Qed.

(** Points. *)
Lemma linspace_length s n : length (linspace s n) = n.
Proof. unfold linspace. now rewrite map_length, seq_length. Qed.
Lemma forces_nth f s n i : (i < n)%nat -> nth_error (map f (linspace s n)) i = Some (force f s n i).
Proof.
  intros Hi. unfold linspace. rewrite !nth_error_map, (nth_error_nth' _ 0%nat) by (rewrite seq_length; lia).
  rewrite seq_nth by lia. reflexivity.
Qed.
Lemma run1_forces c f s n : 0 < max_time c -> (0 < n)%nat ->
  exists r, run1 c (map f (linspace s n)) = option_map snd r /\
    shot (area c) (max_time c) (start_position c) (start_velocity c) (force f s n) (force f s n) n r.
Proof.
  intros HT Hn. set (F := map f (linspace s n)).
  assert (L : length F = n) by (unfold F; rewrite map_length; apply linspace_length).
  exists (steps (area c) (max_time c) (time_step c (length F)) (map (fun f => (f, f)) F) 0 (start_position c) (start_velocity c)).
  split; [ unfold run1; destruct F; [ cbn in L; lia | reflexivity ] | ].
  rewrite L. apply steps_shot0; [ exact HT | exact Hn | now rewrite map_length | ].
  intros j Hj. rewrite nth_error_map. unfold F. rewrite forces_nth by exact Hj. reflexivity.
Qed.
Lemma combine_nth_error (l1 l2 : list Q) j u w :
  nth_error l1 j = Some u -> nth_error l2 j = Some w -> nth_error (combine l1 l2) j = Some (u, w).
Proof.
  revert l2 j. induction l1 as [ | x l1 IH ]; intros [ | y l2 ] [ | j ] A B; cbn in *; try discriminate; [ congruence | ].
  now apply IH.
Qed.
Lemma run2_forces c fx fy s n : 0 < max_time c -> (0 < n)%nat ->
  shot (area c) (max_time c) (start_position c) (start_velocity c) (force fx s n) (force fy s n) n
       (run2 c (combine (map fx (linspace s n)) (map fy (linspace s n)))).
Proof.
  intros HT Hn. set (F := combine _ _).
  assert (L : @length vec F = n) by (unfold F, vec; rewrite combine_length, !map_length, linspace_length; lia).
  unfold run2. rewrite L. apply steps_shot0; [ exact HT | exact Hn | exact L | ].
  intros j Hj. pose proof (forces_nth fx s n j Hj) as A. pose proof (forces_nth fy s n j Hj) as B.
  exact (combine_nth_error _ _ j _ _ A B).
Qed.
Lemma create_points_ok c p : create_points c = Ok p ->
  exists nf nc, Z.of_nat nf = fine_n c /\ Z.of_nat nc = coarse_n c /\ (nc < nf)%nat /\
    p = (linspace (fst (start_velocity c) * max_time c) nf ++ linspace (fst (start_velocity c) * max_time c) nc, nf).
Proof.
  unfold create_points. intros H. destruct (coarse_n c <? fine_n c)%Z eqn:A; [ | discriminate ]. cbn [negb] in H.
  destruct (coarse_n c <? 0)%Z eqn:B; [ discriminate | ].
  exists (Z.to_nat (fine_n c)), (Z.to_nat (coarse_n c)). repeat split; try lia. now inversion H.
Qed.

(** Levels. *)
Lemma py_int_elements u w : 0 <= u -> 0 < w -> exists n, py_int (u / w) = Z.of_nat n /\ elements u w n.
Proof.
  intros Hu Hw. assert (0 <= u / w). { apply Qle_shift_div_l; [ exact Hw | lra ]. }
  unfold elements. set (q := u / w) in *. clearbody q. exists (Z.to_nat (py_int q)). unfold py_int.
  destruct q as [a d]. cbn [Qnum Qden] in *. assert (0 <= a)%Z by (unfold Qle in H; cbn in H; lia).
  rewrite Z.quot_div_nonneg by lia. assert (0 <= a / Z.pos d)%Z by (apply Z.div_pos; lia).
  rewrite Z2Nat.id by lia. split; [ reflexivity | ].
  rewrite qn_S. unfold qn. rewrite Z2Nat.id by lia. pose proof (Z.div_mod a (Z.pos d) ltac:(lia)) as M.
  pose proof (Z.mod_pos_bound a (Z.pos d) ltac:(lia)) as M2. generalize dependent (a / Z.pos d)%Z. intros z Hz M.
  split; unfold Qle, Qlt, Qplus, inject_Z; cbn [Qnum Qden]; nia.
Qed.

Lemma set_level_ok c fp cp c' : set_level c fp cp = Ok c' ->
  fine_step c' = hd 0 fp /\ coarse_step c' = hd 0 cp /\
  area c' = area c /\ start_position c' = start_position c /\ start_velocity c' = start_velocity c /\
  max_time c' = max_time c /\ complexity c' = complexity c /\
  fine_n c' = py_int (complexity c / hd 0 fp) /\
  coarse_n c' = (if Qltb 0 (hd 0 cp) then py_int (complexity c / hd 0 cp) else 0%Z).
Proof.
  destruct fp as [ | f fp ], cp as [ | g cp ]; cbn [set_level]; try discriminate.
  destruct (Qeq_bool f 0); [ discriminate | ]. intros H. injection H as <-. cbn [hd fine_step coarse_step area start_position
    start_velocity max_time complexity fine_n coarse_n]. repeat split.
Qed.

Lemma level_instance1_ok h self c0 fp cp h' a : nth_error h self = Some c0 -> level_instance1 h self fp cp = Ok (h', a) ->
  exists c, set_level c0 fp cp = Ok c /\ h' = h ++ [c] /\ a = length h.
Proof.
  intros E H. unfold level_instance1 in H. rewrite E in H. destruct (set_level c0 fp cp) as [ c | ]; [ | discriminate ].
  cbn [bind] in H. exists c. injection H as <- <-. auto.
Qed.
Lemma level_instance2_ok h self c0 fp cp h' a : nth_error h self = Some c0 -> level_instance2 h self fp cp = Ok (h', a) ->
  exists c, set_level c0 fp cp = Ok c /\ h' = upd h self (fun _ => c) /\ a = self.
Proof.
  intros E H. unfold level_instance2 in H. rewrite E in H. destruct (set_level c0 fp cp) as [ c | ]; [ | discriminate ].
  cbn [bind] in H. exists c. injection H as <- <-. auto.
Qed.

Lemma create_levels1 self c0 : forall params h prev h' a,
  nth_error h self = Some c0 -> create_levels level_instance1 h self prev params = Ok (h', a) ->
  length a = length params /\ (exists t, h' = h ++ t) /\
  forall l p, nth_error a l = Some p ->
    exists c, nth_error h' p = Some c /\
      set_level c0 (nth l params []) (match l with 0%nat => prev | S l' => nth l' params [] end) = Ok c.
Proof.
  induction params as [ | q params IH ]; intros h prev h' a E H; cbn [create_levels] in H.
  - injection H as <- <-. split; [ reflexivity | split; [ exists []; now rewrite app_nil_r | ] ]. intros [ | l ] p Hp; discriminate.
  - destruct (level_instance1 h self q prev) as [ [h1 a1] | ] eqn:L; cbn [bind] in H; [ | discriminate ]. cbn [fst snd] in H.
    destruct (level_instance1_ok _ _ _ _ _ _ _ E L) as (c & S1 & -> & ->).
    destruct (create_levels level_instance1 (h ++ [c]) self q params) as [ [h2 a2] | ] eqn:R; cbn [bind] in H; [ | discriminate ].
    cbn [fst snd] in H. injection H as <- <-.
    assert (E1 : nth_error (h ++ [c]) self = Some c0).
    { rewrite nth_error_app1; [ exact E | apply nth_error_Some; congruence ]. }
    destruct (IH _ _ _ _ E1 R) as (I1 & (t & I2) & I3).
    split; [ cbn; now rewrite I1 | split; [ exists (c :: t); rewrite I2, <- app_assoc; reflexivity | ] ].
    intros [ | l ] p Hp; cbn [nth_error] in Hp.
    + injection Hp as <-. exists c. split; [ | exact S1 ]. rewrite I2, <- app_assoc.
      rewrite nth_error_app2 by lia. now rewrite Nat.sub_diag.
    + destruct (I3 l p Hp) as (c' & C1 & C2). exists c'. split; [ exact C1 | ]. destruct l; exact C2.
Qed.

Lemma nth_error_upd_same {A} (l : list A) i f x : nth_error l i = Some x -> nth_error (upd l i f) i = Some (f x).
Proof. revert i. induction l; intros [ | i ] H; cbn in *; try discriminate; [ congruence | auto ]. Qed.

Lemma create_levels2 self : forall params h c0 prev h' a,
  nth_error h self = Some c0 -> params <> [] -> create_levels level_instance2 h self prev params = Ok (h', a) ->
  a = repeat self (length params) /\
  exists c, nth_error h' self = Some c /\ fine_step c = hd 0 (last params []).
Proof.
  induction params as [ | q params IH ]; intros h c0 prev h' a E Hne H; [ congruence | ]. cbn [create_levels] in H.
  destruct (level_instance2 h self q prev) as [ [h1 a1] | ] eqn:L; cbn [bind] in H; [ | discriminate ]. cbn [fst snd] in H.
  destruct (level_instance2_ok _ _ _ _ _ _ _ E L) as (c & S1 & -> & ->).
  destruct (create_levels level_instance2 _ self q params) as [ [h2 a2] | ] eqn:R; cbn [bind] in H; [ | discriminate ].
  cbn [fst snd] in H. injection H as <- <-.
  assert (E1 : nth_error (upd h self (fun _ => c)) self = Some c) by (apply (nth_error_upd_same h self (fun _ => c) c0 E)).
  destruct params as [ | q2 params ].
  - cbn [create_levels] in R. injection R as <- <-. split; [ reflexivity | ]. exists c. split; [ exact E1 | ].
    apply set_level_ok in S1. apply S1.
  - destruct (IH _ _ _ _ _ E1 ltac:(discriminate) R) as (I1 & I2). split; [ cbn [length repeat]; now rewrite I1 | exact I2 ].
Qed.
