(** Facts on the adaptive campaign. *)
From Coq Require Import Lqa.
From Verif Require Import Base BaseFacts TagModel PoolModel HdfModel HdfProofs SamplerModel SamplerSpec SamplerProofs SamplerFacts
  AddingProofs AddingFacts AdaptModel.

Section Facts.
Context (E : env) (ps : list (param E)) (f : nat).
Notation L := (length ps).

(** [s'] comes from [s] by some operations, none of them a restart. *)
Definition follows (s s' : sampler E) : Prop :=
  exists more, s' = run E ps (S f) s more /\ forall o, In o more -> o <> Restart.

Lemma follows_refl s : follows s s.
Proof. exists []. split; [reflexivity|intros o []]. Qed.
Lemma follows_step s o : o <> Restart -> follows s (fst (step E ps (S f) s o)).
Proof. intros H. exists [o]. split; [reflexivity|]. intros o' [<-|[]]. exact H. Qed.
Lemma follows_trans s1 s2 s3 : follows s1 s2 -> follows s2 s3 -> follows s1 s3.
Proof.
  intros (m1 & -> & H1) (m2 & -> & H2). exists (m1 ++ m2). split; [unfold run; now rewrite fold_left_app|].
  intros o Ho. apply in_app_or in Ho as [Ho|Ho]; auto.
Qed.
Lemma follows_reached s s' ops : reached E ps (S f) ops s -> follows s s' ->
  exists more, reached E ps (S f) (ops ++ more) s' /\ forall o, In o more -> o <> Restart.
Proof.
  intros (s0 & H0 & ->) (more & -> & Hm). exists more. split; auto. exists s0. split; auto. unfold run. now rewrite fold_left_app.
Qed.

(** The number of samples of a level written as scheduled in the file. *)
Definition n_sched (s : sampler E) (l : nat) : nat :=
  match nth_error (f_groups (s_file s)) l with Some (GFull g) => length (g_sched g) | _ => 0 end.
Lemma n_sched_level s l g : level s l g -> n_sched s l = length (g_sched g).
Proof. unfold level, n_sched. now intros ->. Qed.
Lemma has_level ops s l : reached E ps (S f) ops s -> l < L -> exists g, level s l g.
Proof. intros Hr Hl. destruct (reached_BInv _ _ _ _ _ Hr) as (gs & lost & HI & _). eapply BInv_has_level; eauto. Qed.

Lemma est_length ns : length (map inject_Z ns) = length ns.
Proof. apply map_length. Qed.
Lemma est_nth ns l n : nth_error ns l = Some n -> nth_error (map inject_Z ns) l = Some (inject_Z n).
Proof. intros H. now rewrite nth_error_map, H. Qed.
Lemma some_nth {A} (l : list A) i : i < length l -> exists x, nth_error l i = Some x.
Proof. intros H. destruct (nth_error l i) eqn:E1; eauto. apply nth_error_None in E1. lia. Qed.

(** A call that returns True leaves at least the estimated numbers scheduled. *)
Lemma adding_true ops s clk t c ns s' : reached E ps (S f) ops s -> positive t -> length (s_targets s) = L -> length ns = L ->
  step E ps (S f) s (Adding clk t c (map inject_Z ns)) = (s', OBool true) ->
  forall l n, nth_error ns l = Some n -> (n <= Z.of_nat (n_sched s' l))%Z.
Proof.
  intros Hr Ht Htl Hn E1 l n Hl.
  destruct (adding_step E ps _ _ _ clk t f c (map inject_Z ns) Hr Ht Htl) as (s2 & r & E2 & _ & G & Hcase); [now rewrite est_length|].
  rewrite E1 in E2. apply (f_equal fst) in E2 as A. apply (f_equal snd) in E2 as B. cbn [fst snd] in A, B. subst s2 r.
  destruct Hcase as [(D & _)|(b & D & Hb & _)]; [discriminate|]. injection D as <-.
  assert (Hll : l < L) by (rewrite <- Hn; apply nth_error_Some; congruence).
  destruct (has_level _ _ _ Hr Hll) as (g & Hg). destruct (some_nth (s_targets s) l) as (x & Hx); [lia|].
  destruct (G l g _ x Hg (est_nth _ _ _ Hl) Hx) as (g' & Hg' & Hlen). rewrite (n_sched_level _ _ _ Hg').
  pose proof (proj1 Hb eq_refl l _ g (est_nth _ _ _ Hl) Hg) as K. rewrite planned_Z in K. rewrite <- Zle_Qle in K. lia.
Qed.

(** A call leaves the targets of all levels in place and does not lower the numbers; it raises one when it returns False. *)
Lemma adding_progress ops s clk t c ns : reached E ps (S f) ops s -> positive t -> length (s_targets s) = L -> length ns = L ->
  (0 < c <= 1)%Q -> (forall o, In o ops -> o <> Restart) ->
  exists s' b, step E ps (S f) s (Adding clk t c (map inject_Z ns)) = (s', OBool b)
    /\ length (s_targets s') = L
    /\ (forall l, l < L -> n_sched s l <= n_sched s' l)
    /\ (b = false -> exists l n, l < L /\ nth_error ns l = Some n /\ (Z.of_nat (n_sched s l) < n)%Z /\ n_sched s l < n_sched s' l).
Proof.
  intros Hr Ht Htl Hn Hc Hno. assert (Hel : length (map inject_Z ns) = L) by now rewrite est_length.
  destruct (adding_returns E ps _ _ _ clk t f c _ Hr Ht Htl Hel (proj1 Hc) Hno) as (s' & b & E1 & Hb).
  destruct (adding_grows E ps _ _ _ clk t f c _ Hr Ht Htl Hel Hc) as (T & _ & G). rewrite E1 in T, G. cbn [fst] in T, G.
  exists s', b. split; [exact E1|]. split; [exact T|].
  assert (G' : forall l, l < L -> exists g g' n, level s l g /\ level s' l g' /\ nth_error ns l = Some n
    /\ length (g_sched g) <= length (g_sched g')
    /\ ((Z.of_nat (length (g_sched g)) < n)%Z -> length (g_sched g) < length (g_sched g'))).
  { intros l Hl. destruct (has_level _ _ _ Hr Hl) as (g & Hg). destruct (some_nth (s_targets s) l) as (x & Hx); [lia|].
    destruct (some_nth ns l) as (n & Hnl); [lia|]. destruct (G l g _ x Hg (est_nth _ _ _ Hnl) Hx) as (g' & Hg' & A & _ & B).
    exists g, g', n. ands; auto. intros K. apply B. unfold nat_Q. rewrite <- Zlt_Qlt. exact K. }
  split.
  - intros l Hl. destruct (G' l Hl) as (g & g' & n & Hg & Hg' & _ & A & _). now rewrite (n_sched_level _ _ _ Hg), (n_sched_level _ _ _ Hg').
  - intros ->.
    assert (W : ~ (forall l, l < L -> forall n, nth_error ns l = Some n -> (n <= Z.of_nat (n_sched s l))%Z)).
    { intros W. assert (X : false = true); [|discriminate]. apply Hb. intros l e g He Hg.
      rewrite nth_error_map in He. destruct (nth_error ns l) as [n|] eqn:En; [|discriminate]. cbn in He. injection He as <-.
      assert (Hl : l < L) by (rewrite <- Hn; apply nth_error_Some; congruence). specialize (W l Hl n En).
      rewrite (n_sched_level _ _ _ Hg) in W. rewrite planned_Z. rewrite <- Zle_Qle.
      pose proof (plan_ge c (inject_Z n) (length (g_sched g))) as P. assert (0 <= c)%Q by lra. specialize (P H). lia. }
    assert (D : forall k, k <= L -> (exists l n, l < k /\ nth_error ns l = Some n /\ (Z.of_nat (n_sched s l) < n)%Z)
                 \/ forall l, l < k -> forall n, nth_error ns l = Some n -> (n <= Z.of_nat (n_sched s l))%Z).
    { induction k as [|k IH]; intros Hk; [right; intros; lia|]. destruct IH as [(l & n & A & B & C)|IH]; [lia|left; exists l, n; ands; auto; lia|].
      destruct (some_nth ns k) as (n & En); [lia|]. destruct (Z_lt_le_dec (Z.of_nat (n_sched s k)) n) as [Hlt|Hle].
      - left. exists k, n. ands; auto.
      - right. intros l Hl n' Hn'. destruct (Nat.eq_dec l k) as [->|Ne]; [congruence|apply (IH l); auto; lia]. }
    destruct (D L (le_n _)) as [(l & n & A & B & C)|D']; [|contradiction].
    exists l, n. ands; auto. destruct (G' l A) as (g & g' & n' & Hg & Hg' & Hn' & _ & K). rewrite B in Hn'. injection Hn' as <-.
    rewrite (n_sched_level _ _ _ Hg) in C |- *. rewrite (n_sched_level _ _ _ Hg'). auto.
Qed.

(** What is missing up to [B] samples on every level. *)
Definition lack (B : nat) (s : sampler E) : nat := fold_right plus 0 (map (fun l => B - n_sched s l) (seq 0 L)).
Lemma sum_lt (a b : nat -> nat) xs : (forall x, In x xs -> a x <= b x) ->
  fold_right plus 0 (map a xs) <= fold_right plus 0 (map b xs)
  /\ ((exists x, In x xs /\ a x < b x) -> fold_right plus 0 (map a xs) < fold_right plus 0 (map b xs)).
Proof.
  induction xs as [|x xs IH]; intros H; cbn [map fold_right]; [split; [lia|intros (x & [] & _)]|].
  destruct IH as [IH1 IH2]; [intros y Hy; apply H; now right|]. pose proof (H x (or_introl eq_refl)). split; [lia|].
  intros (y & [->|Hy] & K); [lia|]. assert (fold_right plus 0 (map a xs) < fold_right plus 0 (map b xs)) by eauto. lia.
Qed.
Lemma lack_le B s : lack B s <= L * B.
Proof.
  unfold lack. rewrite <- (seq_length L 0) at 2. induction (seq 0 L) as [|l xs IH]; cbn [map fold_right length]; lia.
Qed.

(** The estimates cover all levels and are at most [B]. *)
Definition estimates_ok (s : sampler E) (estimate : sampler E -> res (list Z)) (good : list Z -> Prop) : Prop :=
  forall s', follows s s' -> exists ns, estimate s' = Ok ns /\ length ns = L /\ good ns.
Definition below (B : nat) (ns : list Z) : Prop := forall n, In n ns -> (n <= Z.of_nat B)%Z.

Lemma loop_ends clk t c estimate B : positive t -> (0 < c <= 1)%Q ->
  forall rounds k ns ops s, reached E ps (S f) ops s -> (forall o, In o ops -> o <> Restart) ->
  length (s_targets s) = L -> length ns = L -> below B ns -> estimates_ok s estimate (below B) -> lack B s < rounds ->
  exists s' ns', adding_loop E ps (S f) clk t c estimate rounds k ns s = Finished s' ns'.
Proof.
  intros Ht Hc. induction rounds as [|r IH]; intros k ns ops s Hr Hno Htl Hn HB He Hm; [lia|].
  cbn [adding_loop]. destruct (adding_progress _ _ (clk k) t c ns Hr Ht Htl Hn Hc Hno) as (s1 & b & E1 & T1 & G1 & P1).
  rewrite E1. destruct b; [eauto|].
  assert (F1 : follows s s1).
  { pose proof (follows_step s (Adding (clk k) t c (map inject_Z ns))) as F. rewrite E1 in F. apply F. discriminate. }
  destruct (He s1 F1) as (ns1 & -> & Hn1 & HB1).
  destruct (follows_reached _ _ _ Hr F1) as (more & Hr1 & Hm1).
  apply (IH (S k) ns1 _ s1 Hr1); auto.
  - intros o Ho. apply in_app_or in Ho as [Ho|Ho]; auto.
  - intros s' F'. apply He. eapply follows_trans; eauto.
  - destruct (P1 eq_refl) as (l & n & Hl & Hnl & A & A').
    assert (lack B s1 < lack B s); [|lia]. unfold lack. apply sum_lt.
    + intros x Hx. apply in_seq in Hx. specialize (G1 x). lia.
    + exists l. split; [apply in_seq; lia|]. specialize (HB n (nth_error_In _ _ Hnl)). lia.
Qed.

Lemma loop_finished clk t c estimate : positive t ->
  forall rounds k ns ops s, reached E ps (S f) ops s -> length (s_targets s) = L -> length ns = L ->
  (forall s' ns', follows s s' -> estimate s' = Ok ns' -> length ns' = L) ->
  (0 < c <= 1)%Q ->
  forall s' ns', adding_loop E ps (S f) clk t c estimate rounds k ns s = Finished s' ns' ->
  follows s s' /\ (ns' = ns \/ exists s1, follows s s1 /\ estimate s1 = Ok ns') /\ length ns' = L
  /\ length (s_targets s') = L
  /\ (forall l n, nth_error ns' l = Some n -> (n <= Z.of_nat (n_sched s' l))%Z).
Proof.
  intros Ht. induction rounds as [|r IH]; intros k ns ops s Hr Htl Hn He Hc s' ns' E0; [discriminate|].
  cbn [adding_loop] in E0. destruct (step E ps (S f) s (Adding (clk k) t c (map inject_Z ns))) as [s1 o] eqn:E1.
  assert (F1 : follows s s1).
  { pose proof (follows_step s (Adding (clk k) t c (map inject_Z ns))) as F. rewrite E1 in F. apply F. discriminate. }
  assert (T1 : length (s_targets s1) = L).
  { destruct (adding_grows E ps _ _ _ (clk k) t f c (map inject_Z ns) Hr Ht Htl) as (T & _); auto; [now rewrite est_length|]. now rewrite E1 in T. }
  destruct o; try discriminate. destruct b.
  - injection E0 as -> ->. ands; auto. eapply adding_true; eauto.
  - destruct (estimate s1) as [ns1|e] eqn:Ee; [|discriminate].
    destruct (follows_reached _ _ _ Hr F1) as (more & Hr1 & _).
    destruct (IH (S k) ns1 _ s1 Hr1 T1 (He _ _ F1 Ee) (fun s2 ns2 F2 => He s2 ns2 (follows_trans _ _ _ F1 F2)) Hc _ _ E0) as (A & B & C & D & G).
    ands; auto; [eapply follows_trans; eauto|]. right.
    destruct B as [->|(s2 & F2 & K)]; [exists s1; auto|]. exists s2. split; auto. eapply follows_trans; eauto.
Qed.

Lemma collect_follows clk rounds : forall k s, follows s (fst (all_collect E ps (S f) clk rounds k s)).
Proof.
  induction rounds as [|r IH]; intros k s; cbn [all_collect]; [apply follows_refl|].
  pose proof (follows_step s (Ask (clk k) None)) as F. destruct (step E ps (S f) s (Ask (clk k) None)) as [s1 o].
  cbn [fst] in F. destruct o; try (apply F; discriminate). destruct (0 <? n)%Z; [|apply F; discriminate].
  eapply follows_trans; [apply F; discriminate|apply IH].
Qed.

(** all_collect needs one request and leaves nothing waiting. *)
Lemma collect_once clk rounds k ops s : reached E ps (S f) ops s ->
  exists s', all_collect E ps (S f) clk (S rounds) k s = (s', ONone) /\ step E ps (S f) s (Ask (clk k) None) = (s', OInt 0)
    /\ s_targets s' = s_targets s.
Proof.
  intros Hr. destruct (ask_all E ps f ops s (clk k) Hr) as (s' & E1 & _). exists s'.
  cbn [all_collect]. rewrite E1. ands; auto.
  destruct (reached_BInv _ _ _ _ _ Hr) as (gs & lost & HI & _).
  destruct (ask_Inv E ps (clk k) None (S f) s gs lost HI) as (s2 & gs' & r & Ea & _ & _ & _ & _ & D & _).
  cbn [step] in E1. rewrite Ea in E1. destruct r as [[z|e]|]; try discriminate. now injection E1 as -> _.
Qed.
Lemma ask_timed clk t ops s : reached E ps (S f) ops s ->
  exists s' n, step E ps (S f) s (Ask clk t) = (s', OInt n) /\ s_targets s' = s_targets s.
Proof.
  intros Hr. destruct (reached_BInv _ _ _ _ _ Hr) as (gs & lost & HI & _).
  destruct (ask_Inv E ps clk t (S f) s gs lost HI) as (s2 & gs' & r & Ea & _ & _ & C & _ & D & _).
  cbn [step]. rewrite Ea. destruct r as [[z|e]|]; [eauto|contradiction|destruct C; lia].
Qed.

(** The part before the loop: it always gets to the first estimate. *)
Lemma generate_begins clk t c estimate rounds arg ops s : reached E ps (S f) ops s ->
  length (s_targets (set_initial E s arg)) = L ->
  exists s3, follows s s3 /\ length (s_targets s3) = L
    /\ generate E ps (S f) clk t c estimate (S rounds) arg s
       = match estimate s3 with Ok ns => adding_loop E ps (S f) clk t c estimate (S rounds) 2 ns s3 | Err e => Stopped s3 (OErr e) end.
Proof.
  intros Hr Htl. unfold generate.
  pose proof (follows_step s (SetInitial arg)) as F0. change (fst (step E ps (S f) s (SetInitial arg))) with (set_initial E s arg) in F0 |- *.
  set (s0 := set_initial E s arg) in *. assert (F0' : follows s s0) by (apply F0; discriminate).
  destruct (follows_reached _ _ _ Hr F0') as (m0 & Hr0 & _).
  destruct (schedule_to_target E ps f _ s0 (clk 0 0) None Hr0 Htl) as (s1 & E1 & T1 & _). rewrite E1.
  assert (F1 : follows s s1).
  { eapply follows_trans; [exact F0'|]. pose proof (follows_step s0 (Schedule (clk 0 0) None)) as F. rewrite E1 in F. apply F. discriminate. }
  destruct (follows_reached _ _ _ Hr F1) as (m1 & Hr1 & _).
  destruct (ask_timed (clk 0 1) t _ s1 Hr1) as (s2 & n & E2 & T2). rewrite E2.
  assert (F2 : follows s s2).
  { eapply follows_trans; [exact F1|]. pose proof (follows_step s1 (Ask (clk 0 1) t)) as F. rewrite E2 in F. apply F. discriminate. }
  destruct (follows_reached _ _ _ Hr F2) as (m2 & Hr2 & _).
  destruct (collect_once (clk 1) rounds 0 _ s2 Hr2) as (s3 & E3 & E3' & T3). rewrite E3.
  exists s3. split; [|split; [congruence|reflexivity]].
  eapply follows_trans; [exact F2|]. pose proof (follows_step s2 (Ask (clk 1 0) None)) as F. rewrite E3' in F. apply F. discriminate.
Qed.

(** The campaign depends on the values of the estimate only. *)
Lemma loop_ext clk t c e1 e2 : (forall s, e1 s = e2 s) -> forall rounds k ns s,
  adding_loop E ps (S f) clk t c e1 rounds k ns s = adding_loop E ps (S f) clk t c e2 rounds k ns s.
Proof.
  intros He. induction rounds as [|r IH]; intros k ns s; [reflexivity|]. cbn [adding_loop].
  destruct (step E ps (S f) s (Adding (clk k) t c (map inject_Z ns))) as [s1 [| |b| |]]; auto. destruct b; auto. rewrite He. destruct (e2 s1); auto.
Qed.
Lemma generate_ext clk t c e1 e2 rounds arg s : (forall s, e1 s = e2 s) ->
  generate E ps (S f) clk t c e1 rounds arg s = generate E ps (S f) clk t c e2 rounds arg s.
Proof.
  intros He. unfold generate. destruct (step E ps (S f) _ (Schedule (clk 0 0) None)) as [s1 [| | | |]]; auto.
  destruct (step E ps (S f) s1 (Ask (clk 0 1) t)) as [s2 [| | | |]]; auto.
  destruct (all_collect E ps (S f) (clk 1) rounds 0 s2) as [s3 [| | | |]]; auto. rewrite He. destruct (e2 s3); auto. now apply loop_ext.
Qed.

End Facts.
