(** Summation of Fourier modes: C59, C89. *)
From Coq Require Import Reals Lra.
From Verif Require Import Base FourierModel.
Open Scope R_scope.

(** ** Specification *)
Definition total (f : nat -> R) (n : nat) : R := fold_right Rplus 0 (map f (seq 0 n)).
(** Phase of mode [i] at a point, and the mode. *)
Fixpoint dot (k : list (list R)) (p : list R) (i : nat) : R :=
  match k, p with kd :: k', x :: p' => nth i kd 0 * x + dot k' p' i | _, _ => 0 end.
Definition mode (k : list (list R)) (z0 z1 : list R) (p : list R) (i : nat) : R :=
  nth i z0 0 * cos (2 * PI * dot k p i) + nth i z1 0 * sin (2 * PI * dot k p i).
(** Every mode once. *)
Definition field_at (M : nat) k z0 z1 p : R := sqrt (1 / INR M) * total (mode k z0 z1 p) M.
(** Arrays of the right shape. *)
Definition shapes (M : nat) (k : list (list R)) (z0 z1 : list R) (points : list (list R)) : Prop :=
  (length k = 1%nat \/ length k = 2%nat) /\ Forall (fun kd => length kd = M) k /\ length z0 = M /\ length z1 = M
  /\ Forall (fun p => length p = length k) points.

(** ** Chunks *)
Section Chunks.
Variables (M : nat) (k : list (list R)) (z0 z1 : list R) (points : list (list R)) (fails : nat -> nat -> bool).
Hypothesis Sh : shapes M k z0 z1 points.
Definition idx (a e : nat) : list nat := seq a (Nat.min e M - a).

Lemma firstn_idx (l : list R) : forall n, firstn n l = map (fun i => nth i l 0) (seq 0 (Nat.min n (length l))).
Proof using.
  induction l as [|x l IH]; intros [|n]; try reflexivity. cbn [firstn length Nat.min seq map nth]. f_equal.
  rewrite IH, <- seq_shift, map_map. reflexivity.
Qed.
Lemma skipn_idx (l : list R) : forall a n, firstn n (skipn a l) = map (fun i => nth i l 0) (seq a (Nat.min n (length l - a))).
Proof using.
  induction l as [|x l IH]; intros a n.
  - rewrite skipn_nil, firstn_nil. cbn. now rewrite Nat.min_0_r.
  - destruct a as [|a]; [rewrite firstn_idx; cbn [length Nat.sub]; reflexivity|]. cbn [skipn length Nat.sub]. rewrite IH, <- seq_shift, map_map. reflexivity.
Qed.
Lemma slice_idx l a e : length l = M -> slice l a e = map (fun i => nth i l 0) (idx a e).
Proof using. intros L. unfold slice, idx. rewrite skipn_idx, L. do 2 f_equal. lia. Qed.
Lemma zip_map f (g h : nat -> R) l : zip f (map g l) (map h l) = map (fun i => f (g i) (h i)) l.
Proof using. induction l; cbn; congruence. Qed.
Lemma phase_idx p a e : In p points -> phase k p a e = map (dot k p) (idx a e).
Proof.
  intros Hp. destruct Sh as (D & Fk & _ & _ & Fp). rewrite Forall_forall in Fp. specialize (Fp p Hp). unfold phase.
  destruct k as [|k0 [|k1 [|]]]; cbn in D; try lia; destruct p as [|x [|y [|]]]; try discriminate Fp.
  - inversion Fk; subst. rewrite slice_idx by congruence. rewrite map_map. apply map_ext. intros i. cbn. ring.
  - inversion Fk as [|? ? A F']; subst. inversion F'; subst. rewrite !slice_idx by congruence. rewrite !map_map.
    rewrite zip_map. apply map_ext. intros i. cbn. ring.
Qed.
Lemma chunk_sum_idx p a e : In p points -> chunk_sum k z0 z1 p a e = fold_right Rplus 0 (map (mode k z0 z1 p) (idx a e)).
Proof.
  intros Hp. unfold chunk_sum. rewrite phase_idx by exact Hp. destruct Sh as (_ & _ & L0 & L1 & _).
  rewrite !slice_idx by assumption. rewrite !zip_map. reflexivity.
Qed.
Lemma sum_app a b : fold_right Rplus 0 (a ++ b) = fold_right Rplus 0 a + fold_right Rplus 0 b.
Proof using. induction a as [|x a IH]; cbn; [ring|]. rewrite IH. ring. Qed.
Lemma total_chunk f c len : total f (Nat.min (c * len) M) + fold_right Rplus 0 (map f (idx (c * len) (S c * len))) = total f (Nat.min (S c * len) M).
Proof using.
  unfold total, idx. rewrite <- sum_app, <- map_app. do 2 f_equal.
  destruct (Nat.le_gt_cases M (c * len)).
  - replace (Nat.min (S c * len) M - c * len)%nat with 0%nat by lia. cbn [seq]. rewrite app_nil_r. f_equal. cbn. lia.
  - replace (Nat.min (c * len) M) with (c * len)%nat by lia. rewrite <- seq_app. f_equal. cbn. lia.
Qed.

(** What attempt [t] adds when it stops after [c] chunks. *)
Definition part (len c : nat) (p : list R) : R := total (mode k z0 z1 p) (Nat.min (c * len) M).
Lemma zip_add (f g : list R -> R) l : zip Rplus (map f l) (map g l) = map (fun p => f p + g p) l.
Proof using. induction l; cbn; congruence. Qed.
Lemma chunks_run t len n : forall c (g : list R -> R) b acc,
  chunks fails k z0 z1 points t len c n (map (fun p => g p + part len c p) points) = (b, acc) ->
  exists d, acc = map (fun p => g p + part len d p) points /\ (c <= d <= c + n)%nat
    /\ (forall x, (c <= x < d)%nat -> fails t x = false)
    /\ if b then d = (c + n)%nat else (d < c + n)%nat /\ fails t d = true.
Proof.
  induction n as [|n IH]; intros c g b acc; cbn [chunks].
  - intros [= <- <-]. exists c. repeat split; try lia; intros; lia.
  - destruct (fails t c) eqn:F.
    + intros [= <- <-]. exists c. repeat split; try lia; auto; intros; lia.
    + assert (zip Rplus (map (fun p => g p + part len c p) points) (map (fun p => chunk_sum k z0 z1 p (c * len) (S c * len)) points)
              = map (fun p => g p + part len (S c) p) points) as ->.
      { rewrite zip_add. apply map_ext_in. intros p Hp. rewrite chunk_sum_idx by exact Hp. unfold part. rewrite <- total_chunk. ring. }
      intros H. apply IH in H as (d & -> & Hd & Hf & Hb). exists d. split; [reflexivity|]. split; [lia|]. split.
      * intros x Hx. destruct (Nat.eq_dec x c) as [->|]; [exact F|]. apply Hf. lia.
      * destruct b; [lia|]. destruct Hb. split; [lia|assumption].
Qed.
Lemma part_zero len p : part len 0 p = 0.
Proof using. reflexivity. Qed.
Lemma part_all t p : part (chunk_length M (2 ^ t)) (2 ^ t) p = total (mode k z0 z1 p) M.
Proof using.
  unfold part, chunk_length. f_equal. apply Nat.min_r. set (n := (2 ^ t)%nat). assert (n <> 0)%nat by (apply Nat.pow_nonzero; lia).
  pose proof (Nat.div_mod (M + (n - 1)) n H). pose proof (Nat.mod_upper_bound (M + (n - 1)) n H). nia.
Qed.
Fixpoint extra (done : nat -> nat) (t n : nat) (p : list R) : R :=
  match n with O => 0 | S n' => part (chunk_length M (2 ^ t)) (done t) p + extra done (S t) n' p end.
(** Attempt [t] is given up after [done t] of its 2^t chunks. *)
Definition gave_up (done : nat -> nat) (t : nat) : Prop :=
  (done t < 2 ^ t)%nat /\ fails t (done t) = true /\ forall c, (c < done t)%nat -> fails t c = false.
Lemma extra_ext d d' t n p : (forall x, (t <= x)%nat -> d x = d' x) -> extra d t n p = extra d' t n p.
Proof using. revert t. induction n as [|n IH]; intros t H; cbn; [reflexivity|]. rewrite H by lia. f_equal. apply IH. intros. apply H. lia. Qed.
Lemma attempts_run fuel : forall t (g : list R -> R) l,
  attempts fails M k z0 z1 points fuel t (2 ^ t) t (map g points) = Some l ->
  exists n done, (forall x, (t <= x < t + n)%nat -> gave_up done x) /\ (forall c, (c < 2 ^ (t + n))%nat -> fails (t + n)%nat c = false)
    /\ l = map (fun p => g p + extra done t n p + total (mode k z0 z1 p) M) points.
Proof.
  induction fuel as [|fuel IH]; intros t g l; cbn [attempts]; [discriminate|].
  destruct (chunks fails k z0 z1 points t (chunk_length M (2 ^ t)) 0 (2 ^ t) (map g points)) as [b acc] eqn:E.
  assert (map g points = map (fun p => g p + part (chunk_length M (2 ^ t)) 0 p) points) as Eg.
  { apply map_ext. intros p. rewrite part_zero. ring. }
  rewrite Eg in E. apply chunks_run in E as (d & -> & Hd & Hf & Hb). cbn [plus] in Hb.
  destruct b.
  - intros [= <-]. exists 0%nat, (fun _ => 0%nat). split; [intros; lia|]. rewrite Nat.add_0_r. split.
    + intros c Hc. apply Hf. lia.
    + apply map_ext. intros p. subst d. rewrite part_all. cbn. ring.
  - replace (2 ^ t + 2 ^ t)%nat with (2 ^ S t)%nat by (cbn; lia). intros H. apply IH in H as (n & done & A & B & ->).
    exists (S n), (fun x => if Nat.eq_dec x t then d else done x). split; [|split].
    + intros x Hx. destruct (Nat.eq_dec x t) as [->|N]; unfold gave_up.
      * destruct (Nat.eq_dec t t) as [_|]; [|congruence]. destruct Hb. repeat split; auto. intros c Hc. apply Hf. lia.
      * destruct (Nat.eq_dec x t); [congruence|]. apply A. lia.
    + replace (t + S n)%nat with (S t + n)%nat by lia. exact B.
    + apply map_ext. intros p. cbn [extra]. destruct (Nat.eq_dec t t) as [_|]; [|congruence].
      rewrite (extra_ext (fun x => if Nat.eq_dec x t then d else done x) done) by (intros x Hx; destruct (Nat.eq_dec x t); [lia|reflexivity]). ring.
Qed.
Lemma attempts_ends T : (forall c, (c < 2 ^ T)%nat -> fails T c = false) -> forall fuel t acc, (t <= T)%nat -> (T < t + fuel)%nat ->
  attempts fails M k z0 z1 points fuel t (2 ^ t) t acc <> None.
Proof using.
  intros HT. induction fuel as [|fuel IH]; intros t acc H1 H2; [lia|]. cbn [attempts].
  destruct (chunks fails k z0 z1 points t (chunk_length M (2 ^ t)) 0 (2 ^ t) acc) as [b acc'] eqn:E. destruct b; [discriminate|].
  replace (2 ^ t + 2 ^ t)%nat with (2 ^ S t)%nat by (cbn; lia). destruct (Nat.eq_dec t T) as [->|N]; [exfalso|apply IH; lia].
  assert (forall n c acc, (c + n <= 2 ^ T)%nat -> fst (chunks fails k z0 z1 points T (chunk_length M (2 ^ T)) c n acc) = true) as K.
  { induction n as [|n IHn]; intros c a Hc; cbn [chunks]; [reflexivity|]. rewrite HT by lia. apply IHn. lia. }
  specialize (K (2 ^ T)%nat 0%nat acc). rewrite E in K. cbn in K. specialize (K (le_n _)). discriminate.
Qed.
End Chunks.

Lemma random_field_ok fails M k z0 z1 points fuel gauss r :
  random_field fails M k z0 z1 points fuel gauss = Ok r ->
  r = option_map (map (fun s => sqrt (1 / INR M) * s)) (attempts fails M k z0 z1 points fuel 0 (2 ^ 0) 0 (map (fun _ => 0) points)).
Proof. unfold random_field. destruct (length k) as [|[|[|]]]; try discriminate; destruct gauss; try discriminate; now intros [= <-]. Qed.

(** C59, the part that holds for every pattern of memory errors: the result is the sum of all modes plus, for each attempt
    given up, the modes of the chunks it had done. Missing: nothing should be added, see [C59_refuted] and [C89_once]. *)
Theorem C59_partial fails M k z0 z1 points fuel gauss l :
  shapes M k z0 z1 points -> random_field fails M k z0 z1 points fuel gauss = Ok (Some l) ->
  exists n done, (forall t, (t < n)%nat -> gave_up fails done t)
    /\ (forall c, (c < 2 ^ n)%nat -> fails n c = false)
    /\ l = map (fun p => field_at M k z0 z1 p
                 + sqrt (1 / INR M) * fold_right Rplus 0 (map (fun t => total (mode k z0 z1 p) (Nat.min (done t * chunk_length M (2 ^ t)) M)) (seq 0 n))) points.
Proof.
  intros Sh H. apply random_field_ok in H.
  destruct (attempts fails M k z0 z1 points fuel 0 (2 ^ 0) 0 (map (fun _ => 0) points)) as [s|] eqn:E; [|discriminate]. injection H as ->.
  apply attempts_run in E as (n & done & A & B & ->); [|exact Sh].
  exists n, done. split; [intros t Ht; apply A; lia|]. split; [exact B|]. rewrite map_map. apply map_ext. intros p. unfold field_at.
  assert (forall m t, extra M k z0 z1 done t m p = fold_right Rplus 0 (map (fun t => total (mode k z0 z1 p) (Nat.min (done t * chunk_length M (2 ^ t)) M)) (seq t m))) as ->.
  { induction m as [|m IH]; intros t; cbn [extra seq map fold_right]; [reflexivity|]. now rewrite IH. }
  ring.
Qed.
Print Assumptions C59_partial.

(** C89: if an attempt runs out of memory only at its first chunk, every mode is summed once. *)
Theorem C89_once fails M k z0 z1 points fuel gauss l :
  shapes M k z0 z1 points -> (forall t c, (c < 2 ^ t)%nat -> fails t c = true -> fails t 0%nat = true) ->
  random_field fails M k z0 z1 points fuel gauss = Ok (Some l) -> l = map (field_at M k z0 z1) points.
Proof.
  intros Sh Hf H. destruct (C59_partial _ _ _ _ _ _ _ _ _ Sh H) as (n & done & A & _ & ->). apply map_ext. intros p.
  assert (forall t, (t < n)%nat -> done t = 0%nat) as Z.
  { intros t Ht. destruct (A t Ht) as (H1 & H2 & H3). specialize (Hf t _ H1 H2). destruct (done t) as [|d]; [reflexivity|].
    rewrite H3 in Hf by lia. discriminate. }
  rewrite (map_ext_in _ (fun _ => 0)) by (intros t Ht; apply in_seq in Ht; now rewrite Z by lia).
  assert (forall m t, fold_right Rplus 0 (map (fun _ => 0) (seq t m)) = 0) as ->; [|ring].
  induction m as [|m IH]; intros t; cbn; [reflexivity|]. rewrite IH. ring.
Qed.
Print Assumptions C89_once.

(** Number of modes of chunk [c] in attempt [t]. *)
Definition size (M t c : nat) : nat := let len := chunk_length M (2 ^ t) in (Nat.min ((c + 1) * len) M - Nat.min (c * len) M)%nat.
(** C89: if the size of a chunk decides whether there is memory for it, and there is memory for one mode, the loop ends
    and every mode is summed once. *)
Theorem C89_size too_big M k z0 z1 points fuel gauss :
  shapes M k z0 z1 points -> (length k = 1%nat -> gauss = true) ->
  (forall a b, (a <= b)%nat -> too_big a = true -> too_big b = true) -> too_big 1%nat = false ->
  (M <= 2 ^ fuel)%nat ->
  random_field (fun t c => too_big (size M t c)) M k z0 z1 points (S fuel) gauss = Ok (Some (map (field_at M k z0 z1) points)).
Proof.
  intros Sh Hg Hm H1 HM. set (fails := fun t c => too_big (size M t c)).
  assert (forall c, (c < 2 ^ fuel)%nat -> fails fuel c = false) as HT.
  { intros c _. unfold fails. destruct (too_big (size M fuel c)) eqn:E; [|reflexivity]. rewrite <- H1. symmetry. apply (Hm (size M fuel c)); [|exact E].
    unfold size. assert (chunk_length M (2 ^ fuel) <= 1)%nat; [|nia]. unfold chunk_length. set (n := (2 ^ fuel)%nat) in *.
    assert (n <> 0)%nat by (apply Nat.pow_nonzero; lia). apply Nat.lt_succ_r, Nat.div_lt_upper_bound; lia. }
  pose proof (attempts_ends M k z0 z1 points fails fuel HT (S fuel) 0%nat (map (fun _ => 0) points) ltac:(lia) ltac:(lia)) as N.
  destruct (random_field fails M k z0 z1 points (S fuel) gauss) as [r|] eqn:E.
  - pose proof (random_field_ok _ _ _ _ _ _ _ _ _ E) as Er. destruct (attempts _ _ _ _ _ _ _ _ _ _ _) as [s|]; [|congruence].
    cbn [option_map] in Er. subst r. do 2 f_equal. apply C89_once in E; [exact E|exact Sh|].
    intros t c _. unfold fails. apply Hm. unfold size. cbn [Nat.mul Nat.add]. set (len := chunk_length M (2 ^ t)). lia.
  - exfalso. unfold random_field in E. destruct Sh as ([D|D] & _); rewrite D in E; [rewrite (Hg D) in E|]; try discriminate.
Qed.
Print Assumptions C89_size.

Definition ex_fails (t c : nat) : bool := match t, c with 0, 0 | 1, 1 => true | _, _ => false end%nat.
Lemma ex_shapes : shapes 2 [[0; 0]] [1; 1] [0; 0] [[0]].
Proof. repeat split; auto. Qed.
(** C59 in full is false: the first attempt fails, the second one after its first chunk; the first mode is summed twice. *)
Theorem C59_refuted : exists fails M k z0 z1 points fuel gauss l,
  shapes M k z0 z1 points /\ random_field fails M k z0 z1 points fuel gauss = Ok (Some l) /\ l <> map (field_at M k z0 z1) points.
Proof.
  exists ex_fails, 2%nat, [[0; 0]], [1; 1], [0; 0], [[0]], 3%nat, true. eexists. split; [exact ex_shapes|]. split; [reflexivity|].
  unfold field_at, total, mode. cbn [map seq dot nth fold_right]. intros [= E].
  assert (0 < sqrt (1 / (1 + 1))) as P by (apply sqrt_lt_R0; lra).
  apply Rmult_eq_reg_l in E; [|lra]. unfold chunk_sum, phase, slice in E. cbn in E.
  rewrite !Rmult_0_l, !Rmult_0_r, ?Rplus_0_r, ?Rmult_0_r, ?cos_0, ?sin_0 in E. lra.
Qed.
Print Assumptions C59_refuted.
Example C59_partial_ex : shapes 2 [[0; 0]] [1; 1] [0; 0] [[0]] /\ gave_up ex_fails (fun t => t) 0 /\ gave_up ex_fails (fun t => t) 1
  /\ exists l, random_field ex_fails 2 [[0; 0]] [1; 1] [0; 0] [[0]] 3 true = Ok (Some l).
Proof.
  split; [exact ex_shapes|]. split; [|split]; [| |eexists; reflexivity].
  - split; [cbn; lia|split; [reflexivity|]]. intros; lia.
  - split; [cbn; lia|split; [reflexivity|]]. intros c Hc. now replace c with 0%nat by lia.
Qed.
(** Memory for one of the two modes at a time: two attempts. *)
Example C89_ex : random_field (fun t c => Nat.ltb 1 (size 2 t c)) 2 [[0; 0]] [1; 1] [0; 0] [[0]] 2 true = Ok (Some [field_at 2 [[0; 0]] [1; 1] [0; 0] [0]])
  /\ random_field (fun t c => Nat.ltb 1 (size 2 t c)) 2 [[0; 0]] [1; 1] [0; 0] [[0]] 1 true = Ok None.
Proof.
  split; [|reflexivity]. apply (C89_size (Nat.ltb 1)); auto.
  - exact ex_shapes.
  - intros a b H. rewrite !Nat.ltb_lt. lia.
Qed.
