(** Which shapes of results the storages give back. *)
From Verif Require Import Base BaseFacts ShapeModel.

(** * Specification *)
Section Spec.
Context {X : Type} (d : X).
(** Results of shape s of the samples of a level, fine and coarse, each flattened. *)
Definition sized (s : list nat) (rows : list (list X * list X)) : Prop := forall v, In v rows -> length (fst v) = prod s /\ length (snd v) = prod s.
(** The array both storages keep: one row for each sample, sample_storage.py:172-189 and hdf5.py:308-324. *)
Definition stored (s : list nat) (rows : list (list X * list X)) : nd X := mkNd (length rows :: 2 :: s) (flat_map (fun v => fst v ++ snd v) rows).
(** Entry of an array with three axes. *)
Definition at3 (a : nd X) (m i k : nat) : X :=
  match sh a with [_; n; p] => nth ((m * n + i) * p + k) (dat a) d | _ => d end.
(** What a reader of the samples [from, to) of a level wants: axes component, sample, fine/coarse; level 0 has no coarse part. *)
Definition parts (level : nat) : nat := if Nat.eqb level 0 then 1 else 2.
Definition gives (level : nat) (s : list nat) (rows : list (list X * list X)) (from to : nat) (r : res (nd X)) : Prop :=
  exists a, r = Ok a /\ sh a = [prod s; to - from; parts level]
  /\ forall m i k, m < prod s -> i < to - from -> k < parts level ->
     at3 a m i k = nth m ((if Nat.eqb k 0 then fst else snd) (nth (from + i) rows ([], []))) d.
End Spec.

(** * Facts *)
Section Facts.
Context {X : Type} (d : X).
Lemma flat_len {A} (f : A -> list X) w l : (forall x, In x l -> length (f x) = w) -> length (flat_map f l) = length l * w.
Proof. induction l as [|x l IH]; intros H; [reflexivity|]. cbn [flat_map length]. rewrite app_length, IH by (intros; apply H; now right). rewrite (H x) by now left. lia. Qed.
Lemma flat_nth {A} (f : A -> list X) w (e : A) : forall l i j, (forall x, In x l -> length (f x) = w) -> i < length l -> j < w ->
  nth (i * w + j) (flat_map f l) d = nth j (f (nth i l e)) d.
Proof.
  induction l as [|x l IH]; intros i j H Hi Hj; [cbn in Hi; lia|]. cbn [flat_map]. assert (L : length (f x) = w) by (apply H; now left).
  destruct i as [|i].
  - cbn [Nat.mul nth Nat.add]. rewrite app_nth1 by lia. reflexivity.
  - cbn [nth]. rewrite app_nth2 by (rewrite L; nia). rewrite L. replace (S i * w + j - w) with (i * w + j) by nia. apply IH; [intros y Hy; apply H; now right|cbn in Hi; lia|exact Hj].
Qed.
Lemma flat_slice {A} (f : A -> list X) w l : forall a n, (forall x, In x l -> length (f x) = w) -> a + n <= length l ->
  firstn (n * w) (skipn (a * w) (flat_map f l)) = flat_map f (firstn n (skipn a l)).
Proof.
  assert (E : forall l a, (forall x, In x l -> length (f x) = w) -> a <= length l -> skipn (a * w) (flat_map f l) = flat_map f (skipn a l)).
  { clear l. induction l as [|x l IH]; intros a H Ha; [cbn in Ha; assert (a = 0) by lia; now subst|]. destruct a as [|a]; [reflexivity|]. cbn [flat_map skipn].
    assert (L : length (f x) = w) by (apply H; now left). rewrite skipn_app. rewrite L. replace (S a * w - w) with (a * w) by nia.
    rewrite skipn_all2 by (rewrite L; nia). cbn [app]. apply IH; [intros y Hy; apply H; now right|cbn in Ha; lia]. }
  intros a n H Ha. rewrite E by (auto; lia). set (r := skipn a l). assert (Hr : forall x, In x r -> length (f x) = w).
  { intros x Hx. apply H. unfold r in Hx. rewrite <- (firstn_skipn a l). apply in_or_app. now right. }
  assert (Lr : n <= length r) by (unfold r; rewrite skipn_length; lia). clearbody r. clear H Ha E. revert n Lr. induction r as [|x r IH]; intros n Ln.
  - cbn in Ln. assert (n = 0) by lia. subst. reflexivity.
  - destruct n as [|n]; [reflexivity|]. cbn [flat_map firstn]. assert (L : length (f x) = w) by (apply Hr; now left). rewrite firstn_app, L. replace (S n * w - w) with (n * w) by nia.
    rewrite firstn_all2 by (rewrite L; nia). f_equal. apply IH; [intros y Hy; apply Hr; now right|cbn in Ln; lia].
Qed.
Lemma prod1 (s : list nat) : length s = 1 -> s = [prod s].
Proof. destruct s as [|x [|]]; try discriminate. intros _. cbn. now rewrite Nat.mul_1_r. Qed.
Lemma stored_slice s (rows : list (list X * list X)) a b : sized s rows -> a <= b <= length rows -> row_slice (stored s rows) a b = Ok (stored s (firstn (b - a) (skipn a rows))).
Proof.
  intros Hs Hb. unfold row_slice, stored. cbn [sh dat]. replace (Nat.min b (length rows)) with b by lia. f_equal.
  assert (L : length (firstn (b - a) (skipn a rows)) = b - a) by (rewrite firstn_length, skipn_length; lia). rewrite L. f_equal.
  apply (flat_slice (fun v => fst v ++ snd v)); [|lia]. intros v Hv. rewrite app_length. destruct (Hs v Hv) as [-> ->]. unfold prod. cbn [fold_right]. lia.
Qed.
Lemma sized_slice s (rows : list (list X * list X)) a n : sized s rows -> sized s (firstn n (skipn a rows)).
Proof. intros H v Hv. apply H. rewrite <- (firstn_skipn a rows). apply in_or_app. right. rewrite <- (firstn_skipn n (skipn a rows)). apply in_or_app. now left. Qed.
(** Rows kept as a matrix of n x 2 x M. *)
Definition table (M : nat) (rows : list (list X * list X)) : nd X := mkNd [length rows; 2; M] (flat_map (fun v => fst v ++ snd v) rows).
Definition finish (level : nat) (a : nd X) : res (nd X) := bind (if Nat.eqb level 0 then first_of_axis1 a else Ok a) (transpose201 d).
Lemma transpose_at n p M (l : list X) a m i k : transpose201 d (mkNd [n; p; M] l) = Ok a -> m < M -> i < n -> k < p -> at3 d a m i k = nth ((i * p + k) * M + m) l d.
Proof.
  intros E Hm Hi Hk. unfold transpose201 in E. cbn [sh dat] in E. injection E as <-. unfold at3. cbn [sh dat].
  replace ((m * n + i) * p + k) with (m * (n * p) + (i * p + k)) by nia.
  rewrite (flat_nth _ (n * p) 0).
  - rewrite seq_nth by lia. cbn [Nat.add]. rewrite (flat_nth _ p 0).
    + rewrite seq_nth by lia. cbn [Nat.add]. rewrite (nth_indep _ d (nth ((i * p + 0) * M + m) l d)) by (rewrite map_length, seq_length; lia).
      rewrite (map_nth (fun j => nth ((i * p + j) * M + m) l d) (seq 0 p) 0 k), seq_nth by lia. reflexivity.
    + intros x _. now rewrite map_length, seq_length. + rewrite seq_length. lia. + lia.
  - intros x _. rewrite (flat_len _ p); [now rewrite seq_length|]. intros y _. now rewrite map_length, seq_length.
  - rewrite seq_length. lia. - nia.
Qed.
Lemma finish_table level M rows : (forall v, In v rows -> length (fst v) = M /\ length (snd v) = M) ->
  exists a, finish level (table M rows) = Ok a /\ sh a = [M; length rows; parts level]
  /\ forall m i k, m < M -> i < length rows -> k < parts level -> at3 d a m i k = nth m ((if Nat.eqb k 0 then fst else snd) (nth i rows ([], []))) d.
Proof.
  intros H. assert (H2 : forall v, In v rows -> length (fst v ++ snd v) = 2 * M) by (intros v Hv; rewrite app_length; destruct (H v Hv) as [-> ->]; lia).
  unfold finish, parts. destruct (Nat.eqb_spec level 0) as [_|N].
  - unfold table, first_of_axis1. cbn [sh bind Nat.min]. eexists. split; [reflexivity|]. split; [reflexivity|]. intros m i k Hm Hi Hk. assert (k = 0) by lia. subst k. cbn [Nat.eqb].
    erewrite transpose_at; [|reflexivity|exact Hm|exact Hi|lia]. cbn [dat]. rewrite Nat.mul_1_r, Nat.add_0_r.
    replace (prod [M]) with M by (cbn; lia). rewrite (flat_nth _ M 0).
    + rewrite seq_nth by exact Hi. cbn [Nat.add]. replace (1 * M) with M by lia.
      assert (E : nth m (firstn M (skipn (i * (2 * M)) (flat_map (fun v => fst v ++ snd v) rows))) d = nth (i * (2 * M) + m) (flat_map (fun v => fst v ++ snd v) rows) d).
      { rewrite <- (firstn_skipn (i * (2 * M)) (flat_map (fun v => fst v ++ snd v) rows)) at 2.
        assert (L : length (firstn (i * (2 * M)) (flat_map (fun v => fst v ++ snd v) rows)) = i * (2 * M)) by (rewrite firstn_length, (flat_len _ (2 * M)) by exact H2; nia).
        rewrite app_nth2 by lia. rewrite L. replace (i * (2 * M) + m - i * (2 * M)) with m by lia.
        rewrite <- (firstn_skipn M (skipn (i * (2 * M)) _)) at 2. rewrite app_nth1; [reflexivity|]. rewrite firstn_length, skipn_length, (flat_len _ (2 * M)) by exact H2. nia. }
      rewrite E. rewrite (flat_nth _ (2 * M) ([], [])) by (auto; lia). apply app_nth1. destruct (H (nth i rows ([], []))) as [-> _]; [now apply nth_In|exact Hm].
    + intros x Hx. apply in_seq in Hx. rewrite firstn_length, skipn_length, (flat_len _ (2 * M)) by exact H2. nia.
    + rewrite seq_length. exact Hi. + exact Hm.
  - cbn [bind]. unfold table. eexists. split; [reflexivity|]. split; [reflexivity|]. intros m i k Hm Hi Hk. erewrite transpose_at; [|reflexivity|exact Hm|exact Hi|exact Hk].
    replace ((i * 2 + k) * M + m) with (i * (2 * M) + (k * M + m)) by nia. rewrite (flat_nth _ (2 * M) ([], [])) by (auto; nia).
    destruct (H (nth i rows ([], []))) as [L1 L2]; [now apply nth_In|]. destruct k as [|[|k]]; [| |lia]; cbn [Nat.eqb].
    + cbn [Nat.mul Nat.add]. apply app_nth1. lia.
    + rewrite app_nth2 by lia. f_equal. lia.
Qed.
Lemma table_prod M (rows : list (list X * list X)) : prod (sh (table M rows)) = length rows * 2 * M. Proof. cbn. lia. Qed.
End Facts.

(** ** C203: shapes of results *)
(** In full (results of every shape come back, from both storages) the statement is false; here is exactly what comes back. *)
Theorem C203_shapes_partial : forall X (d : X) level s rows from to, sized s rows -> from < to <= length rows ->
  (length s = 1 \/ prod s <= 1 -> gives d level s rows from to (mem_read d level (stored s rows) (Some (from, to))))
  /\ (length s <> 1 -> 1 < prod s -> mem_read d level (stored s rows) (Some (from, to)) = Err ValueError)
  /\ (length s = 1 -> gives d level s rows from to (hdf_read d level (stored s rows) (from, to)))
  /\ (length s <> 1 -> exists e, hdf_read d level (stored s rows) (from, to) = Err e).
Proof.
  intros X d level s rows from to Hs Hr. unfold mem_read, hdf_read. cbn [fst snd]. rewrite stored_slice by (auto; lia). cbn [bind].
  set (r := firstn (to - from) (skipn from rows)). assert (Lr : length r = to - from) by (unfold r; rewrite firstn_length, skipn_length; lia).
  assert (Sr : sized s r) by now apply sized_slice.
  assert (Er : forall i, i < to - from -> nth i r ([], []) = nth (from + i) rows ([], [])).
  { intros i Hi. unfold r. rewrite <- (firstn_skipn from rows) at 2. rewrite app_nth2; rewrite firstn_length; replace (Nat.min from (length rows)) with from by lia; [|lia].
    replace (from + i - from) with i by lia. rewrite <- (firstn_skipn (to - from) (skipn from rows)) at 2. rewrite app_nth1; [reflexivity|]. rewrite firstn_length, skipn_length. lia. }
  assert (G : forall M, M = prod s -> gives d level s rows from to (finish d level (table M r))).
  { intros M ->. destruct (finish_table d level (prod s) r Sr) as (a & E & Sh & V). exists a. rewrite Lr in Sh, V. split; [exact E|]. split; [exact Sh|].
    intros m i k Hm Hi Hk. rewrite V by auto. now rewrite Er. }
  assert (P : prod (sh (stored s r)) = length r * 2 * prod s) by (unfold prod; cbn [stored sh fold_right]; lia).
  split; [|split; [|split]].
  - intros Hd. destruct (Nat.eqb_spec (length (sh (stored s r))) 3) as [L3|L3].
    + cbn [bind]. cbn in L3. assert (L1 : length s = 1) by lia. assert (T : stored s r = table (prod s) r) by (unfold stored, table; now rewrite (prod1 s L1) at 1). rewrite T. exact (G (prod s) eq_refl).
    + assert (L1 : length s <> 1) by (cbn in L3; lia). assert (H1 : prod s <= 1) by (destruct Hd; [contradiction|assumption]). cbn [sh stored] in *.
      unfold reshape. change (prod (sh (stored s r))) with (prod (sh (mkNd (length r :: 2 :: s) (flat_map (fun v => fst v ++ snd v) r)))) in P. cbn [sh] in P. unfold stored. cbn [sh].
      rewrite P. assert (Em : (if Nat.eqb (length r * 2 * prod s) (length r * 2) then 1 else length r * 2 * prod s / length r * 2) = prod s).
      { destruct (Nat.eqb_spec (length r * 2 * prod s) (length r * 2)) as [E|E]; [nia|]. assert (prod s = 0) by nia. rewrite H. rewrite Nat.mul_0_r, Nat.div_0_l by lia. reflexivity. }
      rewrite Em. assert (E2 : prod [length r; 2; prod s] = length r * 2 * prod s) by (unfold prod; cbn [fold_right]; lia). rewrite E2, Nat.eqb_refl. cbn [bind dat]. exact (G (prod s) eq_refl).
  - intros L1 H1. destruct (Nat.eqb_spec (length (sh (stored s r))) 3) as [L3|L3]; [cbn in L3; lia|]. unfold reshape. cbn [sh stored]. cbn [sh stored] in P. rewrite P.
    destruct (Nat.eqb_spec (length r * 2 * prod s) (length r * 2)) as [E|E]; [nia|].
    replace (length r * 2 * prod s / length r) with (2 * prod s) by (symmetry; replace (length r * 2 * prod s) with (2 * prod s * length r) by lia; apply Nat.div_mul; lia).
    assert (E2 : prod [length r; 2; 2 * prod s * 2] = length r * 2 * prod s * 4) by (unfold prod; cbn [fold_right]; lia). rewrite E2.
    destruct (Nat.eqb_spec (length r * 2 * prod s * 4) (length r * 2 * prod s)) as [E3|E3]; [nia|reflexivity].
  - intros L1. assert (T : stored s r = table (prod s) r) by (unfold stored, table; now rewrite (prod1 s L1) at 1). rewrite T. exact (G (prod s) eq_refl).
  - intros L1. destruct s as [|x [|y s]]; [|contradiction|]; destruct (Nat.eqb level 0); cbn; eexists; reflexivity.
Qed.
Theorem C203_shapes_refuted : exists s (rows : list (list nat * list nat)), sized s rows /\ rows <> []
  /\ mem_read 0 1 (stored s rows) (Some (0, length rows)) = Err ValueError /\ hdf_read 0 1 (stored s rows) (0, length rows) = Err ValueError.
Proof. exists [2; 2], [([1; 2; 3; 4], [5; 6; 7; 8])]. split; [intros v [<-|[]]; split; reflexivity|]. split; [discriminate|]. split; reflexivity. Qed.
(** A number as a result: the memory storage gives it back, the file storage refuses it. *)
Theorem C203_numbers_refuted : exists (rows : list (list nat * list nat)) a, sized [] rows /\ rows <> []
  /\ mem_read 0 0 (stored [] rows) (Some (0, length rows)) = Ok a /\ hdf_read 0 0 (stored [] rows) (0, length rows) = Err IndexError.
Proof. exists [([1], [0]); ([2], [0])]. eexists. split; [intros v [<-|[<-|[]]]; split; reflexivity|]. split; [discriminate|]. split; reflexivity. Qed.

(** ** C204: chunks of sub-quantities have three axes *)
Theorem C204_keep_dims : forall X (a : nd X),
  (length (sh a) < 2 -> keep_dims a = Err ValueError)
  /\ forall s n q, sh a = s ++ [n; q] -> keep_dims a = Ok (mkNd [prod s; n; q] (dat a)).
Proof.
  intros X a. split.
  - intros H. unfold keep_dims. destruct (sh a) as [|x [|y s]]; [reflexivity|reflexivity|cbn in H; lia].
  - intros s n q E. unfold keep_dims. rewrite E, rev_app_distr. cbn [rev app]. destruct (rev s) as [|x r] eqn:Es.
    + assert (s = []) by (rewrite <- (rev_involutive s), Es; reflexivity). subst s. reflexivity.
    + cbn [tl]. rewrite <- Es, rev_involutive. unfold reshape. rewrite E.
      assert (P : prod [prod s; n; q] = prod (s ++ [n; q])).
      { clear. induction s as [|y s IH]; [unfold prod; cbn [fold_right app]; lia|]. cbn [app]. change (prod (y :: s ++ [n; q])) with (y * prod (s ++ [n; q])). rewrite <- IH. unfold prod. cbn [fold_right]. lia. }
      rewrite P, Nat.eqb_refl. reflexivity.
Qed.
Print Assumptions C203_shapes_partial.
Print Assumptions C203_shapes_refuted.
Print Assumptions C203_numbers_refuted.
Print Assumptions C204_keep_dims.

(** ** Examples *)
Example C203_example : mem_read 0 1 (stored [2] [([1; 2], [3; 4]); ([5; 6], [7; 8])]) (Some (0, 2)) = Ok (mkNd [2; 2; 2] [1; 3; 5; 7; 2; 4; 6; 8])
  /\ sized [2] [([1; 2], [3; 4]); ([5; 6], [7; 8])] /\ gives 0 1 [2] [([1; 2], [3; 4]); ([5; 6], [7; 8])] 0 2 (Ok (mkNd [2; 2; 2] [1; 3; 5; 7; 2; 4; 6; 8])).
Proof.
  split; [reflexivity|]. assert (S : sized [2] [([1; 2], [3; 4]); ([5; 6], [7; 8])]) by (intros v [<-|[<-|[]]]; split; reflexivity). split; [exact S|].
  destruct (C203_shapes_partial nat 0 1 [2] _ 0 2 S) as (G & _); [cbn; lia|]. apply G. now left.
Qed.
Example C204_example : keep_dims (mkNd [3; 2; 1; 2] [1; 2; 3; 4; 5; 6; 7; 8; 9; 10; 11; 12]) = Ok (mkNd [6; 1; 2] [1; 2; 3; 4; 5; 6; 7; 8; 9; 10; 11; 12]).
Proof. apply (proj2 (C204_keep_dims nat (mkNd [3; 2; 1; 2] [1; 2; 3; 4; 5; 6; 7; 8; 9; 10; 11; 12])) [3; 2] 1 2). reflexivity. Qed.
