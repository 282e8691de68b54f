(** C218: the violin plot compares the fine samples of a level with the coarse samples of the next level. *)
From Verif Require Import Base ViolinModel.

(** *** Specification *)
(** Samples of one level as pairs (fine, coarse), stored as an array with the given axes around. *)
Definition holds (a : nd) (shape : list nat) (pairs : list (Q * Q)) : Prop :=
  nd_shape a = shape /\ nd_data a = flat_map (fun p => [fst p; snd p]) pairs.
(** Rows under the label of level l: the fine samples of l and the coarse samples of l + 1. *)
Definition level_rows (pairs : nat -> list (Q * Q)) (l : nat) : list row :=
  map (fun p => (fst p, true, (l, l + 1))) (pairs l) ++ map (fun p => (snd p, false, (l, l + 1))) (pairs (l + 1)).
Definition good_frame (pairs : nat -> list (Q * Q)) (n_levels : nat) (f : list row) : Prop := f = flat_map (level_rows pairs) (seq 0 (n_levels - 1)).

Lemma pairs_skip : forall (ps : list (Q * Q)) i, skipn (i * 2) (flat_map (fun p => [fst p; snd p]) ps) = flat_map (fun p => [fst p; snd p]) (skipn i ps).
Proof. induction ps as [|p ps IH]; intros [|i]; cbn; try reflexivity. apply IH. Qed.
Lemma pairs_col : forall (ps : list (Q * Q)) j, j < 2 ->
  flat_map (fun i => firstn 1 (skipn (i * 2 + j) (flat_map (fun p => [fst p; snd p]) ps))) (seq 0 (length ps)) = map (if Nat.eqb j 0 then fst else snd) ps.
Proof.
  intros ps j L.
  assert (G : forall ps k (full : list (Q * Q)), skipn k full = ps ->
    flat_map (fun i => firstn 1 (skipn (i * 2 + j) (flat_map (fun p => [fst p; snd p]) full))) (seq k (length ps)) = map (if Nat.eqb j 0 then fst else snd) ps).
  { clear ps. induction ps as [|p ps IH]; intros k full E; cbn [length seq flat_map map]; [reflexivity|].
    rewrite (IH (S k) full).
    - rewrite (Nat.add_comm (k * 2) j).
      assert (X : forall a b (l : list Q), skipn (a + b) l = skipn a (skipn b l)).
      { clear. intros a b. induction b as [|b IH]; intros l; [rewrite Nat.add_0_r; reflexivity|].
        rewrite Nat.add_succ_r. destruct l; [cbn; destruct a; reflexivity|]. cbn [skipn]. apply IH. }
      rewrite X, pairs_skip, E. destruct j as [|[|j]]; [reflexivity|reflexivity|lia].
    - assert (Y : forall k (l : list (Q * Q)) p r, skipn k l = p :: r -> skipn (S k) l = r).
      { clear. induction k as [|k IH]; intros [|x l] p r H; try discriminate H; [cbn in *; congruence|]. cbn [skipn] in *. exact (IH l p r H). }
      exact (Y k full p ps E). }
  exact (G ps 0 ps eq_refl).
Qed.

Lemma col_pairs a ps j : 2 <= length ps -> holds a [1; length ps; 2] ps -> j < 2 ->
  col (squeeze a) j = Ok (mkNd [length ps] (map (if Nat.eqb j 0 then fst else snd) ps)).
Proof.
  intros L [S D] J. unfold squeeze, col. rewrite S, D. cbn [nd_shape nd_data filter Nat.eqb negb].
  destruct (Nat.eqb_spec (length ps) 1) as [E|_]; [lia|]. cbn [negb fold_right].
  destruct (Nat.ltb_spec j 2); [|lia]. f_equal. f_equal.
  rewrite <- (pairs_col ps j J). apply flat_map_ext. intros i. rewrite Nat.mul_1_r. reflexivity.
Qed.

Section Good.
Variable arr : nat -> nd.
Variable pairs : nat -> list (Q * Q).
Variable n_levels : nat.
Hypothesis SZ : forall l, l < n_levels -> 2 <= length (pairs l).
Hypothesis HO : forall l, l < n_levels -> holds (arr l) [1; length (pairs l); 2] (pairs l).

(** The frame before level l >= 1: complete labels below l - 1 and the fine samples of l - 1. *)
Definition before (l : nat) : list row := flat_map (level_rows pairs) (seq 0 (l - 1)) ++ map (fun p => (fst p, true, (l - 1, l))) (pairs (l - 1)).

Lemma loop_good : forall k l, l + k = n_levels -> 1 <= l -> 1 <= k ->
  violin_loop true arr n_levels (seq l k) (Some (before l), Some (l - 1, l)) = Ok (Some (flat_map (level_rows pairs) (seq 0 (n_levels - 1))), Some (n_levels - 2, n_levels - 1)).
Proof.
  induction k as [|k IH]; intros l E L1 K1; [lia|]. cbn [seq violin_loop]. unfold violin_step. cbn [level_samples bind].
  destruct (Nat.eqb_spec l 0); [lia|].
  rewrite (col_pairs (arr l) (pairs l) 1 (SZ l ltac:(lia)) (HO l ltac:(lia)) ltac:(lia)). cbn [bind data_frame nd_shape nd_data Nat.eqb].
  assert (R : before l ++ map (fun v => (v, false, (l - 1, l))) (map snd (pairs l)) = flat_map (level_rows pairs) (seq 0 l)).
  { unfold before. assert (SQ : seq 0 l = seq 0 (l - 1) ++ [l - 1]) by (change [l - 1] with [0 + (l - 1)]; rewrite <- seq_S; f_equal; lia). rewrite SQ, flat_map_app. cbn [flat_map]. rewrite app_nil_r, <- app_assoc. f_equal.
    unfold level_rows. cbn [Nat.add]. replace (l - 1 + 1) with l by lia. rewrite map_map. reflexivity. }
  rewrite R. destruct (Nat.ltb_spec (l + 1) n_levels) as [LT|GE].
  - rewrite (col_pairs (arr l) (pairs l) 0 (SZ l ltac:(lia)) (HO l ltac:(lia)) ltac:(lia)). cbn [bind data_frame nd_shape nd_data Nat.eqb].
    specialize (IH (S l) ltac:(lia) ltac:(lia) ltac:(lia)).
    assert (B : before (S l) = flat_map (level_rows pairs) (seq 0 l) ++ map (fun v => (v, true, (l, l + 1))) (map fst (pairs l))).
    { unfold before. replace (S l - 1) with l by lia. rewrite map_map. replace (l + 1) with (S l) by lia. reflexivity. }
    rewrite <- B. replace (l, l + 1) with (S l - 1, S l) by (f_equal; lia). exact IH.
  - replace k with 0 by lia. cbn [seq violin_loop bind]. replace l with (n_levels - 1) by lia. f_equal. f_equal. f_equal. f_equal. lia.
Qed.
End Good.

(** *** C218 *)
(** The pairing of levels is right for a quantity whose samples take the argument axis, and one component, at least two samples and both
    members of the pairs on every level, the lowest one included. Missing: the quantities and storages of the repository. *)
Theorem C218_violin_partial : forall (arr : nat -> nd) (pairs : nat -> list (Q * Q)) (n_levels : nat),
  1 < n_levels -> (forall l, l < n_levels -> 2 <= length (pairs l)) -> (forall l, l < n_levels -> holds (arr l) [1; length (pairs l); 2] (pairs l)) ->
  exists f, fine_coarse_violinplot true arr n_levels = Ok f /\ good_frame pairs n_levels f.
Proof.
  intros arr pairs n L SZ HO. eexists. split; [|reflexivity]. unfold fine_coarse_violinplot.
  destruct (Nat.ltb_spec 1 n); [|lia].
  assert (SQ : seq 0 n = 0 :: seq 1 (n - 1)) by (destruct n as [|k]; [lia|cbn [seq]; rewrite Nat.sub_succ, Nat.sub_0_r; reflexivity]); rewrite SQ. cbn [violin_loop].
  assert (S0 : violin_step true arr n (None, None) 0 = Ok (Some (before pairs 1), Some (1 - 1, 1))).
  { unfold violin_step. cbn [level_samples bind Nat.eqb].
    rewrite (col_pairs (arr 0) (pairs 0) 0 (SZ 0 ltac:(lia)) (HO 0 ltac:(lia)) ltac:(lia)). cbn [bind data_frame nd_shape nd_data Nat.eqb].
    unfold before. cbn. rewrite map_map. reflexivity. }
  rewrite S0. cbn [bind]. rewrite (loop_good arr pairs n SZ HO (n - 1) 1 ltac:(lia) ltac:(lia) ltac:(lia)). reflexivity.
Qed.
Example C218_violin_partial_ex :
  let ps (l : nat) := match l with 0 => [(1%Q, 0%Q); (2%Q, 0%Q)] | _ => [(3%Q, 4%Q); (5%Q, 6%Q); (7%Q, 8%Q)] end in
  let arr l := mkNd [1; length (ps l); 2] (flat_map (fun p => [fst p; snd p]) (ps l)) in
  fine_coarse_violinplot true arr 2 = Ok [(1%Q, true, (0, 1)); (2%Q, true, (0, 1)); (4%Q, false, (0, 1)); (6%Q, false, (0, 1)); (8%Q, false, (0, 1))].
Proof. reflexivity. Qed.

(** With the classes of the repository the method never draws: TypeError with two or more levels, an unbound variable with one. Even if samples
    took the argument, a scalar quantity fails at level 0 (the storages drop the coarse column there), and a quantity with several components and
    samples fails at level 1. *)
Theorem C218_violin_refuted :
  (exists arr n, 1 < n /\ forall pairs f, fine_coarse_violinplot false arr n = Ok f -> ~ good_frame pairs n f) /\
  (forall arr n, fine_coarse_violinplot false arr n = Err (if Nat.ltb 1 n then TypeError else UnboundLocalError)) /\
  (forall arr n N, 1 < n -> nd_shape (arr 0) = [1; N; 1] -> fine_coarse_violinplot true arr n = Err IndexError) /\
  (forall arr n M N0 N1, 1 < n -> 2 <= M -> 2 <= N0 -> 2 <= N1 -> nd_shape (arr 0) = [M; N0; 1] -> nd_shape (arr 1) = [M; N1; 2] ->
     fine_coarse_violinplot true arr n = Err ValueError).
Proof.
  assert (F : forall arr n, fine_coarse_violinplot false arr n = Err (if Nat.ltb 1 n then TypeError else UnboundLocalError)).
  { intros arr n. unfold fine_coarse_violinplot. destruct (Nat.ltb_spec 1 n); [|reflexivity].
    assert (SQ : seq 0 n = 0 :: seq 1 (n - 1)) by (destruct n as [|k]; [lia|cbn [seq]; rewrite Nat.sub_succ, Nat.sub_0_r; reflexivity]); rewrite SQ. reflexivity. }
  split; [|split; [exact F|split]].
  - exists (fun _ => mkNd [1; 1; 2] [0; 0]%Q), 2. split; [lia|]. intros pairs f H. rewrite F in H. discriminate H.
  - intros arr n N L S. unfold fine_coarse_violinplot. destruct (Nat.ltb_spec 1 n); [|lia].
    assert (SQ : seq 0 n = 0 :: seq 1 (n - 1)) by (destruct n as [|k]; [lia|cbn [seq]; rewrite Nat.sub_succ, Nat.sub_0_r; reflexivity]); rewrite SQ.
    cbn [violin_loop]. unfold violin_step. cbn [level_samples bind Nat.eqb]. unfold col, squeeze. rewrite S. cbn [nd_shape nd_data filter Nat.eqb negb].
    destruct (negb (N =? 1)); reflexivity.
  - intros arr n M N0 N1 L LM L0 L1 S0 S1. unfold fine_coarse_violinplot. destruct (Nat.ltb_spec 1 n); [|lia].
    assert (SQ : seq 0 n = 0 :: 1 :: seq 2 (n - 2)) by (destruct n as [|[|k]]; [lia|lia|cbn [seq]; rewrite !Nat.sub_succ, Nat.sub_0_r; reflexivity]); rewrite SQ.
    cbn [violin_loop]. unfold violin_step. cbn [level_samples bind Nat.eqb]. unfold col, squeeze. rewrite S0, S1. cbn [nd_shape nd_data filter Nat.eqb negb].
    destruct (Nat.eqb_spec M 1); [lia|]. destruct (Nat.eqb_spec N0 1); [lia|]. destruct (Nat.eqb_spec N1 1); [lia|]. cbn [negb].
    destruct (Nat.ltb_spec 0 N0); [|lia]. cbn [bind data_frame nd_shape]. destruct (Nat.ltb_spec 1 N1); [|lia]. reflexivity.
Qed.
Example C218_violin_refuted_ex : fine_coarse_violinplot true (fun l => match l with 0 => mkNd [1; 2; 1] [1; 2]%Q | _ => mkNd [1; 2; 2] [1; 2; 3; 4]%Q end) 3 = Err IndexError.
Proof. reflexivity. Qed.
