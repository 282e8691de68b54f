(** Properties C160, C161, C162: conditions combined with python values, and constants in arithmetic. *)
From Verif Require Import Base BaseFacts QTypeModel QWrapModel.

(** An index of an array. *)
Definition inside (ix s : list nat) : Prop := Forall2 lt ix s.

Lemma inside1 ix n : inside ix [n] -> exists i, ix = [i] /\ i < n.
Proof. intros H. inversion H; subst. inversion H4; subst. eauto. Qed.
Lemma inside3 ix a b c : inside ix [a; b; c] -> exists i j k, ix = [i; j; k] /\ i < a /\ j < b /\ k < c.
Proof. intros H. inversion H as [|i ? ix1 ? Hi H1]; subst. inversion H1 as [|j ? ix2 ? Hj H2]; subst. apply inside1 in H2 as (k & -> & Hk). exists i, j, k. auto. Qed.
Lemma zero_if_one d i : i < d -> (if Nat.eqb d 1 then 0 else i) = i.
Proof. intros H. destruct (Nat.eqb_spec d 1); lia. Qed.

(** ** C160 *)
(** Full statement: np.logical_and and the other numpy functions of a condition and another condition or a python bool give
    a condition: select accepts it, and it has one truth value per sample. False for bools (below); proved for two
    conditions of any types on the same samples. *)
Theorem C160_conditions_partial : forall (K : Type) (f : bool -> bool -> bool) (t1 t2 : qtype K) x y N,
  base_bool t1 = true -> base_bool t2 = true -> shape x = [N] -> shape y = [N] ->
  exists t z, method f (AQuantity t1 x) (AQuantity t2 y) = Ok (t, z) /\ select_accepts t = true /\ shape z = [N]
    /\ forall i, i < N -> at_ix z [i] = f (at_ix x [i]) (at_ix y [i]).
Proof.
  intros K f t1 t2 x y N H1 H2 Sx Sy. unfold method, wrap_arg. cbn [bind fst snd]. unfold nd_bin. rewrite Sx, Sy.
  cbn [rev app bdims bind]. rewrite Nat.eqb_refl. cbn [bind rev app]. unfold result_type. cbn [shape bind].
  eexists; eexists. split; [reflexivity|]. unfold base_of. cbn [existsb]. rewrite H1, H2. cbn. ands; auto.
  intros i Hi. now rewrite zero_if_one.
Qed.
(** A condition and True: the result is no condition for select, and its value has three axes. *)
Theorem C160_bool : forall (K : Type) (f : bool -> bool -> bool) (t : qtype K) x b N, shape x = [N] ->
  exists t' z, method f (AQuantity t x) (AValue (PBool b)) = Ok (t', z) /\ select_accepts t' = false
    /\ (exists a c, shape z = [a; c; N] \/ N = 1).
Proof.
  intros K f t x b N Sx. unfold method, wrap_arg, wrap. cbn [is_number value_of bind fst snd]. unfold nd_bin. rewrite Sx.
  cbn [scalar_value shape rev app bdims bind].
  destruct (Nat.eqb_spec N 1) as [->|Ne]; cbn [bind rev app result_type shape]; eexists; eexists; (split; [reflexivity|]);
    (split; [unfold select_accepts, base_of; cbn; now rewrite Bool.orb_true_r|]); exists 1, 1; [now right|left; reflexivity].
Qed.
(** Witness: two samples that meet a condition. *)
Theorem C160_refuted : exists (t : qtype nat) (x : nd bool) t' z, base_bool t = true /\ shape x = [2]
  /\ method andb (AQuantity t x) (AValue (PBool true)) = Ok (t', z) /\ select_accepts t' = false /\ shape z = [1; 1; 2].
Proof.
  exists QBool, (mkNd [2] (fun _ => true)). unfold method, wrap_arg, wrap. cbn. eexists; eexists. split; [reflexivity|].
  split; [reflexivity|]. split; [reflexivity|]. split; reflexivity.
Qed.

(** ** C161 *)
(** Full statement: q op c for a number c combines every number of q with c; for an array c whose shape is that of the array
    quantity q, component m of every sample is combined with entry m of c (counted row by row). False for numpy integers,
    which raise, and for arrays of two axes (below); proved for python numbers and arrays of one axis. *)
Theorem C161_number_partial : forall (V K : Type) (f : V -> V -> V) (t : qtype K) x p v M N k,
  p = PInt v \/ p = PFloat v \/ p = PBool v -> shape x = [M; N; k] ->
  exists z, create f t x p = Ok (t, z) /\ shape z = [M; N; k]
    /\ forall m i j, m < M -> i < N -> j < k -> at_ix z [m; i; j] = f (at_ix x [m; i; j]) v.
Proof.
  intros V K f t x p v M N k Hp Sx.
  assert (E : create f t x p = bind (nd_bin f x (scalar_value v)) (fun z => Ok (t, z))) by (destruct Hp as [->|[->| ->]]; reflexivity).
  rewrite E. unfold nd_bin. rewrite Sx. cbn [scalar_value shape rev app bdims bind].
  assert (B : forall d r, (if Nat.eqb d 1 then Ok (d :: r) else if Nat.eqb d 1 then Ok (1 :: r) else if Nat.eqb 1 1 then Ok (d :: r) else Err ValueError) = Ok (d :: r)).
  { intros d r. destruct (Nat.eqb d 1); reflexivity. }
  rewrite !B. cbn [bind]. rewrite !B. cbn [bind]. rewrite !B. cbn [bind rev app]. eexists. split; [reflexivity|]. split; [reflexivity|].
  intros m i j Hm Hi Hj. cbn [at_ix rev app bindex]. rewrite !zero_if_one by auto. reflexivity.
Qed.
Theorem C161_array_partial : forall (V K : Type) (f : V -> V -> V) (t : qtype K) x c M N k,
  shape x = [M; N; k] -> shape c = [M] ->
  (exists z, create f t x (PArray c) = Ok (t, z) /\ shape z = [M; N; k]
    /\ forall m i j, m < M -> i < N -> j < k -> at_ix z [m; i; j] = f (at_ix x [m; i; j]) (at_ix c [m]))
  /\ exists (tc : qtype K) y, wrap (PArray c) = Ok (tc, y) /\ size tc = M /\ shape y = [size tc; 1; 1]
       /\ forall m, m < M -> at_ix y [m; 0; 0] = at_ix c [m].
Proof.
  intros V K f t x c M N k Sx Sc. split; cycle 1.
  { unfold wrap. cbn [is_number is_bool]. unfold array_value. rewrite Sc. cbn [bind]. eexists; eexists. split; [reflexivity|].
    cbn. rewrite !Nat.mul_1_r. auto. }
  unfold create, wrap. cbn [is_number is_bool]. unfold array_value. rewrite Sc. cbn [bind snd].
  unfold nd_bin. rewrite Sx. cbn [shape rev app bdims bind].
  assert (B : forall d r, (if Nat.eqb d 1 then Ok (d :: r) else if Nat.eqb d 1 then Ok (1 :: r) else if Nat.eqb 1 1 then Ok (d :: r) else Err ValueError) = Ok (d :: r)).
  { intros d r. destruct (Nat.eqb d 1); reflexivity. }
  rewrite Nat.eqb_refl. cbn [bind]. rewrite !B. cbn [bind]. rewrite !B. cbn [bind rev app]. eexists. split; [reflexivity|]. split; [reflexivity|].
  intros m i j Hm Hi Hj. cbn [at_ix rev app bindex firstn skipn]. rewrite !zero_if_one by auto. reflexivity.
Qed.
(** An array of two axes is spread over the samples: either it does not fit at all, or every one of its rows is combined with
    the whole chunk and its columns with the fine and the coarse value. *)
Theorem C161_two_axes : forall (V K : Type) (f : V -> V -> V) (t : qtype K) x c M N k r s,
  shape x = [M; N; k] -> shape c = [r; s] -> k <> 1 ->
  (s <> k -> s <> 1 -> create f t x (PArray c) = Err ValueError)
  /\ (s = k -> exists z, create f t x (PArray c) = Ok (t, z) /\ shape z = [r; M; N; k]
        /\ forall a m i j, a < r -> m < M -> i < N -> j < k -> at_ix z [a; m; i; j] = f (at_ix x [m; i; j]) (at_ix c [a; j])).
Proof.
  intros V K f t x c M N k r s Sx Sc Hk. unfold create, wrap. cbn [is_number is_bool]. unfold array_value. rewrite Sc. cbn [bind snd].
  unfold nd_bin. rewrite Sx. cbn [shape rev app bdims bind].
  assert (B : forall d r, (if Nat.eqb d 1 then Ok (d :: r) else if Nat.eqb d 1 then Ok (1 :: r) else if Nat.eqb 1 1 then Ok (d :: r) else Err ValueError) = Ok (d :: r)).
  { intros d r'. destruct (Nat.eqb d 1); reflexivity. }
  rewrite !B. cbn [bind]. rewrite !B. cbn [bind]. split.
  - intros H1 H2. destruct (Nat.eqb_spec k s); [congruence|]. destruct (Nat.eqb_spec k 1); [congruence|]. destruct (Nat.eqb_spec s 1); [congruence|reflexivity].
  - intros ->. rewrite Nat.eqb_refl. cbn [bind rev app]. eexists. split; [reflexivity|]. split; [reflexivity|].
    intros a m i j Ha Hm Hi Hj. cbn [at_ix rev app bindex firstn skipn]. rewrite !zero_if_one by auto. reflexivity.
Qed.
(** A quantity of type array (2, 2) plus a 2 x 2 array: four axes, and number 0 of the constant added to component 3. *)
Theorem C161_refuted : exists (x c : nd Z) (t : qtype nat) z, t = QArray [2; 2] QScalar /\ shape x = [size t; 1; 2] /\ shape c = [2; 2]
  /\ create Z.add t x (PArray c) = Ok (t, z) /\ shape z <> shape x
  /\ at_ix z [0; 3; 0; 0] = Z.add (at_ix x [3; 0; 0]) (at_ix c [0; 0]) /\ at_ix c [0; 0] <> at_ix c [1; 1].
Proof.
  exists (mkNd [4; 1; 2] (fun _ => 0%Z)), (mkNd [2; 2] (fun ix => match ix with [a; b] => Z.of_nat (2 * a + b) | _ => 0%Z end)), (QArray [2; 2] QScalar).
  eexists. split; [reflexivity|]. split; [reflexivity|]. split; [reflexivity|]. split; [reflexivity|]. split; [discriminate|]. split; [reflexivity|discriminate].
Qed.
(** q + np.int64(3) raises although q + 3 does not. *)
Theorem C161_numpy_refuted : exists (x : nd Z) (t : qtype nat) v, shape x = [1; 2; 2] /\ size t = 1
  /\ create Z.add t x (PNumpyNumber v) = Err ValueError /\ exists z, create Z.add t x (PInt v) = Ok z.
Proof. exists (mkNd [1; 2; 2] (fun _ => 0%Z)), QScalar, 3%Z. cbn. ands; auto. eexists. reflexivity. Qed.

(** ** C162 *)
(** Full statement: the sum of two constants is a constant that acts in expressions like the sum. False (below): a constant
    made of constants has two more axes, and so have expressions with it. Proved: the numbers of such a constant are right,
    and added to a quantity each number of the quantity is combined with it; the result has the samples on the last axes. *)
Theorem C162_numbers_partial : forall (V K : Type) (f h : V -> V -> V) (t : qtype K) x (p1 p2 : pyval V) v1 v2 M N k,
  value_of p1 = Some v1 -> value_of p2 = Some v2 -> shape x = [M; N; k] ->
  exists c1 c2 c z, wrap p1 = Ok c1 /\ wrap p2 = Ok c2 /\ create_const f c1 c2 = Ok (QScalar (K := K), c)
    /\ nd_bin h x c = Ok z /\ shape z = [1; 1; M; N; k]
    /\ forall m i j, m < M -> i < N -> j < k -> at_ix z [0; 0; m; i; j] = h (at_ix x [m; i; j]) (f v1 v2).
Proof.
  intros V K f h t x p1 p2 v1 v2 M N k H1 H2 Sx. exists (QScalar, scalar_value v1), (QScalar, scalar_value v2).
  assert (E : forall (p : pyval V) v, value_of p = Some v -> wrap p = Ok (QScalar (K := K), scalar_value v)).
  { intros p v Hp. destruct p; try discriminate; cbn in Hp; injection Hp as ->; reflexivity. }
  eexists; eexists. split; [now apply E|]. split; [now apply E|]. split; [reflexivity|].
  unfold nd_bin. rewrite Sx. cbn [shape rev app bdims bind].
  assert (B : forall d r, (if Nat.eqb d 1 then Ok (d :: r) else if Nat.eqb d 1 then Ok (1 :: r) else if Nat.eqb 1 1 then Ok (d :: r) else Err ValueError) = Ok (d :: r)).
  { intros d r. destruct (Nat.eqb d 1); reflexivity. }
  rewrite !B. cbn [bind]. rewrite !B. cbn [bind]. rewrite !B. cbn [bind rev app]. split; [reflexivity|]. split; [reflexivity|].
  intros m i j Hm Hi Hj. cbn [at_ix rev app bindex scalar_value]. rewrite !zero_if_one by auto. reflexivity.
Qed.
(** q + (QuantityConst(5) + QuantityConst(10)) has five axes instead of three. *)
Theorem C162_refuted : exists (x : nd Z) c1 c2 c z, wrap (K := nat) (PInt 5%Z) = Ok c1 /\ wrap (PInt 10%Z) = Ok c2
  /\ create_const Z.add c1 c2 = Ok (QScalar, c) /\ shape x = [1; 3; 2] /\ nd_bin Z.add x c = Ok z
  /\ shape c <> shape (snd c1) /\ length (shape z) <> length (shape x).
Proof.
  exists (mkNd [1; 3; 2] (fun _ => 0%Z)). do 4 eexists. split; [reflexivity|]. split; [reflexivity|]. split; [reflexivity|]. split; [reflexivity|].
  split; [reflexivity|]. split; discriminate.
Qed.

(** Examples: three samples and a condition on two of them; an array of two numbers on two samples. *)
Example C160_example : exists t z, method andb (AQuantity (K := nat) QBool (mkNd [3] (fun ix => Nat.ltb (hd 0 ix) 2)))
    (AQuantity (QArray [5] QBool) (mkNd [3] (fun ix => Nat.ltb 0 (hd 0 ix)))) = Ok (t, z)
  /\ map (fun i => at_ix z [i]) [0; 1; 2] = [false; true; false].
Proof. eexists; eexists. split; reflexivity. Qed.
Example C161_example : exists z, create Z.add (QArray [2] (QScalar (K := nat))) (mkNd [2; 2; 1] (fun ix => Z.of_nat (10 * nth 0 ix 0 + nth 1 ix 0)))
    (PArray (mkNd [2] (fun ix => Z.of_nat (100 * (1 + hd 0 ix))))) = Ok (QArray [2] QScalar, z)
  /\ map (fun m => map (fun i => at_ix z [m; i; 0]) [0; 1]) [0; 1] = [[100; 101]; [210; 211]]%Z.
Proof. eexists. split; reflexivity. Qed.

Print Assumptions C160_conditions_partial.
Print Assumptions C160_bool.
Print Assumptions C160_refuted.
Print Assumptions C161_number_partial.
Print Assumptions C161_array_partial.
Print Assumptions C161_two_axes.
Print Assumptions C161_refuted.
Print Assumptions C161_numpy_refuted.
Print Assumptions C162_numbers_partial.
Print Assumptions C162_refuted.
