(** Values of moment functions: finite values, NaN, prefixes, single moments, derivatives. *)
From Coq Require Import Lra.
From Coquelicot Require Import Coquelicot.
From Verif Require Import Base BaseFacts QTypeModel QuantityModel QuantitySpec NumModel NumFacts EstimateModel EstimateSpec
  EstimateLinear EstimateFacts MomentsModel MomentsSpec LegendreFacts MomentsProofs.
Local Open Scope R_scope.

Lemma firstn_seq a n k : firstn k (seq a n) = seq a (Nat.min k n).
Proof. revert a n. induction k as [|k IH]; intros a [|n]; try reflexivity. cbn. f_equal. apply IH. Qed.

(** * Values at a finite reference point *)
Definition fval (k : kind) (i : nat) (t : R) : R :=
  match k with
  | Monomial => t ^ i
  | Legendre => P i t
  | Fourier => match i with
               | O => 1
               | _ => if Nat.even i then sin (t * INR (i / 2)) else cos (t * INR ((i + 1) / 2))
               end
  end.
Fixpoint mval (m : mfn) (i : nat) (t : R) : R :=
  match m with
  | Basis b => fval (b_kind b) i t
  | Trans o mat => rsum (map (fun p => mval o (fst p) t * snd p) (combine (seq 0 (msize o)) (nth i mat [])))
  end.

Lemma poly_fin t i : poly_col (Fin t) i = Fin (t ^ i).
Proof.
  induction i as [|i IH]; [unfold poly_col; rewrite nmul_fin; cbn; f_equal; ring|].
  destruct i as [|i]; [cbn; f_equal; ring|]. change (poly_col (Fin t) (S (S i))) with (nmul (poly_col (Fin t) (S i)) (Fin t)).
  rewrite IH, nmul_fin. f_equal. cbn [pow]. ring.
Qed.
Lemma leg_fin t i : leg_cols (Fin t) i = (Fin (P i t), Fin (P (S i) t)).
Proof.
  induction i as [|i IH].
  - cbn. f_equal. f_equal. ring.
  - cbn [leg_cols]. rewrite IH. f_equal. rewrite P_rec, !nmul_fin. unfold nsub, nneg, nadd. rewrite ndivn_fin by lia. f_equal.
    rewrite plus_INR. change (INR 2) with (1 + 1). replace (2 * (i + 2) - 1)%nat with (2 * i + 3)%nat by lia. rewrite !plus_INR, mult_INR. cbn [INR].
    pose proof (pos_INR i). field. lra.
Qed.
Lemma col_fin k t i : col k (Fin t) i = Fin (fval k i t).
Proof.
  destruct k; cbn [col fval]; [apply poly_fin| |unfold leg_col; now rewrite leg_fin].
  destruct i; [reflexivity|]. unfold fourier_col. rewrite !nmul_fin. destruct (Nat.even (S i)); reflexivity.
Qed.
(** The first column of a number that is not finite. *)
Lemma col_nan k x : k <> Fourier -> (forall r, x <> Fin r) -> col k x 0 = NaN.
Proof.
  intros Hk Hx. assert (H : nadd (nmul x (Fin 0)) (Fin 1) = NaN).
  { destruct x as [r| | |]; [now destruct (Hx r)| | |reflexivity]; cbn; unfold inf_mul; destruct (Rlt_dec 0 0); try lra; reflexivity. }
  destruct k; [exact H|easy|exact H].
Qed.
Lemma dot_fin f n row : dot (map (fun i => Fin (f i)) (seq 0 n)) row = Fin (rsum (map (fun p => f (fst p) * snd p) (combine (seq 0 n) row))).
Proof.
  unfold dot. rewrite <- nsum_fin. f_equal. rewrite map_map. generalize 0%nat. revert row. induction n as [|n IH]; intros row a; [reflexivity|].
  destruct row as [|y row]; [reflexivity|]. cbn [seq map combine fst snd]. f_equal. apply IH.
Qed.
Lemma nadd_nan_l x : nadd NaN x = NaN. Proof. destruct x; reflexivity. Qed.
Lemma nadd_nan_r x : nadd x NaN = NaN. Proof. destruct x; reflexivity. Qed.
Lemma dot_nan l row : length row = length l -> In NaN l -> dot l row = NaN.
Proof.
  unfold dot. revert row. induction l as [|x l IH]; intros [|y row] E H; try easy. cbn [combine map fst snd]. rewrite nsum_cons.
  destruct H as [->|H]; [apply nadd_nan_l|]. rewrite IH; auto. apply nadd_nan_r.
Qed.

(** * Objects the constructors return *)
Lemma mk_trans_ok o mat m : mk_trans o mat = Ok m -> m = Trans o mat /\ forall row, In row mat -> length row = msize o.
Proof.
  unfold mk_trans. destruct (forallb _ mat) eqn:E; [|discriminate]. intros H. injection H as <-. split; auto.
  intros row Hr. rewrite forallb_forall in E. now apply Nat.eqb_eq, E.
Qed.
Lemma made_size m : made m -> (msize m <> 0)%nat.
Proof.
  induction 1 as [k s d r log safe b H|o mat m H IH Hm E]; [apply init_ok in H as (? & _ & E & _); cbn [msize]; now rewrite E|].
  apply mk_trans_ok in E as [-> _]. cbn. destruct mat; [easy|discriminate].
Qed.
Lemma made_eval_fin m v t : made m -> transform (bottom_of m) v = Fin t -> forall n, n <> O ->
  exists l, eval_all_ m v n = Ok l /\ l = map (fun i => Fin (mval m i t)) (seq 0 (match m with Basis _ => n | Trans _ _ => Nat.min n (msize m) end)).
Proof.
  intros Hm Ht. induction Hm as [k s d r log safe b H|o mat m Ho IH Hm E]; intros n Hn.
  - cbn in Ht. cbn [eval_all_]. destruct n; [easy|]. eexists. split; [reflexivity|]. apply map_ext. intros i. rewrite Ht. apply col_fin.
  - apply mk_trans_ok in E as [-> Hr]. cbn [bottom_of] in Ht. destruct (IH Ht (msize o)) as (l & El & Vl); [now apply made_size|].
    cbn [eval_all_]. rewrite El. cbn [bind]. eexists. split; [reflexivity|].
    assert (Vl' : l = map (fun i => Fin (mval o i t)) (seq 0 (msize o))).
    { rewrite Vl. destruct o; auto. now rewrite Nat.min_id. }
    rewrite Vl'. transitivity (firstn n (map (fun i => Fin (mval (Trans o mat) i t)) (seq 0 (length mat)))).
    + f_equal. apply nth_ext with (d := NaN) (d' := NaN); [now rewrite !map_length, seq_length|].
      intros i Hi. rewrite map_length in Hi. rewrite (nth_map0 _ mat [] NaN) by auto. rewrite seq_cell by auto. apply dot_fin.
    + rewrite firstn_map. f_equal. cbn [msize]. rewrite firstn_seq. f_equal. 
Qed.
Lemma evals_fin m v t : made m -> transform (bottom_of m) v = Fin t -> eval_all m v None = Ok (map (fun i => Fin (mval m i t)) (seq 0 (msize m))).
Proof.
  intros Hm Ht. unfold eval_all. destruct (made_eval_fin m v t Hm Ht (msize m)) as (l & E & V); [now apply made_size|].
  rewrite E, V. destruct m; [reflexivity|]. now rewrite Nat.min_id.
Qed.
Lemma eval_length m v n : made m -> n <> O ->
  exists l, eval_all_ m v n = Ok l /\ length l = match m with Basis _ => n | Trans _ _ => Nat.min n (msize m) end.
Proof.
  intros Hm. revert n. induction Hm as [k s d r log safe b H|o mat m Ho IH Hm E]; intros n Hn.
  - cbn [eval_all_]. destruct n; [easy|]. eexists. split; [reflexivity|]. now rewrite map_length, seq_length.
  - apply mk_trans_ok in E as [-> Hr]. destruct (IH (msize o)) as (l & El & Vl); [now apply made_size|].
    cbn [eval_all_]. rewrite El. cbn [bind]. eexists. split; [reflexivity|]. rewrite firstn_length, map_length. reflexivity.
Qed.
Lemma evals_length m v : made m -> eval_all m v None = Ok (evals m v) /\ length (evals m v) = msize m.
Proof.
  intros Hm. unfold evals, eval_all. destruct (eval_length m v (msize m) Hm (made_size m Hm)) as (l & E & V). rewrite E. split; auto.
  rewrite V. destruct m; auto. apply Nat.min_id.
Qed.
Lemma evals_nan m v : made m -> kind_of m <> Fourier -> (forall r, transform (bottom_of m) v <> Fin r) -> In NaN (evals m v).
Proof.
  intros Hm Hk Ht. assert (H : exists l, eval_all m v None = Ok l /\ In NaN l); [|destruct H as (l & E & H); unfold evals; now rewrite E].
  unfold eval_all. induction Hm as [k s d r log safe b H|o mat m Ho IH Hm E].
  - cbn in Ht, Hk. cbn [eval_all_ msize]. apply init_ok in H as (Hs & Ek & Es & _). rewrite Es. destruct s; [easy|].
    eexists. split; [reflexivity|]. cbn [seq map]. left. now apply col_nan.
  - apply mk_trans_ok in E as [-> Hr]. destruct IH as (l & El & Hl); auto. cbn [eval_all_]. rewrite El. cbn [bind msize].
    eexists. split; [reflexivity|]. rewrite firstn_all2 by (rewrite map_length; lia).
    destruct mat as [|row mat]; [easy|]. cbn [map]. left. apply dot_nan; auto.
    destruct (eval_length o v (msize o) Ho (made_size o Ho)) as (l' & E' & V'). rewrite El in E'. injection E' as <-.
    rewrite (Hr row (or_introl eq_refl)), V'. destruct o; auto. now rewrite Nat.min_id.
Qed.
Lemma combine_zeros {A} (f : A -> R) l : rsum (map (fun p => f (fst p) * snd p) (combine l (repeat 0 (length l)))) = 0.
Proof. induction l as [|x l IH]; [reflexivity|]. cbn [length repeat combine map fst snd]. rewrite rsum_cons, IH. ring. Qed.
Lemma unit_value m t : made m -> kind_of m <> Fourier -> unit_first m -> mval m 0 t = 1.
Proof.
  intros Hm. induction Hm as [k s d r log safe b H|o mat m Ho IH Hm E]; intros Hk Hu.
  - cbn in Hk. cbn. destruct (b_kind b); [reflexivity|easy|apply P0].
  - apply mk_trans_ok in E as [-> Hr]. destruct Hu as [Hu H1]. cbn [mval]. rewrite H1.
    pose proof (made_size o Ho). destruct (msize o) as [|n]; [easy|]. cbn [seq combine map fst snd]. rewrite rsum_cons, IH by auto.
    replace (S n - 1)%nat with n by lia. pose proof (combine_zeros (fun i => mval o i t) (seq 1 n)) as Z. rewrite seq_length in Z. rewrite Z. ring.
Qed.

(** * Prefixes *)
Lemma prefix m v n k : made m -> k <> O -> (k <= n)%nat ->
  exists l, eval_all m v (Some n) = Ok l /\ eval_all m v (Some k) = Ok (firstn k l).
Proof.
  intros Hm Hk Hn. unfold eval_all. destruct m as [b|o mat].
  - cbn [eval_all_]. destruct k as [|k]; [easy|]. destruct n as [|n]; [lia|]. eexists. split; [reflexivity|].
    rewrite firstn_map, firstn_seq. do 3 f_equal. lia.
  - destruct (eval_length (Trans o mat) v n Hm ltac:(lia)) as (l & E & _). exists l. split; auto. cbn [eval_all_] in *.
    destruct (eval_all_ o v (msize o)); [|discriminate]. cbn [bind] in *. injection E as <-. rewrite firstn_firstn. do 2 f_equal. lia.
Qed.
Lemma change_size_never m n m' : made m -> change_size m n <> Ok m'.
Proof.
  intros Hm. destruct m as [b|o mat]; [|discriminate]. cbn [change_size]. unfold init. 
  destruct (Nat.eqb n 0); [discriminate|].
  repeat match goal with |- context [if ?c then Err _ else _] => destruct c; [discriminate|] end. discriminate.
Qed.
Lemma change_size_type b n : n <> O -> b_safe b = false -> fst (b_domain b) < snd (b_domain b) -> change_size (Basis b) n = Err TypeError.
Proof.
  intros Hn Hs Hd. cbn [change_size]. unfold init. rewrite Hs. destruct (Nat.eqb_spec n 0); [easy|]. cbn [andb fst snd].
  destruct (Rlt_dec 0 _); [reflexivity|lra].
Qed.

(** * Single moments *)
Lemma nth_error_prefix {A} (l : list A) i n : (i < n)%nat -> nth_error (firstn n l) i = nth_error l i.
Proof. revert i n. induction l as [|x l IH]; intros [|i] [|n] H; auto; try lia. cbn. apply IH. lia. Qed.
Lemma single m i v : made m -> (i < msize m)%nat -> exists x, eval_single_moment m i v = Ok x /\ nth_error (evals m v) i = Some x.
Proof.
  intros Hm Hi. destruct (prefix m v (msize m) (S i) Hm ltac:(lia) ltac:(lia)) as (l & E1 & E2).
  destruct (evals_length m v Hm) as [E L]. unfold eval_all in E, E1, E2. rewrite E in E1. injection E1 as <-.
  unfold eval_single_moment. rewrite E2. cbn [bind]. rewrite nth_error_prefix by lia.
  destruct (nth_error (evals m v) i) as [x|] eqn:Ex; [eauto|]. apply nth_error_None in Ex. lia.
Qed.
Lemma last_firstn {A} (l : list A) i x : nth_error l i = Some x -> exists r, rev (firstn (S i) l) = x :: r.
Proof.
  intros H. exists (rev (firstn i l)). assert (E : firstn (S i) l = firstn i l ++ [x]).
  { revert i H. induction l as [|y l IH]; intros [|i] H; try discriminate; cbn in *; [now injection H as ->|]. f_equal. now apply IH. }
  rewrite E, rev_app_distr. reflexivity.
Qed.
Definition by_all (m : mfn) : Prop := match m with Basis b => b_kind b = Legendre | Trans _ _ => True end.
Lemma eval_last m i v : made m -> (i < msize m)%nat -> by_all m -> exists x, eval m i v = Ok x /\ nth_error (evals m v) i = Some x.
Proof.
  intros Hm Hi Hb. destruct (single m i v Hm Hi) as (x & _ & Ex). exists x. split; auto.
  destruct (prefix m v (msize m) (S i) Hm ltac:(lia) ltac:(lia)) as (l & E1 & E2).
  destruct (evals_length m v Hm) as [E _]. unfold eval_all in E, E1, E2. rewrite E in E1. injection E1 as <-.
  destruct (last_firstn _ _ _ Ex) as (r & Er).
  destruct m as [b|o mat]; cbn [eval]; [rewrite Hb|]; rewrite E2; cbn [bind]; now rewrite Er.
Qed.
Lemma monomial_value b i v : made (Basis b) -> b_kind b = Monomial -> (i < b_size b)%nat -> (i <> O \/ exists t, transform b v = Fin t) ->
  exists x, eval (Basis b) i v = Ok x /\ nth_error (evals (Basis b) v) i = Some x.
Proof.
  intros Hm Hk Hi Hc. unfold evals, eval_all. cbn [eval eval_all_ msize]. rewrite Hk. eexists. split; [reflexivity|].
  destruct (b_size b) as [|n]; [lia|]. rewrite (nth_error_nth' _ NaN) by (now rewrite map_length, seq_length). rewrite seq_cell by auto. f_equal. cbn [col].
  destruct (transform b v) as [t| | |] eqn:Et.
  - apply poly_fin.
  - destruct i as [|i]; [destruct Hc as [?|[t ?]]; [easy|discriminate]|]. clear. induction i as [|i IH]; [reflexivity|].
    change (poly_col PInf (S (S i))) with (nmul (poly_col PInf (S i)) PInf). now rewrite IH.
  - destruct i as [|i]; [destruct Hc as [?|[t ?]]; [easy|discriminate]|]. clear. induction i as [|i IH]; [reflexivity|].
    change (poly_col NInf (S (S i))) with (nmul (poly_col NInf (S i)) NInf). rewrite IH. unfold npow.
    rewrite (Nat.even_succ (S i)), <- Nat.negb_even. destruct (Nat.even (S i)); reflexivity.
  - destruct i as [|i]; [destruct Hc as [?|[t ?]]; [easy|discriminate]|]. clear. induction i as [|i IH]; [reflexivity|].
    change (poly_col NaN (S (S i))) with (nmul (poly_col NaN (S i)) NaN). now rewrite IH.
Qed.

(** * Derivatives *)
Definition entry (n k : nat) : R := if ((n + 1 <=? k) && Nat.even (k - (n + 1)))%nat%bool then INR (2 * n + 1) else 0.
Lemma entry_above n k : (k <= n)%nat -> entry n k = 0.
Proof. intros H. unfold entry. destruct (Nat.leb_spec (n + 1) k); [lia|reflexivity]. Qed.
Lemma diff_entry size n k : (n < size)%nat -> (k < size)%nat -> nth k (nth n (diff_mat size) []) 0 = entry n k.
Proof.
  intros Hn Hk. unfold diff_mat. rewrite (seq_cell (fun n => map _ (seq 0 size))) by auto. rewrite seq_cell by auto.
  unfold entry. destruct (Nat.leb_spec (n + 1) k); [|now rewrite Bool.andb_false_r]. destruct (Nat.ltb_spec n (size - 1)); [reflexivity|lia].
Qed.
Lemma column_diff size k : (k < size)%nat -> column k (diff_mat size) = map (fun n => entry n k) (seq 0 size).
Proof.
  intros Hk. unfold column. apply nth_ext with (d := 0) (d' := 0); [now rewrite !map_length, !seq_length; unfold diff_mat; rewrite map_length, seq_length|].
  intros n Hn. rewrite map_length in Hn. assert (Hn' : (n < size)%nat) by (unfold diff_mat in Hn; now rewrite map_length, seq_length in Hn).
  rewrite (nth_map0 _ _ [] 0) by auto. rewrite seq_cell by auto. now apply diff_entry.
Qed.
Lemma combine_seq_map {A} (f : nat -> A) n a : combine (seq a n) (map f (seq a n)) = map (fun i => (i, f i)) (seq a n).
Proof. revert a. induction n as [|n IH]; intros a; [reflexivity|]. cbn. f_equal. apply IH. Qed.
Lemma sum_below (f : nat -> R) k n : (k <= n)%nat -> (forall i, (k <= i)%nat -> f i = 0) -> rsum (map f (seq 0 n)) = rsum (map f (seq 0 k)).
Proof.
  intros Hk Hf. replace n with (k + (n - k))%nat by lia. rewrite seq_app, map_app, rsum_app.
  replace (rsum (map f (seq (0 + k) (n - k)))) with 0; [ring|]. symmetry. transitivity (rsum (map (fun _ : nat => 0) (seq (0 + k) (n - k)))).
  - apply rsum_ext. intros i Hi. apply in_seq in Hi. apply Hf. lia.
  - rewrite rsum_const. ring.
Qed.
Lemma seq_two k : seq 0 (S (S k)) = seq 0 k ++ [k; S k].
Proof. rewrite !seq_S, <- app_assoc. reflexivity. Qed.
Lemma expand (f g : nat -> R) : g O = 0 -> g 1%nat = f O -> (forall n, g (S (S n)) = g n + (2 * INR n + 3) * f (S n)) ->
  forall k, rsum (map (fun n => f n * entry n k) (seq 0 k)) = g k.
Proof.
  intros H0 H1 Hs. apply two_steps.
  - rewrite H0. reflexivity.
  - rewrite H1. cbn [seq map]. rewrite rsum_cons. change (rsum []) with 0. change (entry 0 1) with (INR 1). cbn [INR]. ring.
  - intros k IH _. rewrite seq_two, map_app, rsum_app. cbn [map]. rewrite !rsum_cons. change (rsum []) with 0.
    replace (rsum (map (fun n => f n * entry n (S (S k))) (seq 0 k))) with (g k).
    + rewrite Hs. unfold entry. destruct (Nat.leb_spec (k + 1) (S (S k))); [|lia]. destruct (Nat.leb_spec (S k + 1) (S (S k))); [|lia].
      replace (S (S k) - (k + 1))%nat with 1%nat by lia. replace (S (S k) - (S k + 1))%nat with 0%nat by lia. cbn [Nat.even andb].
      rewrite plus_INR, mult_INR, (S_INR k). cbn [INR]. ring.
    + rewrite <- IH. apply rsum_ext. intros n Hn. apply in_seq in Hn. f_equal. unfold entry.
      destruct (Nat.leb_spec (n + 1) (S (S k))); [|lia]. destruct (Nat.leb_spec (n + 1) k); [|lia].
      replace (S (S k) - (n + 1))%nat with (S (S (k - (n + 1))))%nat by lia. reflexivity.
Qed.
Lemma rsum_swap {A B} (f : A -> B -> R) x y : rsum (map (fun a => rsum (map (f a) y)) x) = rsum (map (fun b => rsum (map (fun a => f a b) x)) y).
Proof.
  induction x as [|a x IH]; cbn [map].
  - change (rsum []) with 0. induction y as [|b y IHy]; [reflexivity|]. cbn [map]. rewrite rsum_cons, <- IHy. change (rsum []) with 0. ring.
  - rewrite rsum_cons, IH, <- rsum_map_add. apply rsum_ext. intros b _. now rewrite rsum_cons.
Qed.
Lemma fold_rsum l : fold_right Rplus 0 l = rsum l. Proof. reflexivity. Qed.
Lemma column_diff2 size k : (k < size)%nat ->
  column k (diff2_mat size) = map (fun n => rsum (map (fun j => entry n j * entry j k) (seq 0 size))) (seq 0 size).
Proof.
  intros Hk. unfold column, diff2_mat, matmul. rewrite map_map. unfold diff_mat at 2. rewrite map_map.
  apply map_ext_in. intros n Hn. apply in_seq in Hn. rewrite seq_cell by auto. rewrite column_diff by auto. rewrite fold_rsum.
  replace (map (fun k0 : nat => if ((n <? size - 1) && (n + 1 <=? k0) && Nat.even (k0 - (n + 1)))%nat%bool then INR (2 * n + 1) else 0) (seq 0 size))
    with (map (fun j => entry n j) (seq 0 size)).
  - generalize (seq 0 size). induction l as [|j l IH]; [reflexivity|]. cbn [map combine fst snd]. rewrite !rsum_cons. now rewrite IH.
  - apply map_ext_in. intros j Hj. apply in_seq in Hj. unfold entry. destruct (Nat.leb_spec (n + 1) j); [|now rewrite Bool.andb_false_r].
    destruct (Nat.ltb_spec n (size - 1)); [reflexivity|lia].
Qed.
Lemma diff_value size k t : (k < size)%nat ->
  dot (map (fun i => Fin (P i t)) (seq 0 size)) (column k (diff_mat size)) = Fin (D k t).
Proof.
  intros Hk. rewrite dot_fin, column_diff, combine_seq_map, map_map by auto. cbn [fst snd]. f_equal.
  rewrite (sum_below _ k) by (lia || (intros i Hi; rewrite entry_above by auto; ring)).
  apply (expand (fun n => P n t) (fun n => D n t)); [reflexivity|reflexivity|]. intros n. apply D_step.
Qed.
Lemma diff2_value size k t : (k < size)%nat ->
  dot (map (fun i => Fin (P i t)) (seq 0 size)) (column k (diff2_mat size)) = Fin (DD k t).
Proof.
  intros Hk. rewrite dot_fin, column_diff2, combine_seq_map, map_map by auto. cbn [fst snd]. f_equal.
  transitivity (rsum (map (fun j => D j t * entry j k) (seq 0 size))).
  - transitivity (rsum (map (fun n => rsum (map (fun j => P n t * (entry n j * entry j k)) (seq 0 size))) (seq 0 size))).
    + apply rsum_ext. intros n _. now rewrite <- rsum_map_mul.
    + rewrite rsum_swap. apply rsum_ext. intros j Hj. apply in_seq in Hj.
      transitivity (rsum (map (fun n => entry j k * (P n t * entry n j)) (seq 0 size))); [apply rsum_ext; intros; ring|].
      rewrite rsum_map_mul, Rmult_comm. f_equal.
      rewrite (sum_below _ j) by (lia || (intros i Hi; rewrite entry_above by auto; ring)).
      apply (expand (fun n => P n t) (fun n => D n t)); [reflexivity|reflexivity|]. intros n. apply D_step.
  - rewrite (sum_below _ k) by (lia || (intros i Hi; rewrite entry_above by auto; ring)).
    apply (expand (fun n => D n t) (fun n => DD n t)); [reflexivity|reflexivity|]. intros n. apply DD_step.
Qed.
(** Derivatives of the functions of an object with respect to the reference variable. *)
Fixpoint dval (f : nat -> R -> R) (m : mfn) (i : nat) (t : R) : R :=
  match m with
  | Basis b => f i t
  | Trans o mat => rsum (map (fun p => dval f o (fst p) t * snd p) (combine (seq 0 (msize o)) (nth i mat [])))
  end.
Lemma eval_der_value f mat m v t : (forall size k, (k < size)%nat -> dot (map (fun i => Fin (P i t)) (seq 0 size)) (column k (mat size)) = Fin (f k t)) ->
  made m -> kind_of m = Legendre -> transform (bottom_of m) v = Fin t ->
  eval_der mat m v (msize m) = Ok (map (fun i => Fin (dval f m i t)) (seq 0 (msize m))).
Proof.
  intros Hf Hm. induction Hm as [k s d r log safe b H|o tr m Ho IH Hm E]; intros Hk Ht.
  - cbn in Hk, Ht. assert (Hs : b_size b <> O) by (apply init_ok in H as (? & _ & -> & _); auto). cbn [eval_der msize eval_all_]. rewrite Hk.
    destruct (b_size b) as [|n] eqn:Es; [easy|]. cbn [bind]. rewrite Nat.eqb_refl. f_equal. apply map_ext_in. intros j Hj. apply in_seq in Hj.
    cbn [dval]. rewrite <- (Hf (S n) j) by lia. f_equal. apply map_ext. intros i. rewrite Ht. apply (col_fin Legendre).
  - apply mk_trans_ok in E as [-> Hr]. cbn [eval_der msize]. cbn [kind_of bottom_of] in *. rewrite IH by auto. cbn [bind]. f_equal.
    rewrite firstn_all2 by (rewrite map_length; lia).
    apply nth_ext with (d := NaN) (d' := NaN); [now rewrite !map_length, seq_length|].
    intros i Hi. rewrite map_length in Hi. rewrite (nth_map0 _ tr [] NaN) by auto. rewrite seq_cell by auto. apply dot_fin.
Qed.
Lemma sum_derive {A} (f g : A -> R -> R) (c : A -> R) l t : (forall a, In a l -> is_derive (f a) t (g a t)) ->
  is_derive (fun x => rsum (map (fun a => f a x * c a) l)) t (rsum (map (fun a => g a t * c a) l)).
Proof.
  induction l as [|a l IH]; intros H.
  - apply (is_derive_ext (fun _ => 0)); [reflexivity|]. apply (is_derive_const (V := R_NormedModule) 0 t).
  - cbn [map]. rewrite rsum_cons.
    apply (is_derive_ext (fun x => plus (f a x * c a) (rsum (map (fun a => f a x * c a) l)))); [intros x; cbn [map]; now rewrite rsum_cons|].
    apply (is_derive_plus (V := R_NormedModule)); [|apply IH; intros; apply H; now right].
    assert (Ha := H a (or_introl eq_refl)). apply (is_derive_ext (fun x => scal (c a) (f a x))); [intros x; unfold scal; cbn; unfold mult; cbn; ring|].
    replace (g a t * c a) with (scal (c a) (g a t)) by (unfold scal; cbn; unfold mult; cbn; ring). now apply (is_derive_scal (f a)).
Qed.
Lemma mval_dval m i t : made m -> kind_of m = Legendre -> (i < msize m)%nat ->
  is_derive (mval m i) t (dval D m i t) /\ is_derive (dval D m i) t (dval DD m i t).
Proof.
  intros Hm. revert i. induction Hm as [k s d r log safe b H|o tr m Ho IH Hm E]; intros i Hk Hi.
  - cbn in Hk. split.
    + apply (is_derive_ext (P i)); [intros; cbn; now rewrite Hk|]. apply P_der.
    + apply (is_derive_ext (D i)); [reflexivity|]. apply D_der.
  - apply mk_trans_ok in E as [-> Hr]. cbn [kind_of] in Hk. split.
    + apply (sum_derive (fun p => mval o (fst p)) (fun p => dval D o (fst p)) snd). intros [j c] Hp. cbn [fst]. apply in_combine_l in Hp. apply in_seq in Hp.
      apply IH; auto. lia.
    + apply (sum_derive (fun p => dval D o (fst p)) (fun p => dval DD o (fst p)) snd). intros [j c] Hp. cbn [fst]. apply in_combine_l in Hp. apply in_seq in Hp.
      apply IH; auto. lia.
Qed.
