(** The loop of estimate_mean computes the reference values. *)
From Coq Require Import Lra.
From Verif Require Import Base BaseFacts QTypeModel QuantityModel QuantitySpec NumModel NumFacts EstimateModel EstimateSpec.

(** ** Masking a chunk by samples *)
Lemma keep_filter {A B} (f : A -> bool) (g : A -> B) l : keep (map f l) (map g l) = map g (filter f l).
Proof. unfold keep. induction l as [|x l IH]; cbn; auto. destruct (f x); cbn; now rewrite IH. Qed.
Lemma row_seq {A} (row : list A) d n : length row = n -> row = map (fun i => nth i row d) (seq 0 n).
Proof.
  intros <-. apply nth_ext with (d := d) (d' := nth (length row) row d).
  - now rewrite map_length, seq_length.
  - intros i Hi. rewrite (map_nth (fun j => nth j row d)). now rewrite seq_nth.
Qed.
Lemma usable_spec (x : arr num) i : negb (existsb (fun row => existsb is_nan (nth i row [])) x) = usable (map (fun row => nth i row []) x).
Proof.
  unfold usable. induction x as [|r x IH]; cbn; auto. rewrite negb_orb, IH. f_equal.
  induction (nth i r []) as [|w v IHv]; cbn; auto. now rewrite negb_orb, IHv.
Qed.
Lemma width_shaped M N k (x : arr num) : shaped M N k x -> M <> 0 -> width x = N.
Proof. intros [E H] HM. destruct x as [|r x]; [cbn in E; lia|]. exact (proj1 (H r (or_introl eq_refl))). Qed.
Lemma samples_of_shaped M N k (x : arr num) : shaped M N k x -> M <> 0 -> samples_of x = map (fun i => map (fun row => nth i row []) x) (seq 0 N).
Proof. intros Hx HM. pose proof (width_shaped _ _ _ _ Hx HM). destruct x; cbn in *; [destruct Hx; cbn in *; lia|]. now subst. Qed.

(** Positions of the usable samples. *)
Definition good_ids (x : arr num) (N : nat) : list nat := filter (fun i => usable (map (fun row => nth i row []) x)) (seq 0 N).
Lemma used_one M N k (x : arr num) : shaped M N k x -> M <> 0 -> filter usable (samples_of x) = map (fun i => map (fun row => nth i row []) x) (good_ids x N).
Proof.
  intros Hx HM. rewrite (samples_of_shaped _ _ _ _ Hx HM). unfold good_ids.
  induction (seq 0 N) as [|i l IH]; cbn [map filter]; auto.
  destruct (usable (map (fun row => nth i row []) x)); cbn [map]; now rewrite IH.
Qed.
Lemma mask_chunk M N k (x : arr num) : shaped M N k x -> M <> 0 ->
  mask_nan_samples x = (map (fun row => map (fun i => nth i row []) (good_ids x N)) x,
                        length (filter (fun s => negb (usable s)) (samples_of x))).
Proof.
  intros Hx HM. unfold mask_nan_samples, nan_mask. rewrite (width_shaped _ _ _ _ Hx HM). f_equal.
  - apply map_ext_in. intros row Hr. rewrite map_map.
    rewrite (row_seq row [] N) at 1 by (apply (proj2 Hx row Hr)). rewrite keep_filter. unfold good_ids. f_equal.
    apply filter_ext. intros i. apply usable_spec.
  - rewrite (samples_of_shaped _ _ _ _ Hx HM). induction (seq 0 N) as [|i l IH]; cbn [map filter]; auto.
    rewrite <- usable_spec, negb_involutive. destruct (existsb _ x); cbn [length]; now rewrite IH.
Qed.
Lemma filter_count {A} (f : A -> bool) l : length (filter f l) + length (filter (fun x => negb (f x)) l) = length l.
Proof. induction l as [|x l IH]; cbn; auto. destruct (f x); cbn; lia. Qed.

(** ** The loop *)
Lemma upd_seq {A} (f : nat -> A) (g : A -> A) l L : l < L ->
  upd (map f (seq 0 L)) l g = map (fun j => if j =? l then g (f j) else f j) (seq 0 L).
Proof.
  assert (H : forall L s l, l < L -> upd (map f (seq s L)) l g = map (fun j => if j =? s + l then g (f j) else f j) (seq s L)).
  { clear L l. induction L as [|L IH]; intros s l Hl; [lia|]. cbn [seq map]. destruct l as [|l]; cbn [upd].
    - rewrite Nat.add_0_r, Nat.eqb_refl. f_equal. apply map_ext_in. intros j Hj. apply in_seq in Hj.
      destruct (Nat.eqb_spec j s); [lia|auto].
    - destruct (Nat.eqb_spec s (s + S l)); [lia|]. f_equal. rewrite IH by lia. apply map_ext. intros j.
      now replace (S s + l) with (s + S l) by lia. }
  intros Hl. now apply (H L 0 l).
Qed.
Lemma vadd_seq (f g : nat -> num) M : vadd (map f (seq 0 M)) (map g (seq 0 M)) = map (fun m => nadd (f m) (g m)) (seq 0 M).
Proof. unfold vadd. induction (seq 0 M) as [|m l IH]; cbn; auto. now rewrite IH. Qed.

Definition table (M L : nat) (f : nat -> nat -> num) : list (list num) := map (fun l => map (f l) (seq 0 M)) (seq 0 L).
Lemma table_ext M L f g : (forall l m, l < L -> m < M -> f l m = g l m) -> table M L f = table M L g.
Proof.
  intros H. apply map_ext_in. intros l Hl. apply map_ext_in. intros m Hm. apply in_seq in Hl. apply in_seq in Hm. apply H; lia.
Qed.
Definition none_used (L : nat) (cs : list (nat * arr num)) : bool := forallb (fun l => length (used cs l) =? 0) (seq 0 L).
Definition sums_of (M L : nat) (cs : list (nat * arr num)) : option (list (list num) * list (list num)) :=
  if none_used L cs then None
  else Some (table M L (fun l m => nsum (differences cs l m)), table M L (fun l m => nsum (map nsq (differences cs l m)))).
Definition state_of (M L : nat) (cs : list (nat * arr num)) : est :=
  mkEst (sums_of M L cs) (map (fun l => length (used cs l)) (seq 0 L))
        (map (fun l => length (filter (fun s => negb (usable s)) (level_samples cs l))) (seq 0 L)).

Lemma level_samples_app cs x l : level_samples (cs ++ x) l = level_samples cs l ++ level_samples x l.
Proof. unfold level_samples. now rewrite flat_map_app. Qed.
Lemma used_app cs x l : used (cs ++ x) l = used cs l ++ used x l.
Proof. unfold used. now rewrite level_samples_app, filter_app. Qed.
Lemma level_one l0 x l : level_samples [(l0, x)] l = if l0 =? l then samples_of x else [].
Proof. unfold level_samples. cbn. now rewrite app_nil_r. Qed.

Lemma all_zero_table M L (cs : list (nat * arr num)) g : none_used L cs = true -> (forall l m, used cs l = [] -> g l m = Fin 0) ->
  repeat (repeat (Fin 0) M) L = table M L g.
Proof.
  intros Hn Hg. unfold none_used in Hn. rewrite forallb_forall in Hn.
  assert (E : forall n (v : list num), repeat v n = map (fun _ => v) (seq 0 n)).
  { intros n v. generalize 0. induction n; intros; cbn; auto. now rewrite <- IHn. }
  rewrite E. apply map_ext_in. intros l Hl. specialize (Hn l Hl). apply Nat.eqb_eq in Hn. apply length_zero_iff_nil in Hn.
  assert (E' : forall n (v : num), repeat v n = map (fun _ => v) (seq 0 n)).
  { intros n v. generalize 0. induction n; intros; cbn; auto. now rewrite <- IHn. }
  rewrite E'. apply map_ext. intros m. now rewrite Hg.
Qed.

Lemma parts_kept M N (x : arr num) l ids : M <> 0 -> shaped M N (parts l) x -> ids <> [] -> (forall i, In i ids -> i < N) ->
  has_parts l (map (fun row => map (fun i => nth i row []) ids) x) = true.
Proof.
  intros HM [E H] Hi Hb. destruct x as [|r x]; [cbn in E; lia|]. destruct ids as [|i ids]; [easy|].
  destruct (H r (or_introl eq_refl)) as [Er Hs]. unfold has_parts. cbn.
  assert (length (nth i r []) = parts l). { apply Hs. apply nth_In. rewrite Er. apply Hb. now left. }
  rewrite H0. unfold parts. destruct l; reflexivity.
Qed.
Lemma diff_rows M (x : arr num) l ids : length x = M ->
  map (map (sample_diff l)) (map (fun row => map (fun i => nth i row []) ids) x)
  = map (fun m => map (difference l m) (map (fun i => map (fun row => nth i row []) x) ids)) (seq 0 M).
Proof.
  intros E. rewrite map_map. rewrite (row_seq x [] M E) at 1. rewrite map_map. apply map_ext_in. intros m Hm. apply in_seq in Hm.
  rewrite !map_map. apply map_ext. intros i. unfold difference, sample_diff.
  replace (nth m (map (fun row => nth i row []) x) []) with (nth i (nth m x []) []).
  2:{ rewrite <- (map_nth (fun row => nth i row []) x [] m). now destruct i. }
  now destruct l.
Qed.
Lemma none_used_app L cs l x : l < L -> none_used L (cs ++ [(l, x)]) = (none_used L cs && (length (filter usable (samples_of x)) =? 0))%bool.
Proof.
  intros Hl. apply eq_true_iff_eq. rewrite andb_true_iff. unfold none_used. rewrite !forallb_forall.
  split.
  - intros H. split.
    + intros j Hj. specialize (H j Hj). rewrite Nat.eqb_eq in *. rewrite used_app, app_length in H. lia.
    + specialize (H l ltac:(apply in_seq; lia)). rewrite Nat.eqb_eq in *. rewrite used_app, app_length in H.
      unfold used in H at 2. rewrite level_one, Nat.eqb_refl in H. lia.
  - intros [H H0] j Hj. specialize (H j Hj). rewrite Nat.eqb_eq in *. rewrite used_app, app_length.
    unfold used at 2. rewrite level_one. destruct (l =? j); cbn; lia.
Qed.
Lemma repeat_seq {A} n (v : A) : repeat v n = map (fun _ => v) (seq 0 n).
Proof. generalize 0. induction n; intros; cbn; auto. now rewrite <- IHn. Qed.

Lemma step_ok M L cs l x N : M <> 0 -> l < L -> shaped M N (parts l) x ->
  est_step M L (state_of M L cs) (l, Ok x) = Ok (state_of M L (cs ++ [(l, x)])).
Proof.
  intros HM Hl Hx. unfold est_step. cbn [fst snd bind].
  rewrite (mask_chunk _ _ _ _ Hx HM).
  assert (El : l <? L = true) by now apply Nat.ltb_lt. rewrite El. cbn [negb].
  set (ids := good_ids x N). set (chunk := map (fun row => map (fun i => nth i row []) ids) x).
  assert (Hu : filter usable (samples_of x) = map (fun i => map (fun row => nth i row []) x) ids) by exact (used_one _ _ _ _ Hx HM).
  assert (Hlen : length chunk = M) by (unfold chunk; rewrite map_length; apply Hx).
  assert (Hw : width chunk = length ids).
  { unfold chunk. destruct Hx as [E _]. destruct x as [|r x']; [cbn in E; lia|]. cbn. now rewrite map_length. }
  assert (Hused : forall j, used (cs ++ [(l, x)]) j = used cs j ++ if j =? l then map (fun i => map (fun row => nth i row []) x) ids else []).
  { intros j. rewrite used_app. f_equal. unfold used. rewrite level_one, (Nat.eqb_sym l j). destruct (j =? l); auto. }
  assert (Hn : upd (map (fun j => length (used cs j)) (seq 0 L)) l (fun v => v + width chunk)
               = map (fun j => length (used (cs ++ [(l, x)]) j)) (seq 0 L)).
  { rewrite upd_seq by auto. apply map_ext. intros j. rewrite Hused, app_length.
    destruct (j =? l); [now rewrite map_length, Hw|cbn; lia]. }
  assert (Hr : upd (map (fun j => length (filter (fun s => negb (usable s)) (level_samples cs j))) (seq 0 L)) l
                 (fun v => v + length (filter (fun s => negb (usable s)) (samples_of x)))
               = map (fun j => length (filter (fun s => negb (usable s)) (level_samples (cs ++ [(l, x)]) j))) (seq 0 L)).
  { rewrite upd_seq by auto. apply map_ext. intros j. rewrite level_samples_app, filter_app, app_length, level_one, (Nat.eqb_sym l j).
    destruct (j =? l); cbn; lia. }
  unfold state_of. cbn [e_n e_rm e_sums]. rewrite Hn, Hr. clear Hn Hr.
  assert (Hnone : none_used L (cs ++ [(l, x)]) = (none_used L cs && (length ids =? 0))%bool).
  { rewrite none_used_app, Hu, map_length by auto. reflexivity. }
  rewrite Hw. destruct (Nat.eqb_spec (length ids) 0) as [E0|E0].
  { do 2 f_equal. unfold sums_of. rewrite Hnone, andb_true_r.
    apply length_zero_iff_nil in E0. destruct (none_used L cs); auto.
    do 2 f_equal; apply table_ext; intros j m _ _; unfold differences; rewrite Hused, E0; cbn;
      (destruct (j =? l); cbn; now rewrite app_nil_r). }
  rewrite Hlen, Nat.eqb_refl. cbn [negb].
  assert (Hp : has_parts l chunk = true).
  { apply (parts_kept M N); auto. - now intros ->. - intros i Hi. unfold ids, good_ids in Hi. apply filter_In in Hi. destruct Hi as [Hi _]. apply in_seq in Hi. lia. }
  rewrite andb_false_r in Hnone.
  assert (Hadd : forall (f : list num -> num) , (forall a b, f (a ++ b) = nadd (f a) (f b)) ->
     upd (table M L (fun j m => f (differences cs j m))) l (fun v => vadd v (map f (map (map (sample_diff l)) chunk)))
     = table M L (fun j m => f (differences (cs ++ [(l, x)]) j m))).
  { intros f Hf. unfold table. rewrite upd_seq by auto. apply map_ext. intros j. unfold differences.
    destruct (Nat.eqb_spec j l) as [->|Ej].
    - unfold chunk. rewrite (diff_rows M) by (apply Hx). rewrite map_map, vadd_seq. apply map_ext. intros m.
      rewrite Hused, Nat.eqb_refl, map_app, Hf. reflexivity.
    - apply map_ext. intros m. rewrite Hused. destruct (Nat.eqb_spec j l); [easy|]. now rewrite app_nil_r. }
  pose proof (Hadd nsum nsum_app) as H1.
  pose proof (Hadd (fun d => nsum (map nsq d)) ltac:(cbn beta; intros; now rewrite map_app, nsum_app)) as H2.
  cbn beta in H2.
  assert (Hz : (match sums_of M L cs with
     | Some p => p | None => (repeat (repeat (Fin 0) M) L, repeat (repeat (Fin 0) M) L) end)
     = (table M L (fun l m => nsum (differences cs l m)), table M L (fun l m => nsum (map nsq (differences cs l m))))).
  { unfold sums_of. destruct (none_used L cs) eqn:En; auto. f_equal.
    - apply (all_zero_table M L cs); auto. intros j m Ej. unfold differences. now rewrite Ej.
    - apply (all_zero_table M L cs); auto. intros j m Ej. unfold differences. now rewrite Ej. }
  rewrite Hz, Hp. cbn [negb]. do 2 f_equal. unfold sums_of. rewrite Hnone. f_equal. f_equal; [exact H1|].
  rewrite <- H2. reflexivity.
Qed.

Lemma loop_ok M L : M <> 0 -> forall cs done, chunks_ok M L cs ->
  est_loop M L (state_of M L done) (read cs) = Ok (state_of M L (done ++ cs)).
Proof.
  intros HM. induction cs as [|[l x] cs IH]; intros done Hc; cbn [read map est_loop fst snd]; [now rewrite app_nil_r|].
  destruct (Hc l x (or_introl eq_refl)) as [Hl [N Hx]].
  rewrite (step_ok M L done l x N HM Hl Hx). cbn [bind]. fold (read cs).
  rewrite IH by (intros l' x' H; apply Hc; now right). now rewrite <- app_assoc.
Qed.
Lemma state_nil M L : state_of M L [] = est0 L.
Proof.
  unfold state_of, est0, sums_of, none_used. cbn. rewrite !repeat_seq. f_equal.
  replace (forallb _ _) with true; auto. symmetry. apply forallb_forall. auto.
Qed.

(** ** The result *)
Definition ref_var (d : list num) : num :=
  if 1 <? length d then ndivn (nsub (nsum (map nsq d)) (ndivn (nsq (nsum d)) (length d))) (length d - 1) else PInf.
Definition reference {K} (t : qtype K) (L : nat) (cs : list (nat * arr num)) : res (qmean K) :=
  let M := size t in
  if none_used L cs then Err PyException
  else Ok (mkMean t (table M L (fun l m => ndivn (nsum (differences cs l m)) (length (used cs l))))
                    (table M L (fun l m => ref_var (differences cs l m)))
                    (map (fun l => length (used cs l)) (seq 0 L))
                    (map (fun l => length (filter (fun s => negb (usable s)) (level_samples cs l))) (seq 0 L))).
Lemma combine_map {A B C} (f : A -> B) (g : A -> C) l : combine (map f l) (map g l) = map (fun x => (f x, g x)) l.
Proof. induction l; cbn; auto. now rewrite IHl. Qed.

Lemma estimate_reference {K} (t : qtype K) L cs : size t <> 0 -> chunks_ok (size t) L cs ->
  estimate_mean t L (read cs) = reference t L cs.
Proof.
  intros HM Hc. unfold estimate_mean. rewrite <- (state_nil (size t) L), loop_ok by auto. cbn [bind app]. unfold state_of at 1.
  cbn [e_sums]. unfold sums_of, reference. destruct (none_used L cs); auto.
  f_equal. unfold state_of. cbn [e_n e_rm]. unfold table. rewrite !combine_map, !map_map. f_equal; apply map_ext; intros l; cbn [fst snd].
  - unfold level_mean. rewrite map_map. reflexivity.
  - unfold level_var, ref_var. rewrite combine_map, !map_map. unfold differences. destruct (1 <? length (used cs l)) eqn:E.
    + apply map_ext. intros m. rewrite map_length, E. reflexivity.
    + apply map_ext. intros m. now rewrite map_length, E.
Qed.
Lemma cell_table M L f l m : l < L -> m < M -> cell (table M L f) l m = f l m.
Proof.
  intros Hl Hm. unfold cell, table.
  rewrite (nth_indep _ [] (map (f 0) (seq 0 M))) by (now rewrite map_length, seq_length).
  rewrite (map_nth (fun j => map (f j) (seq 0 M))), seq_nth by auto. cbn.
  rewrite (nth_indep _ NaN (f l 0)) by (now rewrite map_length, seq_length).
  now rewrite (map_nth (f l)), seq_nth.
Qed.
