From Verif Require Import Base BaseFacts QTypeModel QTypeSpec.

Section Proofs.
Context {K : Type} (K_eq : forall a b : K, {a = b} + {a <> b}).
Notation qt := (qtype K).

Fixpoint qtype_ind' (P : qt -> Prop) (Hs : P QScalar) (Hb : P QBool)
  (Ha : forall sh q, P q -> P (QArray sh q)) (Ht : forall ts q, P q -> P (QTimes ts q))
  (Hf : forall ks q, P q -> P (QField ks q)) (Hd : forall items, Forall (fun x => P (snd x)) items -> P (QDict items))
  (t : qt) : P t :=
  match t with
  | QScalar => Hs
  | QBool => Hb
  | QArray sh q => Ha sh q (qtype_ind' P Hs Hb Ha Ht Hf Hd q)
  | QTimes ts q => Ht ts q (qtype_ind' P Hs Hb Ha Ht Hf Hd q)
  | QField ks q => Hf ks q (qtype_ind' P Hs Hb Ha Ht Hf Hd q)
  | QDict items => Hd items ((fix go (l : list (K * qt)) : Forall (fun x => P (snd x)) l :=
      match l with [] => Forall_nil _ | x :: l' => Forall_cons x (qtype_ind' P Hs Hb Ha Ht Hf Hd (snd x)) (go l') end) items)
  end.

(** Lists cut into blocks. *)
Lemma firstn_skipn_app {A} (b1 b2 : list A) n : length b1 = n -> firstn n (b1 ++ b2) = b1 /\ skipn n (b1 ++ b2) = b2.
Proof. intros <-. rewrite firstn_app, skipn_app, Nat.sub_diag, firstn_all, skipn_all. cbn. now rewrite app_nil_r. Qed.

Lemma skipn_add {A} (l : list A) : forall a b, skipn a (skipn b l) = skipn (b + a) l.
Proof. intros a b. revert l. induction b as [|b IH]; intros l; [reflexivity|]. destruct l; cbn; [now rewrite skipn_nil|apply IH]. Qed.

Lemma blocks_from {A} (b n : nat) : forall (i : nat) (rows : list A), length rows = (i + n) * b ->
  concat (map (fun i => firstn b (skipn (i * b) rows)) (seq i n)) = skipn (i * b) rows.
Proof.
  induction n as [|n IH]; intros i rows H; cbn [seq map concat].
  - symmetry. apply skipn_all2. lia.
  - rewrite IH by (rewrite H; ring). rewrite <- (firstn_skipn b (skipn (i * b) rows)) at 2. f_equal.
    rewrite skipn_add. f_equal. cbn. lia.
Qed.
Lemma blocks_all {A} (b n : nat) (rows : list A) : length rows = n * b ->
  concat (map (fun i => firstn b (skipn (i * b) rows)) (seq 0 n)) = rows.
Proof. intros H. exact (blocks_from b n 0 rows H). Qed.

Lemma block_length {A} (b n i : nat) (rows : list A) : length rows = n * b -> i < n -> length (firstn b (skipn (i * b) rows)) = b.
Proof. intros H Hi. rewrite firstn_length, skipn_length, H. assert (b <= n * b - i * b); [|lia]. replace (n * b - i * b) with ((n - i) * b) by (rewrite Nat.mul_sub_distr_r; reflexivity). nia. Qed.

(** Arrays. *)
Lemma indices_length shape : length (indices shape) = prod shape.
Proof.
  induction shape as [|n sh IH]; [reflexivity|]. cbn [indices prod fold_right]. fold (prod sh). rewrite <- IH.
  generalize 0 as i. induction n as [|n IHn]; intros i; [reflexivity|]. cbn [seq flat_map]. rewrite app_length, map_length, IHn. reflexivity.
Qed.

Lemma norm_at_nat n i : i < n -> norm_at n (Z.of_nat i) = Some i.
Proof.
  intros H. unfold norm_at. destruct (Z.ltb_spec (Z.of_nat i) 0); [lia|].
  destruct (Z.leb_spec 0 (Z.of_nat i)); [|lia]. destruct (Z.ltb_spec (Z.of_nat i) (Z.of_nat n)); [|lia]. cbn. now rewrite Nat2Z.id.
Qed.

Lemma flat_map_map {A B C} (f : A -> list B) (g : B -> C) l : map g (flat_map f l) = flat_map (fun x => map g (f x)) l.
Proof. induction l as [|x l IH]; cbn; auto. now rewrite map_app, IH. Qed.
Lemma flat_map_in_ext {A B} (f g : A -> list B) l : (forall x, In x l -> f x = g x) -> flat_map f l = flat_map g l.
Proof. induction l as [|x l IH]; intros H; cbn; auto. rewrite (H x), IH; auto; [intros; apply H; now right|now left]. Qed.

Notation ats ix := (map (fun i => At (Z.of_nat i)) ix).

Lemma select_at {R} shape : forall (rows : list R), length rows = prod shape ->
  map (fun ix => select_rows shape (ats ix) rows) (indices shape) = map (fun r => Ok [r]) rows.
Proof.
  induction shape as [|n sh IH]; intros rows H.
  - cbn in H. destruct rows as [|r [|? ?]]; try discriminate. reflexivity.
  - cbn [indices]. rewrite flat_map_map.
    assert (E : flat_map (fun i => map (fun ix => select_rows (n :: sh) (ats ix) rows) (map (cons i) (indices sh))) (seq 0 n)
      = flat_map (fun i => map (fun r => Ok [r]) (firstn (prod sh) (skipn (i * prod sh) rows))) (seq 0 n)).
    { apply flat_map_in_ext. intros i Hi. apply in_seq in Hi. rewrite map_map.
      rewrite <- IH by (apply (block_length (prod sh) n); [exact H|lia]). apply map_ext. intros ix.
      cbn [map select_rows positions]. rewrite norm_at_nat by lia. cbn [option_map fold_right bind].
      destruct (select_rows sh (ats ix) (firstn (prod sh) (skipn (i * prod sh) rows))); cbn; [now rewrite app_nil_r|reflexivity]. }
    rewrite E. rewrite <- flat_map_map, flat_map_concat_map, blocks_all; auto.
Qed.

Lemma new_shape_at shape : forall ix, In ix (indices shape) -> new_shape shape (ats ix) = Ok [].
Proof.
  induction shape as [|n sh IH]; intros ix H; cbn in H.
  - destruct H as [<-|[]]. reflexivity.
  - apply in_flat_map in H as (i & Hi & H). apply in_map_iff in H as (ix' & <- & H). apply in_seq in Hi.
    cbn [map new_shape positions]. rewrite norm_at_nat by lia. cbn [option_map]. rewrite IH by auto. reflexivity.
Qed.

Lemma select_rows_map {R S} (f : R -> S) shape : forall ix rows,
  select_rows shape ix (map f rows) = bind (select_rows shape ix rows) (fun r => Ok (map f r)).
Proof.
  induction shape as [|n sh IH]; intros [|s ix] rows; try reflexivity.
  cbn [select_rows]. destruct (positions n s) as [ps|]; [|reflexivity].
  induction ps as [|p ps IHp]; [reflexivity|]. cbn [fold_right]. rewrite IHp.
  match goal with |- context [fold_right ?g (Ok (@nil R)) ps] => destruct (fold_right g (Ok (@nil R)) ps) as [a|e] end; cbn [bind]; [|reflexivity].
  rewrite skipn_map, firstn_map, IH. destruct (select_rows sh ix _); cbn; [now rewrite map_app|reflexivity].
Qed.

Lemma getitem_rows_map {R S} (f : R -> S) t k rows :
  getitem_rows K_eq t k (map f rows) = bind (getitem_rows K_eq t k rows) (fun r => Ok (map f r)).
Proof.
  unfold getitem_rows. destruct (get_key K_eq t k) as [[q s]|e]; cbn [bind fst snd]; [|reflexivity].
  destruct t; destruct k; cbn [bind]; rewrite ?skipn_map, ?firstn_map; try reflexivity.
  rewrite map_length. destruct (Nat.eqb (length rows) (prod shape)); [apply select_rows_map|reflexivity].
Qed.

Lemma path_rows_map {R S} (f : R -> S) p : forall t rows,
  path_rows K_eq t p (map f rows) = bind (path_rows K_eq t p rows) (fun r => Ok (map f r)).
Proof.
  induction p as [|k p IH]; intros t rows; [reflexivity|]. cbn [path_rows].
  destruct (get_key K_eq t k) as [[q s]|e]; cbn [bind fst]; [|reflexivity].
  rewrite getitem_rows_map. destruct (getitem_rows K_eq t k rows); cbn [bind]; [apply IH|reflexivity].
Qed.

(** Keys. *)
Lemma index_of_lt k l p : index_of K_eq k l = Some p -> p < length l /\ nth_error l p = Some k.
Proof.
  revert p. induction l as [|x l IH]; intros p H; [discriminate|]. cbn in H. destruct (K_eq x k) as [->|N].
  - injection H as <-. cbn. split; [lia|auto].
  - destruct (index_of K_eq k l) as [q|]; [|discriminate]. injection H as <-. destruct (IH q eq_refl). cbn. split; [lia|auto].
Qed.
Lemma index_of_nodup l : NoDup l -> map (fun k => index_of K_eq k l) l = map Some (seq 0 (length l)).
Proof.
  induction 1 as [|x l Hx Hl IH]; [reflexivity|]. cbn [map length seq].
  f_equal.
  - cbn. destruct (K_eq x x); congruence.
  - rewrite <- seq_shift, map_map.
    transitivity (map (option_map S) (map (fun k => index_of K_eq k l) l)).
    + rewrite map_map. apply map_ext_in. intros k Hk. cbn. destruct (K_eq x k); [subst; contradiction|reflexivity].
    + rewrite IH, map_map. reflexivity.
Qed.

Lemma flat_map_fst_map {A B C} (h : A -> B) (g : B -> list C) l : flat_map (fun x => g (h x)) l = flat_map g (map h l).
Proof. induction l as [|x l IH]; cbn; auto. now rewrite IH. Qed.

Lemma pget_app items1 k (q : qt) items2 : ~ In k (map fst items1) -> pget K_eq (items1 ++ (k, q) :: items2) k = Some q.
Proof.
  induction items1 as [|[k' q'] r IH]; intros H; cbn.
  - destruct (K_eq k k); congruence.
  - destruct (K_eq k' k) as [->|N]; [exfalso; apply H; now left|]. apply IH. intros C. apply H. now right.
Qed.
Lemma dict_start_app items1 k (q : qt) items2 : ~ In k (map fst items1) ->
  dict_start K_eq k (items1 ++ (k, q) :: items2) = size (QDict items1).
Proof.
  induction items1 as [|[k' q'] r IH]; intros H; cbn.
  - destruct (K_eq k k); congruence.
  - destruct (K_eq k' k) as [->|N]; [exfalso; apply H; now left|]. rewrite IH; [reflexivity|]. intros C. apply H. now right.
Qed.

Lemma leaves_length (t : qt) : length (leaves t) = size t.
Proof.
  assert (Hc : forall {A B} (l : list A) (g : A -> B -> B) (x : list B), length (flat_map (fun k => map (g k) x) l) = length l * length x).
  { intros A B l g x. induction l as [|a l IHl]; cbn; auto. now rewrite app_length, map_length, IHl. }
  induction t as [| |sh q IH|ts q IH|ks q IH|items IH] using qtype_ind'; cbn [leaves size]; auto.
  - rewrite (Hc _ _ (indices sh) (fun ix => cons (at_index ix)) (leaves q)), indices_length, IH. reflexivity.
  - rewrite (Hc _ _ ts (fun k => cons (Key k)) (leaves q)), IH. reflexivity.
  - rewrite (Hc _ _ ks (fun k => cons (Key k)) (leaves q)), IH. reflexivity.
  - induction IH as [|x l Hx Hl IHl]; cbn; auto. rewrite app_length, map_length, Hx, IHl. reflexivity.
Qed.

(** The path theorem: the full paths, in declared order, read the rows one after the other. *)
Lemma leaf_rows {R} (t : qt) : wf t -> forall rows : list R, length rows = size t ->
  map (fun p => path_rows K_eq t p rows) (leaves t) = map (fun r => Ok [r]) rows.
Proof.
  assert (Hkeys : forall (ks : list K) (q : qt) (T : qt), NoDup ks ->
     (forall k p, index_of K_eq k ks = Some p -> get_key K_eq T (Key k) = Ok (q, p * size q)) ->
     (forall sh u, T <> QArray sh u) ->
     (forall rows : list R, length rows = size q -> map (fun p => path_rows K_eq q p rows) (leaves q) = map (fun r => Ok [r]) rows) ->
     forall rows : list R, length rows = length ks * size q ->
     map (fun p => path_rows K_eq T p rows) (flat_map (fun k => map (cons (Key k)) (leaves q)) ks) = map (fun r => Ok [r]) rows).
  { intros ks q T Hks Hget HT IH rows H. rewrite flat_map_map.
    set (g := fun o => match o with Some p => map (fun r : R => Ok [r]) (firstn (size q) (skipn (p * size q) rows)) | None => [] end).
    transitivity (flat_map (fun k => g (index_of K_eq k ks)) ks).
    - apply flat_map_in_ext. intros k Hk. assert (Hi : exists p, index_of K_eq k ks = Some p).
      { apply (in_map (fun k => index_of K_eq k ks)) in Hk. rewrite index_of_nodup in Hk by auto.
        apply in_map_iff in Hk as (p & Hp & _). eauto. }
      destruct Hi as [p Hp]. rewrite Hp. unfold g. pose proof (index_of_lt _ _ _ Hp) as [Hlt _].
      rewrite <- IH by (apply (block_length (size q) (length ks)); auto). rewrite map_map. apply map_ext. intros p'.
      cbn [path_rows]. rewrite (Hget _ _ Hp). cbn [bind fst]. unfold getitem_rows. rewrite (Hget _ _ Hp). cbn [bind fst snd].
      destruct T; try reflexivity. 
    - rewrite (flat_map_fst_map (fun k => index_of K_eq k ks) g), index_of_nodup by auto.
      rewrite <- (flat_map_fst_map Some g). unfold g. rewrite <- flat_map_map, flat_map_concat_map, blocks_all; auto. }
  induction t as [| |sh q IH|ts q IH|ks q IH|items IH] using qtype_ind'; intros Hwf rows H.
  - cbn in H. destruct rows as [|r [|? ?]]; try discriminate. reflexivity.
  - cbn in H. destruct rows as [|r [|? ?]]; try discriminate. reflexivity.
  - destruct Hwf as [Hsz Hwf]. cbn [leaves size] in *. rewrite Hsz, Nat.mul_1_r in H.
    assert (Hq : exists p0, leaves q = [p0]).
    { pose proof (leaves_length q) as L. rewrite Hsz in L. destruct (leaves q) as [|p0 [|? ?]]; try discriminate. eauto. }
    destruct Hq as [p0 Hq]. rewrite Hq.
    assert (Hp : forall r : R, path_rows K_eq q p0 [r] = Ok [r]).
    { intros r. specialize (IH Hwf [r] (eq_sym Hsz)). rewrite Hq in IH. cbn [map] in IH. congruence. }
    assert (El : flat_map (fun ix => map (cons (at_index ix)) [p0]) (indices sh) = map (fun ix => [@at_index K ix] ++ p0) (indices sh)).
    { induction (indices sh) as [|x l IHl]; [reflexivity|]. cbn [flat_map]. rewrite IHl. reflexivity. }
    rewrite El, map_map.
    transitivity (map (fun x => bind x (fun rows => path_rows K_eq q p0 rows)) (map (fun ix => select_rows sh (ats ix) rows) (indices sh))).
    + rewrite map_map. apply map_ext_in. intros ix Hix. unfold at_index. cbn [path_rows get_key app].
      rewrite new_shape_at by auto. cbn [bind fst]. unfold getitem_rows. cbn [get_key]. rewrite new_shape_at by auto. cbn [bind].
      rewrite H, Nat.eqb_refl. destruct (select_rows sh (ats ix) rows); reflexivity.
    + rewrite select_at by exact H. rewrite map_map. apply map_ext. intros r. apply Hp.
  - destruct Hwf as [Hn Hw]. cbn [leaves size] in *. apply Hkeys; auto.
    + intros k p Hp. cbn. now rewrite Hp.
    + discriminate.
  - destruct Hwf as [Hn Hw]. cbn [leaves size] in *. apply Hkeys; auto.
    + intros k p Hp. cbn. now rewrite Hp.
    + discriminate.
  - destruct Hwf as [Hn Hw]. cbn [leaves].
    assert (G : forall suf pre, items = pre ++ suf -> length rows = size (QDict items) ->
       map (fun p => path_rows K_eq (QDict items) p rows) (flat_map (fun x => map (cons (Key (fst x))) (leaves (snd x))) suf)
       = map (fun r => Ok [r]) (skipn (size (QDict pre)) rows)).
    { clear H. intros suf. induction suf as [|[k q] suf IHs]; intros pre E H.
      - rewrite app_nil_r in E. subst pre. cbn [flat_map map]. rewrite skipn_all2 by lia. reflexivity.
      - cbn [flat_map fst snd]. rewrite map_app, (IHs (pre ++ [(k, q)])) by (auto; rewrite E, <- app_assoc; reflexivity).
        rewrite <- (firstn_skipn (size q) (skipn (size (QDict pre)) rows)), map_app.
        assert (Hsz : size (QDict (pre ++ [(k, q)])) = size (QDict pre) + size q).
        { cbn [size]. rewrite map_app, list_sum_app. cbn. lia. }
        assert (Hk : ~ In k (map fst pre)).
        { rewrite E, map_app in Hn. apply NoDup_app_iff in Hn as (_ & _ & Hd). intros C. apply (Hd k C). now left. }
        assert (Hget : get_key K_eq (QDict items) (Key k) = Ok (q, size (QDict pre))).
        { cbn [get_key]. rewrite E, pget_app, dict_start_app by auto. reflexivity. }
        f_equal; [|rewrite skipn_add; f_equal; f_equal; lia].
        rewrite map_map.
        assert (Hin : In (k, q) items) by (rewrite E; apply in_or_app; right; now left).
        rewrite Forall_forall in IH. pose proof (IH (k, q) Hin) as IHq. cbn [snd] in IHq.
        assert (Hwq : wf q). { clear - Hw Hin. induction items as [|y l IHl]; [destruct Hin|]. destruct Hw as [H1 H2]. destruct Hin as [->|Hin]; auto. }
        rewrite <- IHq; auto.
        + apply map_ext. intros p. cbn [path_rows]. rewrite Hget. cbn [bind fst]. unfold getitem_rows. rewrite Hget. reflexivity.
        + rewrite firstn_length, skipn_length, H. rewrite E. cbn [size]. rewrite map_app, list_sum_app. cbn [map snd list_sum fold_right]. unfold list_sum. cbn [fold_right]. lia. }
    specialize (G items [] eq_refl H). cbn [size map list_sum fold_right skipn] in G. exact G.
Qed.


(** One level of keys: the pieces are consecutive. *)
Lemma cut_repeat {R} b n : forall rows : list R, cut (repeat b n) rows = map (fun i => firstn b (skipn (i * b) rows)) (seq 0 n).
Proof.
  induction n as [|n IH]; intros rows; [reflexivity|]. cbn [repeat cut seq map]. f_equal.
  rewrite IH, <- seq_shift, map_map. apply map_ext. intros i. rewrite skipn_add. reflexivity.
Qed.
Lemma cut_concat {R} (parts : list (list R)) : cut (map (@length R) parts) (concat parts) = parts.
Proof.
  induction parts as [|x l IH]; [reflexivity|]. cbn [map cut concat].
  destruct (firstn_skipn_app x (concat l) (length x) eq_refl) as [-> ->]. now rewrite IH.
Qed.

Definition sub_sizes (t : qt) : list nat :=
  match t with
  | QScalar | QBool => []
  | QArray shape q => repeat 1 (prod shape)
  | QTimes ks q | QField ks q => repeat (size q) (length ks)
  | QDict items => map (fun x => size (snd x)) items
  end.

Lemma list_sum_repeat b n : list_sum (repeat b n) = n * b.
Proof. induction n as [|n IH]; [reflexivity|]. change (b + list_sum (repeat b n) = S n * b). rewrite IH. reflexivity. Qed.
Lemma sub_sizes_sum t : top_ok t -> list_sum (sub_sizes t) = size t.
Proof. destruct t; cbn [top_ok sub_sizes size]; intros H; try (exfalso; exact H); rewrite ?list_sum_repeat, ?H; auto. Qed.

Lemma keyed_level (ks : list K) (q T : qt) : NoDup ks ->
  (forall k p, index_of K_eq k ks = Some p -> get_key K_eq T (Key k) = Ok (q, p * size q)) -> (forall sh u, T <> QArray sh u) ->
  map (fun k => path_type K_eq T [Key k]) ks = map (fun _ => Ok q) ks
  /\ forall R (rows : list R), map (fun k => getitem_rows K_eq T (Key k) rows) ks = map Ok (cut (repeat (size q) (length ks)) rows).
Proof.
  intros Hn Hget HT.
  assert (Hi : forall k, In k ks -> exists p, index_of K_eq k ks = Some p).
  { intros k Hk. apply (in_map (fun k => index_of K_eq k ks)) in Hk. rewrite index_of_nodup in Hk by auto.
    apply in_map_iff in Hk as (p & Hp & _). eauto. }
  split.
  - apply map_ext_in. intros k Hk. destruct (Hi k Hk) as [p Hp]. cbn [path_type]. now rewrite (Hget _ _ Hp).
  - intros R rows. rewrite cut_repeat, map_map.
    set (g := fun o => match o with Some p => Ok (firstn (size q) (skipn (p * size q) rows)) | None => Err KeyError end).
    transitivity (map g (map (fun k => index_of K_eq k ks) ks)).
    + rewrite map_map. apply map_ext_in. intros k Hk. destruct (Hi k Hk) as [p Hp]. rewrite Hp. unfold getitem_rows. rewrite (Hget _ _ Hp).
      cbn [bind fst snd g]. destruct T; try reflexivity.
    + rewrite index_of_nodup by auto. rewrite map_map. reflexivity.
Qed.

Lemma dict_level (items : list (K * qt)) : NoDup (map fst items) ->
  map (fun x => path_type K_eq (QDict items) [Key (fst x)]) items = map (fun x => Ok (snd x)) items
  /\ forall R (rows : list R), map (fun x => getitem_rows K_eq (QDict items) (Key (fst x)) rows) items = map Ok (cut (map (fun x => size (snd x)) items) rows).
Proof.
  intros Hn.
  assert (G : forall suf pre, items = pre ++ suf ->
    map (fun x => path_type K_eq (QDict items) [Key (fst x)]) suf = map (fun x => Ok (snd x)) suf
    /\ forall R (rows : list R), map (fun x => getitem_rows K_eq (QDict items) (Key (fst x)) rows) suf
        = map Ok (cut (map (fun x => size (snd x)) suf) (skipn (size (QDict pre)) rows))).
  { intros suf. induction suf as [|[k q] suf IH]; intros pre E; [split; reflexivity|].
    destruct (IH (pre ++ [(k, q)])) as [H1 H2]; [rewrite E, <- app_assoc; reflexivity|].
    assert (Hk : ~ In k (map fst pre)).
    { rewrite E, map_app in Hn. apply NoDup_app_iff in Hn as (_ & _ & Hd). intros C. apply (Hd k C). now left. }
    assert (Hget : get_key K_eq (QDict items) (Key k) = Ok (q, size (QDict pre))).
    { cbn [get_key]. rewrite E, pget_app, dict_start_app by auto. reflexivity. }
    split; [|intros R rows]; cbn [map fst snd cut].
    - rewrite H1. f_equal. cbn [path_type]. now rewrite Hget.
    - rewrite H2, skipn_add. f_equal.
      + unfold getitem_rows. rewrite Hget. reflexivity.
      + do 3 f_equal. cbn [size]. rewrite map_app, list_sum_app. cbn. lia. }
  exact (G items [] eq_refl).
Qed.

Lemma cut_ones {R} (rows : list R) : cut (repeat 1 (length rows)) rows = map (fun r => [r]) rows.
Proof. induction rows as [|r l IH]; [reflexivity|]. cbn. now rewrite IH. Qed.

Lemma array_item_rows {R} sh (q : qt) ix (rows : list R) : In ix (indices sh) -> length rows = prod sh ->
  getitem_rows K_eq (QArray sh q) (at_index ix) rows = select_rows sh (ats ix) rows.
Proof. intros H L. unfold getitem_rows, at_index. cbn [get_key]. rewrite new_shape_at by auto. cbn [bind]. now rewrite L, Nat.eqb_refl. Qed.
Lemma array_item_type sh (q : qt) ix : In ix (indices sh) -> path_type K_eq (QArray sh q) [at_index ix] = Ok q.
Proof. intros H. unfold at_index. cbn [path_type get_key]. now rewrite new_shape_at. Qed.

Lemma tile (t : qt) : top_ok t ->
  map (fun k => bind (path_type K_eq t [k]) (fun q => Ok (size q))) (keys_of t) = map Ok (sub_sizes t)
  /\ forall R (rows : list R), length rows = size t -> map (fun k => getitem_rows K_eq t k rows) (keys_of t) = map Ok (cut (sub_sizes t) rows).
Proof.
  destruct t as [| |sh q|ks q|ks q|items]; cbn [top_ok keys_of sub_sizes size]; intros H; try tauto; rewrite ?map_map.
  - split; [|intros R rows Hr]; rewrite ?map_map.
    + transitivity (map (fun _ : list nat => @Ok nat 1) (indices sh)).
      * apply map_ext_in. intros ix Hix. rewrite array_item_type by auto. cbn. now rewrite H.
      * rewrite <- indices_length. induction (indices sh); cbn; congruence.
    + rewrite H, Nat.mul_1_r in Hr. rewrite <- Hr, cut_ones, map_map, <- (select_at sh) by auto.
      apply map_ext_in. intros ix Hix. now apply array_item_rows.
  - destruct (keyed_level ks q (QTimes ks q) H) as [H1 H2]; [intros k p Hp; cbn; now rewrite Hp|discriminate|].
    split; [|intros R rows Hr; rewrite map_map; apply H2].
    rewrite <- (map_map (fun k => path_type K_eq (QTimes ks q) [Key k]) (fun x => bind x (fun q => Ok (size q)))), H1, map_map.
    clear. induction ks as [|x l IH]; [reflexivity|]. cbn [map length repeat]. now rewrite IH.
  - destruct (keyed_level ks q (QField ks q) H) as [H1 H2]; [intros k p Hp; cbn; now rewrite Hp|discriminate|].
    split; [|intros R rows Hr; rewrite map_map; apply H2].
    rewrite <- (map_map (fun k => path_type K_eq (QField ks q) [Key k]) (fun x => bind x (fun q => Ok (size q)))), H1, map_map.
    clear. induction ks as [|x l IH]; [reflexivity|]. cbn [map length repeat]. now rewrite IH.
  - destruct (dict_level items H) as [H1 H2]. split; [|intros R rows Hr; rewrite map_map; apply H2].
    rewrite <- (map_map (fun x => path_type K_eq (QDict items) [Key (fst x)]) (fun x => bind x (fun q => Ok (size q)))), H1, map_map.
    reflexivity.
Qed.

(** Formats. *)
Lemma pdict_nodup {A} (l : list (K * A)) : NoDup (map fst l) -> pdict K_eq l = l.
Proof.
  unfold pdict. assert (G : forall (suf pre : list (K * A)), NoDup (map fst (pre ++ suf)) -> fold_left (fun d x => pset K_eq d (fst x) (snd x)) suf pre = pre ++ suf).
  { induction suf as [|[k v] suf IH]; intros pre H; cbn [fold_left]; [now rewrite app_nil_r|].
    assert (E : pset K_eq pre k v = pre ++ [(k, v)]).
    { rewrite map_app in H. apply NoDup_app_iff in H as (_ & _ & Hd). cbn in Hd.
      assert (Hk : ~ In k (map fst pre)) by (intros C; apply (Hd k C); now left). clear - Hk.
      induction pre as [|[k' v'] pre IH]; [reflexivity|]. cbn. destruct (K_eq k' k) as [->|N]; [exfalso; apply Hk; now left|].
      rewrite IH; auto. intros C. apply Hk. now right. }
    cbn [fst snd]. rewrite E, IH, <- app_assoc; [reflexivity|]. rewrite <- app_assoc. exact H. }
  intros H. exact (G l [] H).
Qed.

Definition type_of_spec (s : spec K) : qt := QTimes (sp_times s) (QField (sp_locs s) (QArray (sp_shape s) QScalar)).

Lemma map_fst_pair {A B} (l : list A) (b : B) : map fst (map (fun x => (x, b)) l) = l.
Proof. rewrite map_map. apply map_id. Qed.

Lemma root_type_good fmt : good_format fmt ->
  root_type K_eq fmt = Ok (QDict (map (fun s => (sp_name s, type_of_spec s)) fmt)).
Proof.
  intros (Hne & Hn & Hs). unfold root_type.
  assert (E : spec_types K_eq fmt = Ok (map (fun s => (sp_name s, type_of_spec s)) fmt)).
  { clear Hne Hn. induction Hs as [|s l (Ht & Hl & Hne) Hs IH]; [reflexivity|]. cbn [spec_types]. rewrite IH.
    unfold spec_type, mk_field. destruct (sp_locs s) as [|l0 ls] eqn:El; [congruence|]. cbn [map].
    rewrite <- (map_cons (fun l => (l, QArray (sp_shape s) (@QScalar K))) l0 ls), pdict_nodup by (now rewrite map_fst_pair).
    rewrite map_fst_pair.
    assert (F : forallb (fun y : K * qt => Nat.eqb (size (snd y)) (size (snd (l0, QArray (sp_shape s) (@QScalar K)))))
      (map (fun l => (l, QArray (sp_shape s) QScalar)) (l0 :: ls)) = true).
    { apply forallb_forall. intros x Hx. apply in_map_iff in Hx as (y & <- & _). apply Nat.eqb_refl. }
    rewrite F. cbn [bind snd]. unfold type_of_spec. now rewrite El. }
  rewrite E. cbn [bind]. unfold mk_dict. rewrite pdict_nodup by (rewrite map_map; exact Hn).
  destruct fmt as [|s l]; [congruence|]. reflexivity.
Qed.

Lemma flat_map_ext2 {A B} (f g : A -> list B) l : (forall x, f x = g x) -> flat_map f l = flat_map g l.
Proof. intros. apply flat_map_in_ext. auto. Qed.
Lemma flat_map_single {A B} (f : A -> B) l : flat_map (fun x => [f x]) l = map f l.
Proof. induction l as [|x l IH]; [reflexivity|]. cbn. now rewrite IH. Qed.
Lemma flat_map_mapl {A B C} (f : B -> list C) (g : A -> B) l : flat_map f (map g l) = flat_map (fun x => f (g x)) l.
Proof. induction l as [|x l IH]; [reflexivity|]. cbn. now rewrite IH. Qed.

Lemma leaves_declared (fmt : list (spec K)) :
  leaves (QDict (map (fun s => (sp_name s, type_of_spec s)) fmt)) = map declared_path (declared fmt).
Proof.
  cbn [leaves]. unfold declared. rewrite flat_map_mapl, flat_map_map. apply flat_map_ext2. intros s. cbn [fst snd type_of_spec leaves].
  rewrite !flat_map_map. apply flat_map_ext2. intros t. rewrite !map_map, !flat_map_map. apply flat_map_ext2. intros l.
  rewrite !map_map. cbn [map]. rewrite flat_map_single, map_map. reflexivity.
Qed.

Lemma root_wf (fmt : list (spec K)) : good_format fmt -> wf (QDict (map (fun s => (sp_name s, type_of_spec s)) fmt)).
Proof.
  intros (_ & Hn & Hs). cbn [wf]. rewrite map_map. split; [exact Hn|]. clear Hn.
  induction Hs as [|s l (Ht & Hl & _) Hs IH]; cbn [map fold_right]; [exact I|]. split; [|exact IH].
  cbn. auto.
Qed.

(** Parts. *)

Lemma same_qtype_inv {R} (parts : list (part K R)) q : coherent parts -> same_qtype parts = Ok q -> Forall (fun x => p_type x = q) parts.
Proof.
  intros Hc H. destruct parts as [|x r]; [discriminate|]. cbn in H.
  destruct (forallb _ r) eqn:F; [|discriminate]. assert (E : p_type x = q) by congruence. rewrite forallb_forall in F.
  apply Forall_forall. intros y Hy. rewrite <- E. apply Hc; auto; [now left|]. destruct Hy as [<-|Hy]; auto. symmetry. apply Nat.eqb_eq, F, Hy.
Qed.

Lemma concat_rows_cut {R} (parts : list (part K R)) ns : map (fun x => length (p_rows x)) parts = ns -> cut ns (concat_rows parts) = map p_rows parts.
Proof. intros <-. unfold concat_rows. rewrite flat_map_concat_map. rewrite <- (map_map p_rows (@length R)). apply cut_concat. Qed.

Lemma sized_same {R} (parts : list (part K R)) q : sized parts -> Forall (fun x => p_type x = q) parts ->
  map (fun x => length (p_rows x)) parts = repeat (size q) (length parts).
Proof. induction parts as [|x l IH]; intros Hs Hq; [reflexivity|]. inversion_clear Hs. inversion_clear Hq. cbn. rewrite IH by auto. congruence. Qed.

Lemma mk_dict_inv items t : NoDup (map fst items) -> mk_dict K_eq items = Ok t -> t = QDict items.
Proof. intros Hn. unfold mk_dict. rewrite pdict_nodup by auto. destruct items; [discriminate|]. destruct (_ || _)%bool; [|discriminate]. congruence. Qed.

Lemma q_dict_parts {R} (parts : list (K * part K R)) t rows :
  NoDup (map fst parts) -> sized (map snd parts) -> q_dict K_eq parts = Ok (t, rows) ->
  map (fun x => path_type K_eq t [Key (fst x)]) parts = map (fun x => Ok (p_type (snd x))) parts
  /\ map (fun x => getitem_rows K_eq t (Key (fst x)) rows) parts = map (fun x => Ok (p_rows (snd x))) parts.
Proof.
  intros Hn Hs H. unfold q_dict in H.
  destruct (mk_dict K_eq _) as [t0|e] eqn:E in H; [|discriminate]. cbn [bind] in H.
  assert (Hn' : NoDup (map fst (map (fun x => (fst x, p_type (snd x))) parts))) by (rewrite map_map; exact Hn).
  apply mk_dict_inv in E; auto. injection H as H1 H2. subst t0 t rows.
  destruct (dict_level _ Hn') as [H1 H2]. rewrite map_map in H1. cbn [fst snd] in H1. rewrite map_map in H1. split; [exact H1|].
  specialize (H2 _ (concat_rows (map snd parts))). rewrite !map_map in H2. cbn [fst snd] in H2. rewrite H2.
  rewrite concat_rows_cut; rewrite ?map_map; auto.
  clear - Hs. unfold sized in Hs. induction parts as [|x l IH]; [reflexivity|]. inversion_clear Hs. cbn [map]. rewrite IH by auto. congruence.
Qed.

Lemma q_keyed_parts {R} (parts : list (K * part K R)) q T : NoDup (map fst parts) -> sized (map snd parts) ->
  Forall (fun x => p_type x = q) (map snd parts) -> T = QTimes (map fst parts) q \/ T = QField (map fst parts) q ->
  map (fun x => path_type K_eq T [Key (fst x)]) parts = map (fun x => Ok (p_type (snd x))) parts
  /\ map (fun x => getitem_rows K_eq T (Key (fst x)) (concat_rows (map snd parts))) parts = map (fun x => Ok (p_rows (snd x))) parts.
Proof.
  intros Hn Hs Hq HT. destruct (keyed_level (map fst parts) q T Hn) as [H1 H2].
  { intros k p Hp. destruct HT as [->| ->]; cbn; now rewrite Hp. }
  { destruct HT as [->| ->]; discriminate. }
  rewrite !map_map in H1. split.
  - rewrite H1. clear - Hq. induction parts as [|x l IH]; [reflexivity|]. inversion_clear Hq. cbn [map]. rewrite IH by auto. congruence.
  - specialize (H2 _ (concat_rows (map snd parts))). rewrite map_map in H2. rewrite H2, map_length.
    rewrite <- (map_length snd parts). rewrite concat_rows_cut by (now apply sized_same). now rewrite !map_map.
Qed.

Lemma q_times_parts {R} (parts : list (K * part K R)) t rows :
  NoDup (map fst parts) -> sized (map snd parts) -> coherent (map snd parts) -> q_times parts = Ok (t, rows) ->
  map (fun x => path_type K_eq t [Key (fst x)]) parts = map (fun x => Ok (p_type (snd x))) parts
  /\ map (fun x => getitem_rows K_eq t (Key (fst x)) rows) parts = map (fun x => Ok (p_rows (snd x))) parts.
Proof.
  intros Hn Hs Hc H. unfold q_times in H. destruct (same_qtype (map snd parts)) as [q|] eqn:E; [|discriminate]. cbn [bind] in H.
  injection H as <- <-. apply (q_keyed_parts parts q); auto. now apply same_qtype_inv.
Qed.

Lemma q_field_parts {R} (parts : list (K * part K R)) t rows :
  NoDup (map fst parts) -> sized (map snd parts) -> coherent (map snd parts) -> q_field K_eq parts = Ok (t, rows) ->
  map (fun x => path_type K_eq t [Key (fst x)]) parts = map (fun x => Ok (p_type (snd x))) parts
  /\ map (fun x => getitem_rows K_eq t (Key (fst x)) rows) parts = map (fun x => Ok (p_rows (snd x))) parts.
Proof.
  intros Hn Hs Hc H. unfold q_field in H. destruct (same_qtype (map snd parts)) as [q|] eqn:E; [|discriminate]. cbn [bind] in H.
  destruct (mk_field K_eq _) as [t0|] eqn:F in H; [|discriminate]. cbn [bind] in H. injection H as H1 H2. subst t0 rows.
  pose proof (same_qtype_inv _ _ Hc E) as Hq. apply (q_keyed_parts parts q); auto. right.
  unfold mk_field in F. rewrite pdict_nodup in F by (rewrite map_map; exact Hn).
  destruct parts as [|x l]; [discriminate|]. cbn [map] in F. cbn [map] in Hq. inversion_clear Hq.
  destruct (forallb _ _) in F; [|discriminate]. cbn [snd fst] in F. rewrite map_map in F. cbn [fst map] in *. rewrite <- H. injection F as <-. reflexivity.
Qed.

Lemma q_array_parts {R} shape (parts : list (part K R)) t rows :
  sized parts -> coherent parts -> length parts = prod shape -> Forall (fun x => size (p_type x) = 1) parts -> q_array shape parts = Ok (t, rows) ->
  map (fun ix => path_type K_eq t [at_index ix]) (indices shape) = map (fun x => Ok (p_type x)) parts
  /\ map (fun ix => getitem_rows K_eq t (at_index ix) rows) (indices shape) = map (fun x => Ok (p_rows x)) parts.
Proof.
  intros Hs Hc Hl H1 H. unfold q_array in H. destruct (same_qtype parts) as [q|] eqn:E; [|discriminate]. cbn [bind] in H.
  injection H as <- <-. pose proof (same_qtype_inv _ _ Hc E) as Hq.
  assert (Hone : Forall (fun x => exists r, p_rows x = [r]) parts).
  { clear - Hs H1. induction parts as [|x l IH]; constructor; inversion_clear Hs; inversion_clear H1; auto.
    rewrite H2 in H. destruct (p_rows x) as [|r [|? ?]]; try discriminate. eauto. }
  assert (Hlen : length (concat_rows parts) = length parts).
  { clear - Hone. induction Hone as [|x l (r & Hr) H IH]; [reflexivity|]. cbn. rewrite Hr. cbn. now f_equal. }
  split.
  - transitivity (map (fun _ : list nat => @Ok qt q) (indices shape)).
    + apply map_ext_in. intros ix Hix. now apply array_item_type.
    + assert (Hle : length (indices shape) = length parts) by (rewrite indices_length; congruence).
      clear - Hle Hq. revert Hle. generalize (indices shape). induction Hq as [|x l Hx Hq IH]; intros [|i is] H; try discriminate; [reflexivity|].
      cbn [map]. rewrite (IH is) by (cbn in H; congruence). congruence.
  - transitivity (map (fun ix => select_rows shape (ats ix) (concat_rows parts)) (indices shape)).
    + apply map_ext_in. intros ix Hix. apply array_item_rows; auto. congruence.
    + rewrite select_at by congruence. clear - Hone. induction Hone as [|x l (r & Hr) H IH]; [reflexivity|].
      cbn [concat_rows flat_map]. cbn [map]. rewrite <- IH, Hr. reflexivity.
Qed.

Lemma q_array_big {R} shape (parts : list (part K R)) t rows n ix :
  sized parts -> coherent parts -> length parts = prod shape -> parts <> [] -> Forall (fun x => size (p_type x) = n) parts -> n <> 1 -> q_array shape parts = Ok (t, rows) ->
  In ix (indices shape) -> getitem_rows K_eq t (at_index ix) rows = Err ValueError.
Proof.
  intros Hs Hc Hl Hne Hn Hn1 H Hix. unfold q_array in H. destruct (same_qtype parts) as [q|] eqn:E; [|discriminate]. cbn [bind] in H.
  injection H as <- <-. unfold getitem_rows, at_index. cbn [get_key]. rewrite new_shape_at by auto. cbn [bind].
  assert (Hlen : length (concat_rows parts) = length parts * n).
  { clear - Hs Hn. induction parts as [|x l IH]; [reflexivity|]. inversion_clear Hs. inversion_clear Hn. cbn. rewrite app_length. unfold concat_rows in IH. rewrite IH by auto. lia. }
  destruct (Nat.eqb_spec (length (concat_rows parts)) (prod shape)); [|reflexivity].
  rewrite Hlen, <- Hl in e. destruct parts; [congruence|]. cbn [length] in e. nia.
Qed.

(** Replacing the scalar. *)
Lemma replace_size s (t : qt) : size (replace_scalar s t) = size t * size s.
Proof.
  induction t as [| |sh q IH|ts q IH|ks q IH|items IH] using qtype_ind'; cbn [replace_scalar size]; try lia.
  rewrite map_map. cbn [snd]. induction IH as [|x l Hx Hl IHl]; [reflexivity|]. cbn [map list_sum fold_right]. unfold list_sum in *. cbn [fold_right]. rewrite Hx, IHl. lia.
Qed.

Lemma replace_keys s (t : qt) : t <> QScalar -> t <> QBool -> keys_of (replace_scalar s t) = keys_of t.
Proof. destruct t; try congruence; intros _ _; cbn; auto. rewrite map_map. reflexivity. Qed.

Lemma replace_get_key s (t : qt) k : t <> QScalar -> t <> QBool ->
  get_key K_eq (replace_scalar s t) (Key k) = bind (get_key K_eq t (Key k)) (fun qs => Ok (replace_scalar s (fst qs), snd qs * size s)).
Proof.
  destruct t; try congruence; intros _ _; cbn [replace_scalar get_key]; auto.
  - destruct (index_of K_eq k times); [|reflexivity]. cbn. rewrite replace_size. do 2 f_equal. ring.
  - destruct (index_of K_eq k keys); [|reflexivity]. cbn. rewrite replace_size. do 2 f_equal. ring.
  - assert (Hp : pget K_eq (map (fun x => (fst x, replace_scalar s (snd x))) items) k = option_map (replace_scalar s) (pget K_eq items k)).
    { induction items as [|[k' q] l IH]; [reflexivity|]. cbn. destruct (K_eq k' k); [reflexivity|exact IH]. }
    assert (Hd : dict_start K_eq k (map (fun x => (fst x, replace_scalar s (snd x))) items) = dict_start K_eq k items * size s).
    { induction items as [|[k' q] l IH]; [reflexivity|]. cbn. destruct (K_eq k' k); [reflexivity|]. rewrite replace_size, IH by (cbn in Hp; destruct (K_eq k' k); congruence). lia. }
    rewrite Hp, Hd. destruct (pget K_eq items k); reflexivity.
Qed.

Lemma skipn_flat_map {R W} (g : R -> list W) n : (forall x, length (g x) = n) -> forall m rows, skipn (m * n) (flat_map g rows) = flat_map g (skipn m rows).
Proof.
  intros Hg. induction m as [|m IH]; intros rows; [reflexivity|]. destruct rows as [|x l]; [now rewrite skipn_nil|].
  cbn [flat_map skipn]. rewrite <- IH. rewrite <- (Hg x) at 1. replace (S m * length (g x)) with (length (g x) + m * n) by (cbn; rewrite Hg; lia).
  rewrite <- skipn_add. now destruct (firstn_skipn_app (g x) (flat_map g l) _ eq_refl) as [_ ->].
Qed.
Lemma firstn_flat_map {R W} (g : R -> list W) n : (forall x, length (g x) = n) -> forall m rows, firstn (m * n) (flat_map g rows) = flat_map g (firstn m rows).
Proof.
  intros Hg. induction m as [|m IH]; intros rows; [reflexivity|]. destruct rows as [|x l]; [now rewrite firstn_nil|].
  cbn [flat_map firstn]. rewrite <- IH. replace (S m * n) with (length (g x) + m * n) by (cbn; rewrite Hg; lia). now rewrite firstn_app_2.
Qed.

Lemma replace_rows {R W} s (g : R -> list W) : (forall x, length (g x) = size s) -> (forall k, get_key K_eq s (Key k) = Err TypeError) ->
  forall p (t : qt) rows, named p ->
  path_rows K_eq (replace_scalar s t) p (flat_map g rows) = bind (path_rows K_eq t p rows) (fun r => Ok (flat_map g r)).
Proof.
  intros Hg Hs. induction p as [|k p IH]; intros t rows Hnm; [reflexivity|]. destruct k as [k|ix]; [|destruct Hnm].
  assert (Hc : (t = QScalar \/ t = QBool) \/ (t <> QScalar /\ t <> QBool)) by (destruct t; auto; right; split; discriminate).
  cbn [path_rows]. destruct Hc as [[-> | ->]|[N1 N2]]; [cbn [replace_scalar]; now rewrite Hs..|].
  unfold getitem_rows. rewrite replace_get_key by auto.
  destruct (get_key K_eq t (Key k)) as [[q o]|e]; cbn [bind fst snd]; [|reflexivity].
  rewrite replace_size.
  destruct t; try congruence; cbn [replace_scalar bind]; rewrite (skipn_flat_map g (size s)), (firstn_flat_map g (size s)) by auto; apply IH; auto.
Qed.

End Proofs.

(** Moments. *)
Lemma moments_bottom_nth {V} r (ev : V -> list V) d rows : forall m j, j < r ->
  nth_error (moments_rows r ev d true rows) (m * r + j) = option_map (map (map (fun v => nth j (ev v) d))) (nth_error rows m).
Proof.
  unfold moments_rows. induction rows as [|row rows IH]; intros m j Hj.
  - cbn. destruct (m * r + j), m; reflexivity.
  - cbn [flat_map]. destruct m as [|m].
    + cbn [Nat.mul Nat.add nth_error option_map]. rewrite nth_error_app1 by (rewrite map_length, seq_length; lia).
      rewrite nth_error_map. rewrite (nth_error_nth' (seq 0 r) 0) by (rewrite seq_length; lia). rewrite seq_nth by lia. reflexivity.
    + rewrite nth_error_app2 by (rewrite map_length, seq_length; cbn; lia). rewrite map_length, seq_length.
      replace (S m * r + j - r) with (m * r + j) by (cbn; lia). rewrite IH by auto. reflexivity.
Qed.
Lemma moments_top_nth {V} r (ev : V -> list V) d rows : forall m j, j < r -> m < length rows ->
  nth_error (moments_rows r ev d false rows) (j * length rows + m) = option_map (map (map (fun v => nth j (ev v) d))) (nth_error rows m).
Proof.
  unfold moments_rows.
  assert (G : forall r a m j, j < r -> m < length rows ->
    nth_error (flat_map (fun j => map (fun row => map (map (fun v => nth j (ev v) d)) row) rows) (seq a r)) (j * length rows + m)
    = option_map (map (map (fun v => nth (a + j) (ev v) d))) (nth_error rows m)).
  { clear r. induction r as [|r IH]; intros a m j Hj Hm; [lia|]. cbn [seq flat_map]. destruct j as [|j].
    - cbn [Nat.mul Nat.add]. rewrite nth_error_app1 by (rewrite map_length; lia). rewrite nth_error_map. now rewrite Nat.add_0_r.
    - rewrite nth_error_app2 by (rewrite map_length; cbn; lia). rewrite map_length.
      replace (S j * length rows + m - length rows) with (j * length rows + m) by (cbn; lia). rewrite IH by lia. now rewrite Nat.add_succ_comm. }
  intros. now apply G.
Qed.
