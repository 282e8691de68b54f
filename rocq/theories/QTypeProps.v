(** Structured quantity types: C30, C31, C32, C33 with the guarded forms C65 and C66. *)
From Coq Require Import String Ascii.
From Verif Require Import Base BaseFacts QTypeModel QTypeSpec QTypeProofs.

(** C30 (tiling). FULL STATEMENT: for every structured type, accessing the keys one after the other selects
    consecutive pieces of the flattened result which cover it. False for arrays whose parts have a size other
    than one (see C30_tiling_refuted; such types arise from [moments]). Proved here for one level of every
    other type, whatever its parts are. *)
Theorem C30_tiling_partial : forall (K : Type) (K_eq : forall a b : K, {a = b} + {a <> b}) (t : qtype K), top_ok t ->
  exists ns : list nat,
    map (fun k => bind (path_type K_eq t [k]) (fun q => Ok (size q))) (keys_of t) = map Ok ns
    /\ list_sum ns = size t
    /\ forall R (rows : list R), length rows = size t ->
         map (fun k => getitem_rows K_eq t k rows) (keys_of t) = map Ok (cut ns rows).
Proof.
  intros K K_eq t H. exists (sub_sizes t). destruct (tile K_eq t H) as [H1 H2]. ands; auto. now apply sub_sizes_sum.
Qed.

(** Type of the moments of a vector: [replace_scalar] puts an array below an array. Every item access fails. *)
Theorem C30_tiling_refuted : exists (t : qtype string) (k : key string) (rows : list nat),
  t = moments_type 2 true (QArray [2] QScalar) /\ In k (keys_of t) /\ length rows = size t
  /\ getitem_rows string_dec t k rows = Err ValueError.
Proof. exists (QArray [2] (QArray [2] QScalar)), (at_index [0]), (seq 0 4). ands; try reflexivity. now left. Qed.

(** C65: for types with distinct keys whose arrays hold parts of size one, nested in any way, the full paths in
    declared order read each number of the flattened result exactly once, in order. *)
Theorem C65_paths_read_all : forall (K : Type) (K_eq : forall a b : K, {a = b} + {a <> b}) (t : qtype K) R (rows : list R),
  wf t -> length rows = size t ->
  length (leaves t) = size t /\ map (fun p => path_rows K_eq t p rows) (leaves t) = map (fun r => Ok [r]) rows.
Proof. intros K K_eq t R rows Hw Hl. split; [apply leaves_length|]. now apply leaf_rows. Qed.

(** C31: a declared format gives a root type whose paths read, number by number, what a simulation wrote in the
    declared order. *)
Theorem C31_declared_paths : forall (K : Type) (K_eq : forall a b : K, {a = b} + {a <> b}) (fmt : list (spec K)),
  good_format fmt -> exists t, root_type K_eq fmt = Ok t /\ size t = length (declared fmt)
    /\ forall R (rows : list R) i d r, length rows = size t -> nth_error (declared fmt) i = Some d -> nth_error rows i = Some r ->
         path_rows K_eq t (declared_path d) rows = Ok [r].
Proof.
  intros K K_eq fmt Hg. exists (QDict (map (fun s => (sp_name s, type_of_spec s)) fmt)).
  split; [now apply root_type_good|].
  split; [now rewrite <- leaves_length, leaves_declared, map_length|].
  intros R rows i d r Hl Hd Hr. pose proof (leaf_rows K_eq _ (root_wf _ Hg) rows Hl) as H.
  rewrite leaves_declared, map_map in H. apply (f_equal (fun l => nth_error l i)) in H.
  rewrite !nth_error_map, Hd, Hr in H. cbn [option_map] in H. congruence.
Qed.

(** C32. FULL STATEMENT: building a dictionary, time series, field or array quantity and accessing part k gives
    the type and the samples of part k. False for arrays of parts of size other than one
    (C32_array_refuted, where every item access raises ValueError); proved for the rest. *)
Theorem C66_parts_come_back : forall (K : Type) (K_eq : forall a b : K, {a = b} + {a <> b}) R (parts : list (K * part K R)) t rows,
  NoDup (map fst parts) -> sized (map snd parts) -> coherent (map snd parts) ->
  (q_dict K_eq parts = Ok (t, rows) \/ q_times parts = Ok (t, rows) \/ q_field K_eq parts = Ok (t, rows)) ->
  forall k x, In (k, x) parts -> path_type K_eq t [Key k] = Ok (p_type x) /\ getitem_rows K_eq t (Key k) rows = Ok (p_rows x).
Proof.
  intros K K_eq R parts t rows Hn Hs Hc H k x Hin.
  assert (G : map (fun x => path_type K_eq t [Key (fst x)]) parts = map (fun x => Ok (p_type (snd x))) parts
    /\ map (fun x => getitem_rows K_eq t (Key (fst x)) rows) parts = map (fun x => Ok (p_rows (snd x))) parts).
  { destruct H as [H|[H|H]]; [now apply (q_dict_parts K_eq parts)|now apply (q_times_parts K_eq parts)|now apply (q_field_parts K_eq parts)]. }
  destruct G as [G1 G2]. destruct (In_nth_error _ _ Hin) as [i Hi].
  apply (f_equal (fun l => nth_error l i)) in G1. apply (f_equal (fun l => nth_error l i)) in G2.
  rewrite !nth_error_map, Hi in G1. rewrite !nth_error_map, Hi in G2. cbn [option_map fst snd] in *. split; congruence.
Qed.
Theorem C32_array_partial : forall (K : Type) (K_eq : forall a b : K, {a = b} + {a <> b}) R shape (parts : list (part K R)) t rows,
  sized parts -> coherent parts -> length parts = prod shape -> Forall (fun x => size (p_type x) = 1) parts ->
  q_array shape parts = Ok (t, rows) ->
  forall i ix x, nth_error (indices shape) i = Some ix -> nth_error parts i = Some x ->
    path_type K_eq t [at_index ix] = Ok (p_type x) /\ getitem_rows K_eq t (at_index ix) rows = Ok (p_rows x).
Proof.
  intros K K_eq R shape parts t rows Hs Hc Hl H1 H i ix x Hi Hx.
  destruct (q_array_parts K_eq shape parts t rows Hs Hc Hl H1 H) as [G1 G2].
  apply (f_equal (fun l => nth_error l i)) in G1. apply (f_equal (fun l => nth_error l i)) in G2.
  rewrite !nth_error_map, Hi, Hx in G1. rewrite !nth_error_map, Hi, Hx in G2. cbn [option_map] in *. split; congruence.
Qed.
(** All array items of all arrays of larger parts are unreachable. *)
Theorem C32_array_refuted : forall (K : Type) (K_eq : forall a b : K, {a = b} + {a <> b}) R shape (parts : list (part K R)) t rows n ix,
  sized parts -> coherent parts -> length parts = prod shape -> parts <> [] -> Forall (fun x => size (p_type x) = n) parts -> n <> 1 ->
  q_array shape parts = Ok (t, rows) -> In ix (indices shape) -> getitem_rows K_eq t (at_index ix) rows = Err ValueError.
Proof. intros K K_eq R shape parts t rows n ix. apply q_array_big. Qed.

(** C66: parts of dictionaries, time series and fields come back whatever their size. The constructors succeed
    for parts that share one type object (a dictionary: for parts of scalars). *)
Theorem C66_constructors_succeed : forall (K : Type) (K_eq : forall a b : K, {a = b} + {a <> b}) R (parts : list (K * part K R)) q,
  parts <> [] -> NoDup (map fst parts) ->
  (forall k x, In (k, x) parts -> p_type x = q) -> (forall k x y k', In (k, x) parts -> In (k', y) parts -> p_oid x = p_oid y) ->
  (exists t, q_dict K_eq parts = Ok (t, concat_rows (map snd parts)))
  /\ (exists t, q_times parts = Ok (t, concat_rows (map snd parts)))
  /\ (exists t, q_field K_eq parts = Ok (t, concat_rows (map snd parts))).
Proof.
  intros K K_eq R parts q Hne Hn Hq Ho.
  assert (Hsame : same_qtype (map snd parts) = Ok q).
  { destruct parts as [|[k x] l]; [congruence|]. cbn. assert (E : forallb (fun y => Nat.eqb (p_oid x) (p_oid y)) (map snd l) = true).
    { apply forallb_forall. intros y Hy. apply in_map_iff in Hy as ([k' y'] & <- & Hy). cbn. apply Nat.eqb_eq.
      apply (Ho k x y' k'); [now left|now right]. }
    rewrite E. now rewrite (Hq k x) by now left. }
  set (args := map (fun x => (fst x, p_type (snd x))) parts).
  assert (Hargs : args = map (fun x => (fst x, q)) parts).
  { apply map_ext_in. intros [k x] H. cbn. now rewrite (Hq k x). }
  assert (Hna : NoDup (map fst args)) by (unfold args; rewrite map_map; exact Hn).
  assert (Hb : forall l : list (K * part K R), forallb (fun y => base_bool (snd y)) (map (fun x => (fst x, q)) l) = true \/ base_bool q = false).
  { intros l. destruct (base_bool q) eqn:E; [left|now right]. apply forallb_forall. intros y Hy. apply in_map_iff in Hy as (z & <- & _). exact E. }
  ands.
  - unfold q_dict, mk_dict. fold args. rewrite pdict_nodup by exact Hna. rewrite Hargs.
    destruct parts as [|x l]; [congruence|]. cbn [map snd].
    destruct (Hb l) as [->| ->]; rewrite ?Bool.orb_true_r; cbn; eauto.
  - unfold q_times. rewrite Hsame. cbn. eauto.
  - unfold q_field, mk_field. rewrite Hsame. cbn [bind]. fold args. rewrite pdict_nodup by exact Hna. rewrite Hargs.
    destruct parts as [|x l]; [congruence|]. cbn [map snd].
    assert (F : forallb (fun y : K * qtype K => Nat.eqb (size (snd y)) (size q)) ((fst x, q) :: map (fun x => (fst x, q)) l) = true).
    { apply forallb_forall. intros y Hy. cbn in Hy. destruct Hy as [<-|Hy]; [apply Nat.eqb_refl|].
      apply in_map_iff in Hy as (z & <- & _). apply Nat.eqb_refl. }
    rewrite F. cbn. eauto.
Qed.

(** C33: replacing the scalars by arrays of r numbers multiplies the size, keeps the keys, and puts the moments
    of row m at rows m*r .. m*r+r-1; access by names commutes with taking moments. *)
Theorem C33_replace_scalar : forall (K : Type) (K_eq : forall a b : K, {a = b} + {a <> b}) (t : qtype K) r,
  size (moments_type r true t) = size t * r
  /\ (t <> QScalar -> t <> QBool -> keys_of (moments_type r true t) = keys_of t)
  /\ forall V (ev : V -> list V) (d : V) rows,
       length (moments_rows r ev d true rows) = length rows * r
       /\ (forall m j, j < r -> nth_error (moments_rows r ev d true rows) (m * r + j)
              = option_map (map (map (fun v => nth j (ev v) d))) (nth_error rows m))
       /\ (forall p, named p -> path_rows K_eq (moments_type r true t) p (moments_rows r ev d true rows)
              = bind (path_rows K_eq t p rows) (fun rows' => Ok (moments_rows r ev d true rows'))).
Proof.
  intros K K_eq t r. unfold moments_type. split; [|split].
  - rewrite replace_size. cbn. now rewrite !Nat.mul_1_r.
  - intros. now apply replace_keys.
  - intros V ev d rows. ands.
    + unfold moments_rows. induction rows as [|x l IH]; [reflexivity|]. cbn [flat_map]. rewrite app_length, IH, map_length, seq_length. reflexivity.
    + intros m j Hj. now apply moments_bottom_nth.
    + intros p Hp. unfold moments_rows. apply replace_rows; auto.
      intros x. rewrite map_length, seq_length. cbn. now rewrite !Nat.mul_1_r.
Qed.
(** Moments on the surface: the j-th moment of row m is row j*M+m. *)
Theorem C33_moments_on_surface : forall V r (ev : V -> list V) (d : V) rows m j, j < r -> m < length rows ->
  nth_error (moments_rows r ev d false rows) (j * length rows + m) = option_map (map (map (fun v => nth j (ev v) d))) (nth_error rows m).
Proof. intros V r ev d rows m j. apply moments_top_nth. Qed.

(** Examples: a format with two quantities. *)
Open Scope string_scope.
Ltac distinct := repeat first [apply NoDup_nil | apply NoDup_cons; [cbn; intuition discriminate|] | split | exact I | reflexivity].
Definition demo_fmt : list (spec string) :=
  [mkSpec "length" [2; 1] ["1.0"; "2.0"] ["10"; "20"]; mkSpec "width" [2] ["1.0"] ["30"; "40"; "50"]].
Example demo_fmt_good : good_format demo_fmt.
Proof.
  unfold good_format, demo_fmt. split; [discriminate|]. split.
  - repeat constructor; cbn; intuition discriminate.
  - repeat constructor; cbn; intuition discriminate.
Qed.
Example demo_fmt_access : exists t, root_type string_dec demo_fmt = Ok t /\ size t = 14
  /\ nth_error (declared demo_fmt) 7 = Some ("length", "2.0", "20", [1; 0])
  /\ path_rows string_dec t [Key "length"; Key "2.0"; Key "20"; at_index [1; 0]] (seq 100 14) = Ok [107]
  /\ path_rows string_dec t [Key "width"; Key "1.0"; Key "40"] (seq 100 14) = Ok [110; 111]
  /\ wf t /\ top_ok t.
Proof.
  eexists. split; [reflexivity|]. ands; try reflexivity.
  - cbn. distinct.
  - cbn. distinct.
Qed.
Example demo_parts : exists (parts : list (string * part string nat)) t rows,
  NoDup (map fst parts) /\ sized (map snd parts) /\ coherent (map snd parts) /\ q_times parts = Ok (t, rows)
  /\ getitem_rows string_dec t (Key "b") rows = Ok [3; 4].
Proof.
  exists [("a", mkPart 7 (QArray [2] QScalar) [1; 2]); ("b", mkPart 7 (QArray [2] QScalar) [3; 4])], (QTimes ["a"; "b"] (QArray [2] QScalar)), [1; 2; 3; 4].
  ands; try reflexivity.
  - repeat constructor; cbn; intuition discriminate.
  - repeat constructor.
  - intros x y Hx Hy _. cbn in Hx, Hy. intuition subst; reflexivity.
Qed.
Example demo_array : exists (parts : list (part string nat)) t rows,
  sized parts /\ coherent parts /\ length parts = prod [2; 2] /\ Forall (fun x => size (p_type x) = 1) parts
  /\ q_array [2; 2] parts = Ok (t, rows) /\ getitem_rows string_dec t (at_index [1; 0]) rows = Ok [12].
Proof.
  exists (map (fun i => mkPart 3 QScalar [i]) (seq 10 4)), (QArray [2; 2] QScalar), (seq 10 4). ands; try reflexivity.
  - repeat constructor.
  - intros x y Hx Hy _. cbn in Hx, Hy. intuition subst; reflexivity.
  - repeat constructor.
Qed.
Example demo_big_array : exists (parts : list (part string nat)) t rows,
  sized parts /\ coherent parts /\ length parts = prod [2] /\ parts <> [] /\ Forall (fun x => size (p_type x) = 2) parts
  /\ q_array [2] parts = Ok (t, rows) /\ In [1] (indices [2]) /\ getitem_rows string_dec t (at_index [1]) rows = Err ValueError.
Proof.
  exists (map (fun i => mkPart 3 (QArray [2] QScalar) [i; 0]) (seq 10 2)), (QArray [2] (QArray [2] QScalar)), [10; 0; 11; 0].
  ands; try reflexivity.
  - repeat constructor.
  - intros x y Hx Hy _. cbn in Hx, Hy. intuition subst; reflexivity.
  - discriminate.
  - repeat constructor.
  - cbn. auto.
Qed.
Example demo_moments : moments_rows 3 (fun v => [1; v; v * v]) 0 true [[[2; 3]]; [[4; 5]]]
  = [[[1; 1]]; [[2; 3]]; [[4; 9]]; [[1; 1]]; [[4; 5]]; [[16; 25]]]
  /\ size (moments_type 3 true (QTimes ["1"; "2"] QScalar)) = 6 /\ @named string [Key "2"].
Proof. ands; reflexivity. Qed.

Print Assumptions C30_tiling_partial.
Print Assumptions C30_tiling_refuted.
Print Assumptions C65_paths_read_all.
Print Assumptions C31_declared_paths.
Print Assumptions C66_parts_come_back.
Print Assumptions C32_array_partial.
Print Assumptions C32_array_refuted.
Print Assumptions C66_constructors_succeed.
Print Assumptions C33_replace_scalar.
Print Assumptions C33_moments_on_surface.
