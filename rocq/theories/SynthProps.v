(** Properties of the synthetic simulation: C62, C85. *)
From Verif Require Import Base BaseFacts SynthModel.
From Coq Require Import Reals Lra.

(** ** Specification *)
(** Number of values a format declares. *)
Fixpoint declared (fmt : list qfmt) : nat :=
  match fmt with [] => 0 | q :: fmt' => prod (q_shape q) * q_times q * q_locs q + declared fmt' end.
(** Number of the location every value of the flat result belongs to, for [k] values per location. *)
Fixpoint loc_numbers (k : nat) (fmt : list qfmt) : list nat :=
  match fmt with
  | [] => []
  | q :: fmt' => concat (repeat (flat_map (fun i => repeat i k) (seq 0 (q_locs q))) (q_times q)) ++ loc_numbers k fmt'
  end.
(** All quantities have as many components and the same numbers of times and locations. *)
Definition uniform (fmt : list qfmt) : Prop :=
  forall p q, In p fmt -> In q fmt -> prod (q_shape p) = prod (q_shape q) /\ q_times p = q_times q /\ q_locs p = q_locs q.

(** ** Proofs *)
Section Facts.
Variable rvs : nat -> nat -> list R.
Variable nanf : Q.
Notation calculate := (calculate rvs nanf).

Lemma concat_repeat_length {A} (l : list A) n : length (concat (repeat l n)) = n * length l.
Proof. induction n; cbn; [reflexivity|]. now rewrite app_length, IHn. Qed.
Lemma locations_length z r q : length (locations z r q) = q_locs q * length r.
Proof.
  unfold locations. generalize 0 as a. generalize (q_locs q) as n. induction n; intros a; cbn; [reflexivity|].
  rewrite app_length, IHn. destruct z; [reflexivity|]. now rewrite map_length.
Qed.
Lemma values_length z r q : length (quantity_values z r q) = q_times q * (q_locs q * length r).
Proof. unfold quantity_values. now rewrite concat_repeat_length, locations_length. Qed.
Lemma pack_values z r fmt l : pack z r fmt = Ok l -> l = flat_map (quantity_values z r) fmt.
Proof. unfold pack. destruct fmt; [now intros [= <-]|]. destruct forallb; [now intros [= <-]|discriminate]. Qed.
Lemma pack_uniform z r fmt : uniform fmt -> pack z r fmt = Ok (flat_map (quantity_values z r) fmt).
Proof.
  intros U. unfold pack. destruct fmt as [|q0 fmt]; [reflexivity|].
  replace (forallb _ _) with true; [reflexivity|]. symmetry. apply forallb_forall. intros q Hq.
  destruct (U q q0 Hq (or_introl eq_refl)) as (_ & T & L). unfold arr_shape. rewrite T, L.
  destruct list_eq_dec; [reflexivity|contradiction].
Qed.
Lemma pack_shape z z' r r' fmt : length r = length r' ->
  match pack z r fmt with Ok _ => exists l, pack z' r' fmt = Ok l | Err e => pack z' r' fmt = Err e end.
Proof. intros E. unfold pack. destruct fmt; [eauto|]. rewrite E. destruct forallb; eauto. Qed.
Lemma flat_length z r fmt : length (flat_map (quantity_values z r) fmt)
  = fold_right (fun q n => q_times q * (q_locs q * length r) + n) 0 fmt.
Proof. induction fmt as [|q fmt IH]; [reflexivity|]. cbn. now rewrite app_length, values_length, IH. Qed.
Lemma declared_uniform fmt k : (forall q, In q fmt -> prod (q_shape q) = k) ->
  fold_right (fun q n => q_times q * (q_locs q * k) + n) 0 fmt = declared fmt.
Proof.
  induction fmt as [|q fmt IH]; intros H; [reflexivity|]. cbn. rewrite IH by (intros p Hp; apply H; now right).
  rewrite (H q (or_introl eq_refl)). lia.
Qed.

(** What a successful call returned. *)
Lemma calculate_ok s fmt fs cs seed s' f c : calculate s fmt fs cs seed = (s', Ok (f, c)) ->
  exists q0 fmt', fmt = q0 :: fmt' /\
    let x := rvs seed (prod (q_shape q0)) in
    (cs = 0%R -> f = flat_map (quantity_values true (map (fun v => sample_fn v fs) x)) fmt
                /\ c = flat_map (quantity_values true (repeat 0%R (length x))) fmt)
    /\ (cs <> 0%R -> f = flat_map (quantity_values false (map (fun v => sample_fn v fs) x)) fmt
                    /\ c = flat_map (quantity_values false (map (fun v => sample_fn v cs) x)) fmt).
Proof.
  unfold SynthModel.calculate. destruct fmt as [|q0 fmt']; [discriminate|]. unfold generate.
  destruct (negb _); [discriminate|]. intros H0. pose proof (f_equal snd H0) as H. cbn [snd] in H. clear H0. exists q0, fmt'. split; [reflexivity|]. cbv zeta.
  set (x := rvs seed (prod (q_shape q0))) in *. rewrite map_length in H.
  destruct (Req_EM_T cs 0) as [E|E].
  - destruct (pack true (map _ x) _) as [f0|] eqn:P1; [|discriminate]. cbn [bind] in H.
    destruct (pack true (repeat 0%R _) _) as [c0|] eqn:P2; [|discriminate]. cbn [bind] in H. injection H as <- <-.
    apply pack_values in P1, P2. split; [now split|]. intros N. contradiction.
  - destruct (pack false (map (fun v => sample_fn v fs) x) _) as [f0|] eqn:P1; [|discriminate]. cbn [bind] in H.
    destruct (pack false (map (fun v => sample_fn v cs) x) _) as [c0|] eqn:P2; [|discriminate]. cbn [bind] in H. injection H as <- <-.
    apply pack_values in P1, P2. split; [contradiction|]. now split.
Qed.

Definition plus2 (a : list R) (n : list nat) : list R := map (fun p => fst p + INR (snd p))%R (combine a n).
Lemma plus2_app a a' n n' : length a = length n -> plus2 (a ++ a') (n ++ n') = plus2 a n ++ plus2 a' n'.
Proof.
  unfold plus2. intros E. rewrite <- map_app. f_equal. revert n E. induction a as [|x a IH]; intros [|m n] E; try discriminate; [reflexivity|].
  cbn. f_equal. apply IH. now injection E.
Qed.
Lemma plus2_const r i : plus2 r (repeat i (length r)) = map (fun x => x + INR i)%R r.
Proof. induction r as [|x r IH]; [reflexivity|]. cbn. unfold plus2 in *. f_equal. exact IH. Qed.
Lemma loc_len k a n : length (flat_map (fun i => repeat i k) (seq a n)) = n * k.
Proof. revert a. induction n; intros a; cbn; [reflexivity|]. now rewrite app_length, repeat_length, IHn. Qed.
Lemma locations_plus r q :
  locations false r q = plus2 (locations true r q) (flat_map (fun i => repeat i (length r)) (seq 0 (q_locs q))).
Proof.
  unfold locations. generalize 0 as a. generalize (q_locs q) as n. induction n; intros a; cbn [seq flat_map]; [reflexivity|].
  rewrite plus2_app by now rewrite repeat_length. rewrite plus2_const. now rewrite IHn.
Qed.
Lemma values_plus r q :
  quantity_values false r q = plus2 (quantity_values true r q)
    (concat (repeat (flat_map (fun i => repeat i (length r)) (seq 0 (q_locs q))) (q_times q))).
Proof.
  unfold quantity_values. rewrite locations_plus. set (a := locations true r q). set (n := flat_map _ _).
  assert (length a = length n) as E by (unfold a, n; now rewrite locations_length, loc_len).
  induction (q_times q) as [|t IH]; [reflexivity|]. cbn [repeat concat]. rewrite plus2_app by assumption. now rewrite <- IH.
Qed.
Lemma flat_plus r fmt :
  flat_map (quantity_values false r) fmt = plus2 (flat_map (quantity_values true r) fmt) (loc_numbers (length r) fmt).
Proof.
  induction fmt as [|q fmt IH]; [reflexivity|]. cbn [flat_map loc_numbers]. rewrite plus2_app, <- IH, <- values_plus; [reflexivity|].
  now rewrite values_length, concat_repeat_length, loc_len.
Qed.
End Facts.

(** C85: when all quantities have the same number of components, times and locations, a sample that is not turned into
    nan succeeds and fine and coarse result have exactly the declared number of values, the coarse one of the lowest level all zero. For the same seed the coarse result
    of a level is the fine result of the level whose step is its coarse step, unless that level is the lowest; against
    the lowest level every value is larger by the number of its location. *)
Theorem C85_shape rvs nanf s fmt fs cs seed : fmt <> [] -> uniform fmt -> (forall sd n, length (rvs sd n) = n) ->
  exists s', (calculate rvs nanf s fmt fs cs seed = (s', Err PyException) /\ (n_nans s' = S (n_nans s)))
          \/ exists f c, calculate rvs nanf s fmt fs cs seed = (s', Ok (f, c))
               /\ n_nans s' = n_nans s /\ length f = declared fmt /\ length c = declared fmt
               /\ (cs = 0%R -> forall v, In v c -> v = 0%R).
Proof.
  intros N U L. destruct fmt as [|q0 fmt']; [contradiction|]. set (fmt := q0 :: fmt') in *.
  destruct (calculate rvs nanf s fmt fs cs seed) as [s' r] eqn:E.
  assert (forall q, In q fmt -> prod (q_shape q) = prod (q_shape q0)) as P by (intros q Hq; apply (U q q0 Hq); now left).
  exists s'. destruct r as [[f c]|e].
  - right. exists f, c. split; [reflexivity|]. ands.
    + unfold calculate in E. unfold fmt in E. unfold generate in E. destruct (negb _); injection E as <- ?; [discriminate|reflexivity].
    + apply calculate_ok in E as (q & ft & Ef & A & B). injection Ef as <- <-. unfold fmt in *. destruct (Req_dec cs 0) as [Z|Z];
        [destruct (A Z) as [-> _]|destruct (B Z) as [-> _]]; rewrite flat_length, map_length, L; now apply declared_uniform.
    + apply calculate_ok in E as (q & ft & Ef & A & B). injection Ef as <- <-. unfold fmt in *. destruct (Req_dec cs 0) as [Z|Z];
        [destruct (A Z) as [_ ->]|destruct (B Z) as [_ ->]]; rewrite flat_length, ?repeat_length, ?map_length, L; now apply declared_uniform.
    + intros Z. apply calculate_ok in E as (q & ft & _ & A & _). destruct (A Z) as [_ ->]. intros v Hv.
      apply in_flat_map in Hv as (p & _ & Hv). apply in_concat in Hv as (l & Hl & Hv). apply repeat_spec in Hl as ->.
      apply in_flat_map in Hv as (i & _ & Hv). now apply repeat_spec in Hv.
  - left. unfold calculate in E. unfold fmt in E. unfold generate in E. destruct (negb _).
    + injection E as <- <-. split; reflexivity.
    + exfalso. apply (f_equal snd) in E. cbn [snd] in E. fold fmt in E. rewrite !pack_uniform in E by assumption. discriminate E.
Qed.
Print Assumptions C85_shape.

Theorem C85_telescopes rvs nanf s1 s2 s1' s2' fmt h fs cs seed fl cl fu cu :
  calculate rvs nanf s1 fmt h cs seed = (s1', Ok (fl, cl)) -> calculate rvs nanf s2 fmt fs h seed = (s2', Ok (fu, cu)) -> h <> 0%R ->
  (cs <> 0%R -> cu = fl)
  /\ (cs = 0%R -> exists q0 fmt', fmt = q0 :: fmt' /\ cu = plus2 fl (loc_numbers (length (rvs seed (prod (q_shape q0)))) fmt)).
Proof.
  intros E1 E2 H. apply calculate_ok in E1 as (q & ft & -> & A1 & B1). apply calculate_ok in E2 as (q' & ft' & E & A2 & B2).
  injection E as <- <-. destruct (B2 H) as [_ ->]. split; intros C.
  - destruct (B1 C) as [-> _]. reflexivity.
  - exists q, ft. split; [reflexivity|]. destruct (A1 C) as [-> _]. rewrite flat_plus. now rewrite map_length.
Qed.
Print Assumptions C85_telescopes.

(** The format of the class: twenty-four values, three levels with steps 1, 1/2 and 1/4. *)
Definition ex_rvs (seed n : nat) : list R := map (fun i => INR (seed + i)) (seq 0 n).
Lemma ex_rvs_len seed n : length (ex_rvs seed n) = n.
Proof. unfold ex_rvs. now rewrite map_length, seq_length. Qed.
Example C85_ex :
  uniform result_format /\ declared result_format = 24
  /\ exists f c f' c',
       calculate ex_rvs 0 (mkSt 0 0) result_format (1/2) 1 7 = (mkSt 0 1, Ok (f, c))
       /\ calculate ex_rvs 0 (mkSt 0 1) result_format (1/4) (1/2) 7 = (mkSt 0 2, Ok (f', c'))
       /\ c' = f /\ length f = 24.
Proof.
  assert (uniform result_format) as U by (intros p q [<-|[<-|[]]] [<-|[<-|[]]]; auto).
  split; [exact U|]. split; [reflexivity|].
  destruct (C85_shape ex_rvs 0 (mkSt 0 0) result_format (1/2)%R 1%R 7) as (s1 & [[E N]|(f & c & E & N & L & _)]);
    [discriminate|exact U|exact ex_rvs_len|exfalso|].
  { unfold calculate in E. cbn -[Req_EM_T pack] in E. injection E as <- _. discriminate. }
  destruct (C85_shape ex_rvs 0 (mkSt 0 1) result_format (1/4)%R (1/2)%R 7) as (s2 & [[E' N']|(f' & c' & E' & N' & L' & _)]);
    [discriminate|exact U|exact ex_rvs_len|exfalso|].
  { unfold calculate in E'. cbn -[Req_EM_T pack] in E'. injection E' as <- _. discriminate. }
  exists f, c, f', c'.
  assert (s1 = mkSt 0 1) as -> by (unfold calculate in E; cbn -[Req_EM_T pack] in E; now injection E as <- _).
  assert (s2 = mkSt 0 2) as -> by (unfold calculate in E'; cbn -[Req_EM_T pack] in E'; now injection E' as <- _).
  ands; auto. apply (C85_telescopes _ _ _ _ _ _ _ _ _ _ _ _ _ _ _ E E'); lra.
Qed.

(** C62 in full is false. The coarse result of level 1 differs from the fine result of level 0 in the format of the
    class itself, and a quantity of another shape than the first does not get the declared number of values. *)
Theorem C62_refuted :
  (exists rvs seed s s1 s2 f c f' c', (forall sd n, length (rvs sd n) = n)
     /\ calculate rvs 0 s result_format 1 0 seed = (s1, Ok (f, c))
     /\ calculate rvs 0 s1 result_format (1/2) 1 seed = (s2, Ok (f', c')) /\ c' <> f)
  /\ (exists rvs seed s s1 fmt f c, (forall sd n, length (rvs sd n) = n)
     /\ calculate rvs 0 s fmt 1 0 seed = (s1, Ok (f, c)) /\ length f <> declared fmt /\ length c <> declared fmt).
Proof.
  split.
  - assert (uniform result_format) as U by (intros p q [<-|[<-|[]]] [<-|[<-|[]]]; auto).
    destruct (C85_shape ex_rvs 0 (mkSt 0 0) result_format 1%R 0%R 0) as (s1 & [[E N]|(f & c & E & N & L & _)]);
      [discriminate|exact U|exact ex_rvs_len|exfalso|].
    { unfold calculate in E. cbn -[Req_EM_T pack] in E. injection E as <- _. discriminate. }
    assert (s1 = mkSt 0 1) as -> by (unfold calculate in E; cbn -[Req_EM_T pack] in E; now injection E as <- _).
    destruct (C85_shape ex_rvs 0 (mkSt 0 1) result_format (1/2)%R 1%R 0) as (s2 & [[E' N']|(f' & c' & E' & N' & L' & _)]);
      [discriminate|exact U|exact ex_rvs_len|exfalso|].
    { unfold calculate in E'. cbn -[Req_EM_T pack] in E'. injection E' as <- _. discriminate. }
    exists ex_rvs, 0, (mkSt 0 0), (mkSt 0 1), s2, f, c, f', c'. split; [exact ex_rvs_len|]. split; [exact E|]. split; [exact E'|].
    destruct (C85_telescopes _ _ _ _ _ _ _ _ _ _ _ _ _ _ _ E E' R1_neq_R0) as [_ T].
    destruct (T eq_refl) as (q0 & fmt' & Ef & ->). injection Ef as <- _. clear - L. rewrite ex_rvs_len. intros H.
    destruct f as [|a [|b [|d f]]]; try (cbn in L; discriminate L). unfold plus2 in H. cbn -[INR] in H.
    injection H as _ _ H _. change (INR 1) with 1%R in H. lra.
  - destruct (C85_shape ex_rvs 0 (mkSt 0 0) [mkQ [1] 1 1] 1%R 0%R 0) as (s1 & _); [discriminate| |exact ex_rvs_len|].
    { intros p q [<-|[]] [<-|[]]. auto. }
    set (fmt := [mkQ [1] 1 1; mkQ [2] 1 1]).
    destruct (calculate ex_rvs 0 (mkSt 0 0) fmt 1 0 0) as [s2 [[f c]|e]] eqn:E.
    + exists ex_rvs, 0, (mkSt 0 0), s2, fmt, f, c. split; [exact ex_rvs_len|]. split; [exact E|].
      apply calculate_ok in E as (q & ft & Ef & A & _). injection Ef as <- <-. destruct (A eq_refl) as [-> ->]. split; cbn; discriminate.
    + exfalso. unfold calculate in E. cbn -[Req_EM_T] in E. destruct (Req_EM_T 0 0); [|contradiction].
      cbn in E. discriminate E.
Qed.
Print Assumptions C62_refuted.

(** C62, the part that holds for every format: how many values are returned, and the consistency of the levels above the
    lowest. Missing: quantities with other numbers of components than the first; the lowest level. *)
Theorem C62_partial rvs nanf s1 s2 s1' s2' fmt h fs cs seed fl cl fu cu :
  (forall sd n, length (rvs sd n) = n) ->
  calculate rvs nanf s1 fmt h cs seed = (s1', Ok (fl, cl)) -> calculate rvs nanf s2 fmt fs h seed = (s2', Ok (fu, cu)) ->
  h <> 0%R -> cs <> 0%R ->
  cu = fl /\ length fl = length cl /\ length fu = length cu
  /\ ((forall p q, In p fmt -> In q fmt -> prod (q_shape p) = prod (q_shape q)) -> length fl = declared fmt).
Proof.
  intros L E1 E2 H C. destruct (C85_telescopes _ _ _ _ _ _ _ _ _ _ _ _ _ _ _ E1 E2 H) as [T _]. pose proof (T C) as ->.
  apply calculate_ok in E1 as (q & ft & -> & _ & B1). apply calculate_ok in E2 as (q' & ft' & E & _ & B2). injection E as <- <-.
  destruct (B1 C) as [-> ->]. destruct (B2 H) as [-> _]. rewrite !flat_length, !map_length. ands; auto.
  intros P. rewrite L. apply declared_uniform. intros p Hp. apply P; [exact Hp|now left].
Qed.
Print Assumptions C62_partial.
Example C62_partial_ex :
  exists f c f' c',
       calculate ex_rvs 0 (mkSt 0 0) result_format (1/2) 1 7 = (mkSt 0 1, Ok (f, c))
       /\ calculate ex_rvs 0 (mkSt 0 1) result_format (1/4) (1/2) 7 = (mkSt 0 2, Ok (f', c'))
       /\ (1/2 <> 0)%R /\ (1 <> 0)%R.
Proof. destruct C85_ex as (_ & _ & f & c & f' & c' & A & B & _). exists f, c, f', c'. ands; auto; lra. Qed.
