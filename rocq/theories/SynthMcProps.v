(** The multilevel estimate for the synthetic simulation: C206, C207. *)
From Coq Require Import Reals Lra.
From Verif Require Import Base BaseFacts QTypeModel QuantityModel QuantitySpec NumModel NumFacts EstimateModel EstimateSpec EstimateProofs EstimateFacts EstimateProps.
From Verif Require Import ProbSpec ProbFacts ProbProps SynthModel SynthProps ShapeProps.
Local Open Scope R_scope.

(** * Specification *)
Section Spec.
(** Values drawn for a seed and a size; states of the class when the sample of a level with a seed is calculated. *)
Variable rvs : nat -> nat -> list R.
Variable states : nat -> nat -> synth_st.
(** Result format, steps of the levels, numbers of samples, distribution of the seeds. *)
Variable fmt : list qfmt.
Variable hs : list R.
Variable ns : list nat.
Variable seeds : dist nat.
Definition width : nat := SynthModel.prod (q_shape (hd (mkQ [] 0 0) fmt)).
(** The number drawn for component m, without numerical error. *)
Definition drawn (m seed : nat) : R := nth (m mod width) (rvs seed width) 0.
(** Numerical error of the simulation for the step one. *)
Definition noise (m seed : nat) : R := sqrt (1 / 10000 + Rabs (drawn m seed)).
Definition step (l : nat) : R := nth l hs 0.
(** Steps of the coarse simulations: 0 on level 0. *)
Definition coarse_step (l : nat) : R := if Nat.eqb l 0 then 0 else step (l - 1).
(** A stored sample: fine and coarse value of each component. *)
Definition stored_pair (l : nat) (r : res (list R * list R)) : rsample :=
  match r with Ok (f, c) => map (fun p => if Nat.eqb l 0 then [fst p] else [fst p; snd p]) (combine f c) | Err _ => [] end.
(** The simulation without artificial failures as a distribution of samples, and the campaign. *)
Definition synth_law (l : nat) : dist rsample :=
  map (fun o => (fst o, stored_pair l (snd (calculate rvs 0 (states l (snd o)) fmt (step l) (coarse_step l) (snd o))))) seeds.
Definition synth_campaign : list (dist rsample * nat) := map (fun l => (synth_law l, nth l ns 0%nat)) (seq 0 (length hs)).
End Spec.

(** * Facts *)
Lemma flat_map_flat {A B C} (g : B -> list C) (f : A -> list B) l : flat_map g (flat_map f l) = flat_map (fun x => flat_map g (f x)) l.
Proof. induction l as [|x l IH]; [reflexivity|]. cbn [flat_map]. now rewrite flat_map_app, IH. Qed.
Definition blocks (fmt : list qfmt) : list nat := flat_map (fun q => concat (repeat (seq 0 (q_locs q)) (q_times q))) fmt.
Definition shift (zero : bool) (r : list R) (i : nat) : list R := if zero then r else map (fun x => x + INR i) r.
Lemma values_blocks zero r fmt : flat_map (quantity_values zero r) fmt = flat_map (shift zero r) (blocks fmt).
Proof.
  unfold blocks. rewrite flat_map_flat. apply flat_map_ext. intros q. unfold quantity_values, locations. induction (q_times q) as [|n IH]; [reflexivity|].
  cbn [repeat concat]. rewrite flat_map_app, IH. reflexivity.
Qed.
Lemma shift_length zero r i : length (shift zero r i) = length r. Proof. destruct zero; [reflexivity|apply map_length]. Qed.
Lemma values_nth zero r fmt m : (m < length (flat_map (quantity_values zero r) fmt))%nat ->
  nth m (flat_map (quantity_values zero r) fmt) 0 = nth (m mod length r) r 0 + (if zero then 0 else INR (nth (m / length r) (blocks fmt) 0%nat)).
Proof.
  rewrite values_blocks. rewrite (flat_len _ (length r)) by (intros; apply shift_length). intros H.
  assert (K : length r <> O) by (intros E; rewrite E in H; lia). pose proof (Nat.mod_upper_bound m (length r) K) as Hm.
  rewrite (Nat.div_mod_eq m (length r)) at 1. rewrite Nat.mul_comm.
  rewrite (flat_nth 0 (shift zero r) (length r) 0%nat) by (try (intros; apply shift_length); auto; apply Nat.div_lt_upper_bound; lia).
  destruct zero; cbn [shift]; [lra|]. rewrite (nth_indep _ 0 (0 + INR (nth (m / length r) (blocks fmt) 0%nat))) by (rewrite map_length; exact Hm).
  rewrite (map_nth (fun x => x + INR (nth (m / length r) (blocks fmt) 0%nat)) r 0). reflexivity.
Qed.
Lemma loc_blocks_list k fmt : loc_numbers k fmt = flat_map (fun i => repeat i k) (blocks fmt).
Proof.
  induction fmt as [|q fmt IH]; [reflexivity|]. cbn [loc_numbers]. unfold blocks. cbn [flat_map]. rewrite flat_map_app. f_equal; [|exact IH].
  induction (q_times q) as [|n IHn]; [reflexivity|]. cbn [repeat concat]. rewrite flat_map_app, IHn. reflexivity.
Qed.
Lemma loc_blocks k fmt m : k <> O -> (m < length (blocks fmt) * k)%nat -> nth m (loc_numbers k fmt) 0%nat = nth (m / k) (blocks fmt) 0%nat.
Proof.
  intros K H. rewrite loc_blocks_list. rewrite (Nat.div_mod_eq m k) at 1. rewrite Nat.mul_comm. pose proof (Nat.mod_upper_bound m k K) as Hm.
  rewrite (flat_nth 0%nat (fun i => repeat i k) k 0%nat); [|intros; apply repeat_length|apply Nat.div_lt_upper_bound; lia|exact Hm].
  rewrite (nth_indep _ 0%nat (nth (m / k) (blocks fmt) 0%nat)) by (rewrite repeat_length; exact Hm). apply nth_repeat.
Qed.
Section Synth.
Variable rvs : nat -> nat -> list R.
Variable fmt : list qfmt.
Hypothesis Hfmt : fmt <> [].
Hypothesis Hun : uniform fmt.
Hypothesis Hrvs : forall sd n, length (rvs sd n) = n.
Notation drawn := (drawn rvs fmt).
Lemma synth_values st fs cs seed m : (m < declared fmt)%nat ->
  exists f c, let i := nth m (loc_numbers (width fmt) fmt) 0%nat in snd (calculate rvs 0 st fmt fs cs seed) = Ok (f, c) /\ length f = declared fmt /\ length c = declared fmt
    /\ (cs = 0 -> nth m f 0 = sample_fn (drawn m seed) fs /\ nth m c 0 = 0)
    /\ (cs <> 0 -> nth m f 0 = sample_fn (drawn m seed) fs + INR i /\ nth m c 0 = sample_fn (drawn m seed) cs + INR i).
Proof.
  intros Hm. destruct (C85_shape rvs 0 st fmt fs cs seed Hfmt Hun Hrvs) as (s' & [[E N]|(f & c & E & _ & Lf & Lc & _)]).
  - exfalso. destruct fmt as [|q0 fmt']; [contradiction|]. unfold calculate, generate in E.
    match type of E with context [Qle_bool 0 ?r] => assert (Q : Qle_bool 0 r = true) end.
    { apply Qle_bool_iff. unfold Qdiv. apply Qmult_le_0_compat; [unfold Qle, inject_Z; cbn [Qnum Qden]; lia|]. apply Qinv_le_0_compat. unfold Qle, Qplus, inject_Z. cbn [Qnum Qden]. lia. }
    rewrite Q in E. cbn [negb] in E. apply (f_equal fst) in E. cbn [fst] in E. rewrite <- E in N. cbn in N. lia.
  - exists f, c. pose proof E as E2. apply calculate_ok in E2 as (q0 & fmt' & Ef & A & B). rewrite E. cbn [snd].
    set (x := rvs seed (SynthModel.prod (q_shape q0))) in *. cbv zeta.
    assert (Lx : length x = SynthModel.prod (q_shape q0)) by apply Hrvs.
    assert (W : width fmt = length x) by (rewrite Lx; unfold width; rewrite Ef; reflexivity).
    assert (Lb : length f = (length (blocks fmt) * length x)%nat).
    { destruct (Req_EM_T cs 0) as [C|C]; [destruct (A C) as [-> _]|destruct (B C) as [-> _]]; rewrite values_blocks; apply (flat_len _ (length x)); intros; rewrite shift_length, map_length; reflexivity. }
    assert (K : length x <> O) by (intros K; rewrite K in Lb; lia).
    assert (Lo : nth m (loc_numbers (width fmt) fmt) 0%nat = nth (m / length x) (blocks fmt) 0%nat) by (rewrite W; apply loc_blocks; [exact K|lia]).
    rewrite Lo. assert (X : drawn m seed = nth (m mod length x) x 0) by (unfold SynthMcProps.drawn; rewrite W, Lx; unfold x; reflexivity).
    assert (V : forall h, nth (m mod length x) (map (fun v => sample_fn v h) x) 0 = sample_fn (drawn m seed) h).
    { intros h. rewrite X. pose proof (Nat.mod_upper_bound m (length x) K). rewrite (nth_indep _ 0 (sample_fn 0 h)) by (rewrite map_length; assumption). apply (map_nth (fun v => sample_fn v h) x 0). }
    split; [reflexivity|]. split; [exact Lf|]. split; [exact Lc|]. split; intros C; [destruct (A C) as [-> ->]|destruct (B C) as [-> ->]].
    + rewrite !values_nth by (rewrite ?Lf, ?Lc; exact Hm). rewrite map_length, V, repeat_length. split; [lra|].
      rewrite Rplus_0_r. destruct (nth_in_or_default (m mod length x) (repeat 0 (length x)) 0) as [I| ->]; [|reflexivity]. now apply repeat_spec in I.
    + rewrite !values_nth by (rewrite ?Lf, ?Lc; exact Hm). rewrite !map_length, !V. split; reflexivity.
Qed.
End Synth.

Section Moments.
Variable seeds : dist nat.
Hypothesis Hs : proper seeds.
Lemma expect_push {A B} (g : A -> B) (d : dist A) f : expect (map (fun o => (fst o, g (snd o))) d) f = expect d (fun x => f (g x)).
Proof. unfold expect. rewrite map_map. reflexivity. Qed.
Lemma push_proper {A B} (g : A -> B) (d : dist A) : proper d -> proper (map (fun o => (fst o, g (snd o))) d).
Proof.
  intros [P S]. split; [|rewrite map_map; exact S]. intros p x H. apply in_map_iff in H as ([q y] & E & H). injection E as <- _. exact (P q y H).
Qed.
Lemma expect_mono (d : dist nat) f g : proper d -> (forall x, f x <= g x) -> expect d f <= expect d g.
Proof.
  intros [P _] H. unfold expect. induction d as [|[p x] d IH]; [cbn; lra|]. cbn [map fst snd]. rewrite !rsum_cons.
  assert (p * f x <= p * g x) by (apply Rmult_le_compat_l; [apply (P p x); now left|apply H]).
  assert (rsum (map (fun o => fst o * f (snd o)) d) <= rsum (map (fun o => fst o * g (snd o)) d)) by (apply IH; intros q y Hq; apply (P q y); now right). lra.
Qed.
Lemma variance_pos (d : dist nat) f : proper d -> 0 <= variance d f.
Proof. intros P. unfold variance. rewrite <- (expect_const d 0 P). apply expect_mono; [exact P|]. intros x. apply pow2_ge_0. Qed.
End Moments.

Lemma nth_map_seq {A} (F : nat -> A) d n l : (l < n)%nat -> nth l (map F (seq 0 n)) d = F l.
Proof. intros H. rewrite (nth_indep _ d (F 0%nat)) by (rewrite map_length, seq_length; exact H). rewrite map_nth, seq_nth by exact H. reflexivity. Qed.

Lemma map_nth_all {A B} (f : A -> B) (l : list A) d : map (fun i => f (nth i l d)) (seq 0 (length l)) = map f l.
Proof. induction l as [|a l IH]; [reflexivity|]. cbn [length seq map nth]. f_equal. rewrite <- IH, <- seq_shift, map_map. reflexivity. Qed.
(** A level as it is stored in one chunk. *)
Definition one_chunk (M L : nat) (oc : list (list rsample)) : list (nat * arr num) :=
  map (fun l => (l, map (fun m => map (fun s => map Fin (nth m s [])) (nth l oc [])) (seq 0 M))) (seq 0 L).
Lemma one_chunk_samples M (ss : list rsample) : (0 < M)%nat -> (forall s, In s ss -> length s = M) ->
  samples_of (map (fun m => map (fun s => map Fin (nth m s [])) ss) (seq 0 M)) = map (map (map Fin)) ss.
Proof.
  intros HM H.
  assert (E : samples_of (map (fun m => map (fun s : rsample => map Fin (nth m s [])) ss) (seq 0 M)) = map (fun i => map (fun row => nth i row []) (map (fun m => map (fun s : rsample => map Fin (nth m s [])) ss) (seq 0 M))) (seq 0 (length ss))).
  { destruct M as [|M]; [lia|]. unfold samples_of. cbn [seq map]. now rewrite map_length. }
  refine (eq_trans E _). clear E. transitivity (map (fun i => map (map Fin) (nth i ss [])) (seq 0 (length ss))).
  - apply map_ext_in. intros i Hi. apply in_seq in Hi. rewrite map_map. set (s := nth i ss []). assert (Ls : length s = M) by (apply H, nth_In; lia).
    transitivity (map (fun m => map Fin (nth m s [])) (seq 0 (length s))); [rewrite Ls; apply map_ext_in; intros m Hm|apply (map_nth_all (map Fin) s [])].
    rewrite (nth_indep _ [] ((fun s : rsample => map Fin (nth m s [])) [])) by (rewrite map_length; lia). apply (map_nth (fun s : rsample => map Fin (nth m s [])) ss [] i).
  - apply (map_nth_all (map (map Fin)) ss []).
Qed.
Lemma one_chunk_stores k M ls : (0 < M)%nat -> planned k M ls -> stores M ls (one_chunk M (length ls)).
Proof.
  intros HM Hp p oc Hin. destruct (outcome_level _ _ _ _ _ Hp Hin) as [_ Hlev]. split.
  - intros l x Hlx. apply in_map_iff in Hlx as (l' & E & Hl). injection E as -> <-. apply in_seq in Hl. split; [lia|]. exists (length (nth l oc [])).
    split; [now rewrite map_length, seq_length|]. intros row Hr. apply in_map_iff in Hr as (m & <- & Hm). apply in_seq in Hm. rewrite map_length. split; [reflexivity|].
    intros s Hs. apply in_map_iff in Hs as (s' & <- & Hs). rewrite map_length. destruct (Hlev l ltac:(lia)) as [_ Hf]. destruct (Hf s' Hs) as [L1 L2]. apply L2, nth_In. lia.
  - intros l Hl. unfold level_samples, one_chunk.
    assert (G : forall n a, (a <= l)%nat -> flat_map (fun c : nat * arr num => if (fst c =? l)%nat then samples_of (snd c) else []) (map (fun l => (l, map (fun m => map (fun s : rsample => map Fin (nth m s [])) (nth l oc [])) (seq 0 M))) (seq a n)) =
      if (l <? a + n)%nat then samples_of (map (fun m => map (fun s : rsample => map Fin (nth m s [])) (nth l oc [])) (seq 0 M)) else []).
    { assert (Gn : forall n a, (l < a)%nat -> flat_map (fun c : nat * arr num => if (fst c =? l)%nat then samples_of (snd c) else []) (map (fun l => (l, map (fun m => map (fun s : rsample => map Fin (nth m s [])) (nth l oc [])) (seq 0 M))) (seq a n)) = []).
      { induction n as [|n IH]; intros a Ha; [reflexivity|]. cbn [seq map flat_map fst snd]. destruct (Nat.eqb_spec a l); [lia|]. apply IH. lia. }
      induction n as [|n IH]; intros a Ha; [cbn [seq map flat_map]; destruct (Nat.ltb_spec l (a + 0)); [lia|reflexivity]|]. cbn [seq map flat_map fst snd]. destruct (Nat.eqb_spec a l) as [->|N].
      - rewrite Gn by lia. rewrite app_nil_r. destruct (Nat.ltb_spec l (l + S n)); [reflexivity|lia].
      - cbn [app]. rewrite IH by lia. replace (S a + n)%nat with (a + S n)%nat by lia. reflexivity. }
    rewrite G by lia. destruct (Nat.ltb_spec l (0 + length ls)); [|lia]. apply one_chunk_samples; [exact HM|]. intros s Hs. apply (Hlev l Hl), Hs.
Qed.

Section Campaign.
Variable rvs : nat -> nat -> list R.
Variable states : nat -> nat -> synth_st.
Variable fmt : list qfmt.
Variable hs : list R.
Variable ns : list nat.
Variable seeds : dist nat.
Hypothesis Hf : fmt <> [].
Hypothesis Hu : uniform fmt.
Hypothesis Hr : forall sd n, length (rvs sd n) = n.
Hypothesis Hs : proper seeds.
Hypothesis Hh : hs <> [].
Hypothesis Hpos : forall h, In h hs -> 0 < h.
Hypothesis Hn : forall l, (l < length hs)%nat -> (1 <= nth l ns 0)%nat.
Let ls := synth_campaign rvs states fmt hs ns seeds.
Lemma ls_length : length ls = length hs. Proof. unfold ls, synth_campaign. now rewrite map_length, seq_length. Qed.
Lemma ls_law l : (l < length hs)%nat -> law ls l = synth_law rvs states fmt hs seeds l /\ count ls l = nth l ns 0%nat.
Proof. intros Hl. unfold law, count, ls, synth_campaign. rewrite (nth_map_seq (fun l => (synth_law rvs states fmt hs seeds l, nth l ns 0%nat))) by exact Hl. split; reflexivity. Qed.
Lemma step_pos l : (l < length hs)%nat -> 0 < step hs l. Proof. intros Hl. apply Hpos, nth_In, Hl. Qed.
Lemma sample_values l sd m : (l < length hs)%nat -> (m < declared fmt)%nat -> let s := stored_pair l (snd (calculate rvs 0 (states l sd) fmt (step hs l) (coarse_step hs l) sd)) in
  fit (declared fmt) l s
  /\ rfine m s = drawn rvs fmt m sd + step hs l * noise rvs fmt m sd + (if Nat.eqb l 0 then 0 else INR (nth m (loc_numbers (width fmt) fmt) 0%nat))
  /\ rdiff l m s = if Nat.eqb l 0 then drawn rvs fmt m sd + step hs 0 * noise rvs fmt m sd else (step hs l - step hs (l - 1)) * noise rvs fmt m sd.
Proof.
  intros Hl Hm. cbv zeta. destruct (synth_values rvs fmt Hf Hu Hr (states l sd) (step hs l) (coarse_step hs l) sd m Hm) as (f & c & E & Lf & Lc & Z & NZ).
  rewrite E. cbn [stored_pair]. set (g := fun p : R * R => if Nat.eqb l 0 then [fst p] else [fst p; snd p]).
  assert (Lz : length (combine f c) = declared fmt) by (rewrite combine_length, Lf, Lc; apply Nat.min_id). split; [|].
  - split; [rewrite map_length; exact Lz|]. intros v Hv. apply in_map_iff in Hv as (p & <- & _). unfold g, EstimateSpec.parts. destruct (Nat.eqb l 0); reflexivity.
  - unfold rdiff, rfine, rcoarse. rewrite (nth_indep _ [] (g (0, 0))) by (rewrite map_length, Lz; exact Hm). rewrite (map_nth g (combine f c) (0, 0) m), combine_nth by congruence. unfold g, coarse_step in *.
    destruct (Nat.eqb_spec l 0) as [->|N]; cbn [fst snd nth].
    + destruct (Z eq_refl) as [-> _]. unfold sample_fn, noise. split; ring.
    + assert (P : step hs (l - 1) <> 0) by (pose proof (step_pos (l - 1)%nat ltac:(lia)); lra). destruct (NZ P) as [-> ->]. unfold sample_fn, noise. split; ring.
Qed.
Lemma synth_planned : (0 < declared fmt)%nat -> planned 1 (declared fmt) ls.
Proof.
  intros Hd. split; [intros E; pose proof ls_length as L; rewrite E in L; destruct hs; [contradiction|discriminate]|]. intros l Hl. rewrite ls_length in Hl. destruct (ls_law l Hl) as [-> ->].
  split; [exact (push_proper (fun sd => stored_pair l (snd (calculate rvs 0 (states l sd) fmt (step hs l) (coarse_step hs l) sd))) seeds Hs)|]. split; [apply Hn, Hl|].
  intros p s Hin. apply in_map_iff in Hin as ([q sd] & E & _). injection E as _ <-. apply (sample_values l sd 0 Hl Hd).
Qed.
Lemma law_expect l f : (l < length hs)%nat -> expect (law ls l) f = expect seeds (fun sd => f (stored_pair l (snd (calculate rvs 0 (states l sd) fmt (step hs l) (coarse_step hs l) sd)))).
Proof.
  intros Hl. destruct (ls_law l Hl) as [-> _]. apply (expect_push (fun sd => stored_pair l (snd (calculate rvs 0 (states l sd) fmt (step hs l) (coarse_step hs l) sd)))).
Qed.
Definition level_diff (m l sd : nat) : R := if Nat.eqb l 0 then drawn rvs fmt m sd + step hs 0 * noise rvs fmt m sd else (step hs l - step hs (l - 1)) * noise rvs fmt m sd.
Lemma diff_moments l m : (l < length hs)%nat -> (m < declared fmt)%nat ->
  expect (law ls l) (rdiff l m) = expect seeds (level_diff m l) /\ variance (law ls l) (rdiff l m) = variance seeds (level_diff m l).
Proof.
  intros Hl Hm. assert (E : expect (law ls l) (rdiff l m) = expect seeds (level_diff m l)) by (rewrite law_expect by exact Hl; apply expect_ext; intros p sd _; apply (sample_values l sd m Hl Hm)).
  split; [exact E|]. unfold variance at 1. rewrite E, law_expect by exact Hl. apply expect_ext. intros p sd _. destruct (sample_values l sd m Hl Hm) as (_ & _ & ->). reflexivity.
Qed.
Lemma diff_total m k : (k < length hs)%nat -> (m < declared fmt)%nat ->
  rsum (map (fun l => expect (law ls l) (rdiff l m)) (seq 0 (S k))) = expect seeds (drawn rvs fmt m) + step hs k * expect seeds (noise rvs fmt m).
Proof.
  intros Hk Hm. induction k as [|k IH].
  - cbn [seq map]. rewrite rsum_cons, (proj1 (diff_moments 0 m Hk Hm)). cbn [rsum fold_right]. unfold level_diff. cbn [Nat.eqb]. rewrite expect_add, expect_scal. ring.
  - rewrite seq_S, map_app, rsum_app, IH by lia. cbn [map Nat.add]. rewrite rsum_cons, (proj1 (diff_moments (S k) m Hk Hm)). cbn [rsum fold_right]. unfold level_diff. cbn [Nat.eqb]. rewrite expect_scal. replace (S k - 1)%nat with k by lia. ring.
Qed.
Lemma fine_mean l m : (l < length hs)%nat -> (m < declared fmt)%nat -> expect (law ls l) (rfine m)
  = expect seeds (drawn rvs fmt m) + step hs l * expect seeds (noise rvs fmt m) + (if Nat.eqb l 0 then 0 else INR (nth m (loc_numbers (width fmt) fmt) 0%nat)).
Proof.
  intros Hl Hm. rewrite law_expect by exact Hl.
  rewrite (expect_ext _ _ (fun sd => (drawn rvs fmt m sd + step hs l * noise rvs fmt m sd) + (if Nat.eqb l 0 then 0 else INR (nth m (loc_numbers (width fmt) fmt) 0%nat)))) by (intros p sd _; apply (sample_values l sd m Hl Hm)).
  rewrite !expect_add, expect_scal, expect_const by exact Hs. reflexivity.
Qed.
End Campaign.

(** Inputs of a campaign: at least one quantity, all quantities alike, values of the size asked for, seeds with a distribution, positive
    steps, samples on each level. *)
Definition inputs_ok (rvs : nat -> nat -> list R) (fmt : list qfmt) (hs : list R) (ns : list nat) (seeds : dist nat) : Prop :=
  fmt <> [] /\ uniform fmt /\ (forall sd n, length (rvs sd n) = n) /\ proper seeds /\ hs <> [] /\ (forall h, In h hs -> 0 < h)
  /\ forall l, (l < length hs)%nat -> (1 <= nth l ns 0)%nat.

(** ** C206: expected value, bias and variance of the multilevel estimate *)
Theorem C206_synthetic : forall (t : qtype skey) rvs states fmt hs ns seeds m store, inputs_ok rvs fmt hs ns seeds ->
  size t = declared fmt -> (m < size t)%nat -> stores (size t) (synth_campaign rvs states fmt hs ns seeds) store ->
  exists value : list (list rsample) -> R,
    (forall p oc, In (p, oc) (campaign (synth_campaign rvs states fmt hs ns seeds)) ->
       exists q, estimate_mean t (length hs) (read (store oc)) = Ok q /\ nth m (mean q) NaN = Fin (value oc))
    /\ let X := expect seeds (drawn rvs fmt m) in
       let E := expect (campaign (synth_campaign rvs states fmt hs ns seeds)) value in
       let h := step hs (length hs - 1) in
       E = X + h * expect seeds (noise rvs fmt m)
       /\ X <= E <= X + h * sqrt (1 / 10000 + expect seeds (fun sd => Rabs (drawn rvs fmt m sd)))
       /\ variance (campaign (synth_campaign rvs states fmt hs ns seeds)) value
          = variance seeds (fun sd => drawn rvs fmt m sd + step hs 0 * noise rvs fmt m sd) / INR (nth 0 ns 0%nat)
            + rsum (map (fun l => (step hs l - step hs (l - 1)) ^ 2 * variance seeds (noise rvs fmt m) / INR (nth l ns 0%nat)) (seq 1 (length hs - 1)))
       /\ variance seeds (noise rvs fmt m) <= 1 / 10000 + expect seeds (fun sd => Rabs (drawn rvs fmt m sd)).
Proof.
  intros t rvs states fmt hs ns seeds m store (Hf & Hu & Hr & Hs & Hh & Hpos & Hn) Ht Hm Hst. rewrite Ht in Hm.
  set (ls := synth_campaign rvs states fmt hs ns seeds) in *.
  assert (Ll : length ls = length hs) by apply ls_length.
  assert (Pl : planned 1 (size t) ls) by (rewrite Ht; apply synth_planned; auto; lia).
  assert (Sz : size t <> O) by lia. assert (Hm' : (m < size t)%nat) by lia.
  assert (L1 : (0 < length hs)%nat) by (destruct hs; [contradiction|cbn; lia]).
  destruct (C165_unbiased t ls m store Sz Hm' Pl Hst) as (value & Ev & Ex & _). exists value. rewrite Ll in *. split; [exact Ev|].
  cbv zeta. replace (length hs) with (S (length hs - 1)) in Ex by lia. unfold ls in Ex. rewrite diff_total in Ex by (auto; lia). fold ls in Ex.
  assert (N0 : forall sd, 0 <= noise rvs fmt m sd) by (intros; apply sqrt_pos).
  assert (N2 : forall sd, noise rvs fmt m sd ^ 2 = 1 / 10000 + Rabs (drawn rvs fmt m sd)) by (intros sd; unfold noise; apply pow2_sqrt; pose proof (Rabs_pos (drawn rvs fmt m sd)); lra).
  assert (E2 : expect seeds (fun sd => noise rvs fmt m sd ^ 2) = 1 / 10000 + expect seeds (fun sd => Rabs (drawn rvs fmt m sd))).
  { rewrite (expect_ext _ _ (fun sd => 1 / 10000 + Rabs (drawn rvs fmt m sd))) by (intros; apply N2). rewrite expect_add, (expect_const seeds (1 / 10000) Hs). reflexivity. }
  pose proof (variance_alt seeds (noise rvs fmt m) Hs) as VA. rewrite E2 in VA. pose proof (variance_pos seeds (noise rvs fmt m) Hs) as VP.
  assert (M0 : 0 <= expect seeds (noise rvs fmt m)) by (rewrite <- (expect_const seeds 0 Hs); apply expect_mono; auto).
  assert (HL : 0 < step hs (length hs - 1)) by (apply step_pos; [exact Hpos|lia]).
  split; [exact Ex|]. split; [|split].
  - rewrite Ex. split; [assert (0 <= step hs (length hs - 1) * expect seeds (noise rvs fmt m)) by (apply Rmult_le_pos; lra); lra|].
    apply Rplus_le_compat_l, Rmult_le_compat_l; [lra|]. rewrite <- (sqrt_pow2 (expect seeds (noise rvs fmt m)) M0). apply sqrt_le_1_alt. lra.
  - destruct (C166_variance t ls m store Sz Hm' Pl Hst) as (value' & Ev' & Vx). rewrite Ll in *.
    assert (Eq : forall p oc, In (p, oc) (campaign ls) -> value oc = value' oc).
    { intros p oc Hin. destruct (Ev p oc Hin) as (q & Q1 & Q2). destruct (Ev' p oc Hin) as (q' & Q1' & Q2'). rewrite Q1 in Q1'. injection Q1' as <-. rewrite Q2 in Q2'. now injection Q2'. }
    rewrite (variance_ext _ _ _ Eq), Vx. replace (length hs) with (S (length hs - 1)) at 1 by lia. cbn [seq map]. rewrite rsum_cons.
    assert (VD : forall l, (l < length hs)%nat -> variance (law ls l) (rdiff l m) = variance seeds (level_diff rvs fmt hs m l) /\ count ls l = nth l ns 0%nat).
    { intros l Hl. split; [apply diff_moments; auto|apply ls_law; exact Hl]. }
    destruct (VD 0%nat L1) as [-> ->]. f_equal. apply rsum_ext. intros l Hl. apply in_seq in Hl. destruct (VD l ltac:(lia)) as [-> ->].
    unfold level_diff. destruct (Nat.eqb_spec l 0); [lia|]. rewrite variance_scal. reflexivity.
  - pose proof (pow2_ge_0 (expect seeds (noise rvs fmt m))). lra.
Qed.
Print Assumptions C206_synthetic.

(** ** C207: the multilevel estimate and the finest results *)
(** In full (the expected value of the estimate is the mean of the results of the finest level, as C165 has it for matching levels) false; proved:
    it is smaller by the number of the location, unless there is one level only. *)
Theorem C207_offset_partial : forall (t : qtype skey) rvs states fmt hs ns seeds m store, inputs_ok rvs fmt hs ns seeds ->
  size t = declared fmt -> (m < size t)%nat -> stores (size t) (synth_campaign rvs states fmt hs ns seeds) store ->
  exists value : list (list rsample) -> R,
    (forall p oc, In (p, oc) (campaign (synth_campaign rvs states fmt hs ns seeds)) ->
       exists q, estimate_mean t (length hs) (read (store oc)) = Ok q /\ nth m (mean q) NaN = Fin (value oc))
    /\ expect (campaign (synth_campaign rvs states fmt hs ns seeds)) value
       = expect (law (synth_campaign rvs states fmt hs ns seeds) (length hs - 1)) (rfine m)
         - (if Nat.eqb (length hs) 1 then 0 else INR (nth m (loc_numbers (width fmt) fmt) 0%nat)).
Proof.
  intros t rvs states fmt hs ns seeds m store H Ht Hm Hst. destruct (C206_synthetic t rvs states fmt hs ns seeds m store H Ht Hm Hst) as (v & V & E & _).
  exists v. split; [exact V|]. rewrite E. destruct H as (Hf & Hu & Hr & Hs & Hh & Hpos & Hn). assert (L1 : (0 < length hs)%nat) by (destruct hs; [contradiction|cbn; lia]).
  rewrite fine_mean by (auto; lia). destruct (Nat.eqb_spec (length hs - 1) 0); destruct (Nat.eqb_spec (length hs) 1); try lia; ring.
Qed.
Print Assumptions C207_offset_partial.

(** ** Examples and the refutation *)
Definition coin : dist nat := [(1 / 2, 0%nat); (1 / 2, 1%nat)].
Lemma coin_proper : proper coin.
Proof. split; [intros p x [E|[E|[]]]; injection E as <- _; lra|]. unfold coin. cbn [map fst]. rewrite !rsum_cons. cbn [rsum fold_right]. lra. Qed.
Definition two_values (sd n : nat) : list R := repeat (INR sd) n.
Lemma two_inputs fmt : fmt <> [] -> uniform fmt -> inputs_ok two_values fmt [1; 1 / 2] [3; 2]%nat coin.
Proof.
  intros F U. split; [exact F|]. split; [exact U|]. split; [intros; apply repeat_length|]. split; [apply coin_proper|]. split; [discriminate|]. split.
  - intros h [<-|[<-|[]]]; lra.
  - intros l Hl. cbn [length] in Hl. destruct l as [|[|l]]; cbn; lia.
Qed.
Lemma result_format_uniform : uniform result_format. Proof. intros p q [<-|[<-|[]]] [<-|[<-|[]]]; auto. Qed.
Lemma two_stores fmt M : fmt <> [] -> uniform fmt -> M = declared fmt -> (0 < M)%nat ->
  stores M (synth_campaign two_values (fun _ _ => mkSt 0 0) fmt [1; 1 / 2] [3; 2]%nat coin) (one_chunk M 2).
Proof.
  intros F U -> H. destruct (two_inputs fmt F U) as (A & B & C & D & E & G & I).
  refine (one_chunk_stores 1 (declared fmt) (synth_campaign two_values (fun _ _ => mkSt 0 0) fmt [1; 1 / 2] [3; 2]%nat coin) H _). apply synth_planned; assumption.
Qed.

(** Component 2 of the format of [result_format] (the second location), two levels. *)
Theorem C207_finest_refuted : exists (t : qtype skey) rvs states fmt hs ns seeds m store, inputs_ok rvs fmt hs ns seeds
  /\ size t = declared fmt /\ (m < size t)%nat /\ stores (size t) (synth_campaign rvs states fmt hs ns seeds) store
  /\ forall value : list (list rsample) -> R,
    (forall p oc, In (p, oc) (campaign (synth_campaign rvs states fmt hs ns seeds)) ->
       exists q, estimate_mean t (length hs) (read (store oc)) = Ok q /\ nth m (mean q) NaN = Fin (value oc)) ->
    expect (campaign (synth_campaign rvs states fmt hs ns seeds)) value
    <> expect (law (synth_campaign rvs states fmt hs ns seeds) (length hs - 1)) (rfine m).
Proof.
  exists (QArray [24%nat] QScalar), two_values, (fun _ _ => mkSt 0 0), result_format, [1; 1 / 2], [3; 2]%nat, coin, 2%nat, (one_chunk 24 2).
  assert (F : result_format <> []) by discriminate.
  assert (St : stores (size (QArray [24%nat] (@QScalar skey))) (synth_campaign two_values (fun _ _ => mkSt 0 0) result_format [1; 1 / 2] [3; 2]%nat coin) (one_chunk 24 2)).
  { exact (two_stores result_format 24 F result_format_uniform eq_refl ltac:(lia)). }
  split; [apply two_inputs; [discriminate|apply result_format_uniform]|]. split; [reflexivity|]. split; [apply Nat.ltb_lt; reflexivity|]. split; [exact St|].
  intros value Hv E. destruct (C207_offset_partial (QArray [24%nat] QScalar) two_values (fun _ _ => mkSt 0 0) result_format [1; 1 / 2] [3; 2]%nat coin 2 (one_chunk 24 2)) as (v & V & X);
    [apply two_inputs; [discriminate|apply result_format_uniform]|reflexivity|apply Nat.ltb_lt; reflexivity|exact St|].
  assert (Eq : forall p oc, In (p, oc) (campaign (synth_campaign two_values (fun _ _ => mkSt 0 0) result_format [1; 1 / 2] [3; 2]%nat coin)) -> value oc = v oc).
  { intros p oc Hin. destruct (Hv p oc Hin) as (q & Q1 & Q2). destruct (V p oc Hin) as (q' & Q1' & Q2'). rewrite Q1 in Q1'. injection Q1' as <-. rewrite Q2 in Q2'. now injection Q2'. }
  rewrite (expect_ext _ _ _ Eq) in E. rewrite E in X. change (nth 2 (loc_numbers (width result_format) result_format) 0%nat) with 1%nat in X. change (Nat.eqb (length [1; 1 / 2]) 1) with false in X. cbv iota in X. cbn [INR] in X. lra.
Qed.
Print Assumptions C207_finest_refuted.

(** Format with one component: the values 0 and 1 with probability 1/2 each, steps 1 and 1/2. The estimate is 1/2 + (sqrt(1/10000) + sqrt(10001/10000))/4. *)
Example C206_ex : inputs_ok two_values [mkQ [1%nat] 1 1] [1; 1 / 2] [3; 2]%nat coin /\ size (@QScalar skey) = declared [mkQ [1%nat] 1 1]
  /\ stores (size (@QScalar skey)) (synth_campaign two_values (fun _ _ => mkSt 0 0) [mkQ [1%nat] 1 1] [1; 1 / 2] [3; 2]%nat coin) (one_chunk 1 2)
  /\ expect coin (drawn two_values [mkQ [1%nat] 1 1] 0) = 1 / 2.
Proof.
  assert (U : uniform [mkQ [1%nat] 1 1]) by (intros p q [<-|[]] [<-|[]]; auto).
  split; [apply two_inputs; [discriminate|exact U]|]. split; [reflexivity|]. split; [exact (two_stores [mkQ [1%nat] 1 1] 1 ltac:(discriminate) U eq_refl ltac:(lia))|].
  unfold expect, coin. cbn [map fst snd]. rewrite !rsum_cons. cbn. lra.
Qed.
(** Component 0 of the format of [result_format] (location 0): the estimate has the mean of the finest results. *)
Example C207_ex : inputs_ok two_values result_format [1; 1 / 2] [3; 2]%nat coin /\ nth 0 (loc_numbers (width result_format) result_format) 9%nat = 0%nat
  /\ stores 24 (synth_campaign two_values (fun _ _ => mkSt 0 0) result_format [1; 1 / 2] [3; 2]%nat coin) (one_chunk 24 2).
Proof.
  split; [apply two_inputs; [discriminate|apply result_format_uniform]|]. split; [reflexivity|].
  exact (two_stores result_format 24 ltac:(discriminate) result_format_uniform eq_refl ltac:(lia)).
Qed.
