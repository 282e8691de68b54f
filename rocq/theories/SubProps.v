(** Random subsamples: average composition, sizes, and estimates from them. *)
From Coq Require Import Reals Lra.
From Verif Require Import Base BaseFacts QTypeModel QuantityModel QuantitySpec QuantityCache NumModel NumFacts EstimateModel EstimateSpec EstimateProofs EstimateFacts EstimateProps.
From Verif Require Import ProbSpec ProbFacts ProbProps SubModel SubFacts.
Local Open Scope R_scope.

(** * Specification *)
(** The sum of g over the samples drawn. *)
Definition over {X} (g : X -> R) (r : res (list X)) : R := match r with Ok xs => rsum (map g xs) | Err _ => 0 end.
(** Whatever has positive probability has property P. *)
Definition surely {A} (d : dist A) (P : A -> Prop) : Prop := forall p x, In (p, x) d -> p <> 0 -> P x.

(** * One chunk *)
Section Pick.
Context {X : Type}.
Implicit Types (c : list X) (cs : list (list X)).
Lemma pick_unfold c k n : (k <= n)%nat -> (length c <= n)%nat -> pick_samples c (mkP k n) =
  after (hypergeom n k (length c)) (fun size => map (fun o => (fst o, Ok (snd o, mkP (k - length (snd o)) (n - length c)))) (draws (uniform c) size)).
Proof. intros H1 H2. unfold pick_samples. cbn [p_k p_n]. apply Nat.leb_le in H1, H2. now rewrite H1, H2. Qed.
Lemma uniform_in c p x : In (p, x) (uniform c) -> In x c.
Proof. unfold uniform. intros H. apply in_map_iff in H as (y & E & H). injection E as _ <-. exact H. Qed.
Lemma pick_outcome c k n p r : (k <= n)%nat -> (length c <= n)%nat -> In (p, r) (pick_samples c (mkP k n)) ->
  exists out, r = Ok (out, mkP (k - length out) (n - length c)) /\ incl out c /\ 0 <= p
  /\ (p <> 0 -> (k + length c <= n + length out /\ length out <= k /\ length out <= length c)%nat).
Proof.
  intros Hk Hc H. rewrite pick_unfold in H by auto. apply after_in in H as (p1 & size & p2 & H1 & H2 & ->).
  apply in_map_iff in H2 as ([p3 out] & E & H2). cbn [fst snd] in E. injection E as -> <-. exists out. split; [reflexivity|].
  destruct (draws_in (uniform c) size p2 out H2) as [L I]. split; [intros x Hx; destruct (I x Hx) as (q & Hq); eapply uniform_in; eauto|].
  split; [apply Rmult_le_pos; [apply (hyper_proper n k (length c)) in H1; auto|eapply draws_nonneg; eauto]|].
  intros N. rewrite L. apply (hyper_support n k (length c) p1 size Hk H1). intros ->. apply N. ring.
Qed.
Lemma pick_proper c k n : (k <= n)%nat -> (length c <= n)%nat -> proper (pick_samples c (mkP k n)).
Proof.
  intros Hk Hc. rewrite pick_unfold by auto. apply after_proper.
  - now apply hyper_proper.
  - intros p size H _. assert (D : proper (draws (uniform c) size)).
    { destruct c as [|x c]; [|apply draws_proper, uniform_proper; discriminate]. unfold hypergeom in H. cbn [length seq map] in H. destruct H as [H|[]]. injection H as _ <-. apply one_proper. }
    destruct D as [D1 D2]. split.
    + intros q y Hy. apply in_map_iff in Hy as ([q' y'] & E & Hy). injection E as <- _. eapply D1; eauto.
    + rewrite map_map. exact D2.
  - intros p size q y _ Hy. apply in_map_iff in Hy as ([q' y'] & E & Hy). injection E as <- _. eapply draws_nonneg; eauto.
Qed.
Definition drawn_sum (g : X -> R) (r : res (list X * params)) : R := match r with Ok (out, _) => rsum (map g out) | Err _ => 0 end.
Lemma pick_expect c k n g : (k <= n)%nat -> (length c <= n)%nat -> INR n * expect (pick_samples c (mkP k n)) (drawn_sum g) = INR k * rsum (map g c).
Proof.
  intros Hk Hc. rewrite pick_unfold by auto. rewrite expect_after.
  destruct c as [|x0 c0] eqn:Ec; [|rewrite <- Ec in *; assert (Nc : c <> []) by (subst; discriminate); clear Ec x0 c0].
  - cbn [length]. unfold hypergeom. cbn [seq map]. rewrite expect_cons, expect_nil. cbn [draws map]. rewrite expect_cons, expect_nil. cbn [drawn_sum fst snd map]. cbn. ring.
  - rewrite (expect_ext _ _ (fun size => (rsum (map g c) / INR (length c)) * INR size)).
    + rewrite expect_scal. pose proof (hyper_mean n k (length c) Hk Hc) as H. assert (P : 0 < INR (length c)) by (apply lt_0_INR; destruct c; [contradiction|cbn; lia]).
      transitivity (rsum (map g c) / INR (length c) * (INR n * expect (hypergeom n k (length c)) INR)); [ring|]. rewrite H. field. lra.
    + intros p size _. rewrite (expect_map (draws (uniform c) size) (fun out => Ok (out, mkP (k - length out) (n - length c)))). cbn [drawn_sum]. rewrite (expect_sum (uniform c) (uniform_proper c Nc)), expect_uniform. ring.
Qed.

(** The outcomes are those of the relation used for C52. *)
Lemma pick_picked c k n : (k <= n)%nat -> (length c <= n)%nat ->
  surely (pick_samples c (mkP k n)) (fun r => exists out p', r = Ok (out, p') /\ picked n k c out).
Proof.
  intros Hk Hc p r H N. destruct (pick_outcome c k n p r Hk Hc H) as (out & -> & I & _ & S). specialize (S N). exists out, (mkP (k - length out) (n - length c)). split; [reflexivity|].
  assert (E : exists ps, map (nth_error c) ps = map Some out /\ length ps = length out /\ forall i, In i ps -> (i < length c)%nat).
  { clear - I. induction out as [|x out IH]; [exists []; repeat split; intros i []|]. destruct IH as (ps & E & L & B); [intros y Hy; apply I; now right|].
    destruct (In_nth_error c x (I x (or_introl eq_refl))) as (i & Hi). exists (i :: ps). cbn [map length]. rewrite E, L, Hi. split; [reflexivity|]. split; [reflexivity|].
    intros j [<-|Hj]; [|auto]. apply nth_error_Some. rewrite Hi. discriminate. }
  destruct E as (ps & E & L & B). apply picked_of with (size := length out) (ps := ps); [unfold hyper; lia|split; assumption|exact E].
Qed.

(** * Chunks in turn *)
Lemma passes_cons adjust p c cs : passes adjust p (c :: cs) = after (pick_samples c (adjust p)) (fun r =>
      match r with Err e => [(1, Err e)] | Ok (out, p') => map (fun o => (fst o, bind (snd o) (fun rest => Ok (out ++ rest)))) (passes adjust p' cs) end).
Proof. reflexivity. Qed.
Lemma passes_nonneg adjust cs : forall p q r, In (q, r) (passes adjust p cs) -> 0 <= q.
Proof.
  induction cs as [|c cs IH]; intros p q r H.
  - destruct H as [H|[]]. injection H as <- _. lra.
  - rewrite passes_cons in H. apply after_in in H as (p1 & x & p2 & H1 & H2 & ->). apply Rmult_le_pos.
    + destruct (adjust p) as [k n]. unfold pick_samples in H1. cbn [p_k p_n] in H1. destruct (Nat.leb_spec k n) as [A|A], (Nat.leb_spec (length c) n) as [B|B]; cbn [andb] in H1;
        try (destruct H1 as [H1|[]]; injection H1 as <- _; lra).
      assert (H1' : In (p1, x) (pick_samples c (mkP k n))) by (rewrite pick_unfold; auto). destruct (pick_outcome c k n p1 x A B H1') as (_ & _ & _ & P & _). exact P.
    + destruct x as [[out p']|e]; [|destruct H2 as [H2|[]]; injection H2 as <- _; lra]. apply in_map_iff in H2 as ([q' r'] & E & H2). injection E as <- _. apply (IH p' q' r'); auto.
Qed.
End Pick.

(** ** C199: average composition of a subsample *)
Theorem C199_average : forall X (g : X -> R) k n (chunks : list (list X)), (k <= n)%nat -> (forall c, In c chunks -> (length c <= n)%nat) ->
  proper (sub_level_law k n chunks)
  /\ surely (sub_level_law k n chunks) (fun r => exists xs, r = Ok xs /\ incl xs (concat chunks))
  /\ INR n * expect (sub_level_law k n chunks) (over g) = INR k * rsum (map g (concat chunks)).
Proof.
  intros X g k n chunks Hk Hc. unfold sub_level_law. generalize (mkP k n) at 2 4 6. induction chunks as [|c cs IH]; intros p0.
  - cbn [passes]. split; [apply one_proper|]. split.
    + intros p r [H|[]] _. injection H as _ <-. exists []. split; [reflexivity|intros x []].
    + rewrite expect_cons, expect_nil. cbn. ring.
  - rewrite !passes_cons. assert (Lc : (length c <= n)%nat) by (apply Hc; now left). assert (IH' := fun p => IH (fun c' Hc' => Hc c' (or_intror Hc')) p). clear IH.
    split; [|split].
    + apply after_proper; [now apply pick_proper| |].
      * intros p r H _. destruct (pick_outcome c k n p r Hk Lc H) as (out & -> & _). destruct (IH' (mkP (k - length out) (n - length c))) as [[P1 P2] _]. split.
        -- intros q y Hy. apply in_map_iff in Hy as ([q' y'] & E & Hy). injection E as <- _. eapply P1; eauto.
        -- rewrite map_map. exact P2.
      * intros p r q y H Hy. destruct (pick_outcome c k n p r Hk Lc H) as (out & -> & _). apply in_map_iff in Hy as ([q' y'] & E & Hy). injection E as <- _.
        destruct (IH' (mkP (k - length out) (n - length c))) as [[P1 _] _]. eapply P1; eauto.
    + intros p r H N. apply after_in in H as (p1 & x & p2 & H1 & H2 & ->). destruct (pick_outcome c k n p1 x Hk Lc H1) as (out & -> & I & _).
      apply in_map_iff in H2 as ([q' y'] & E & Hy). cbn [fst snd] in E. injection E as -> <-. destruct (IH' (mkP (k - length out) (n - length c))) as (_ & S & _).
      destruct (S p2 y' Hy) as (xs & -> & I2); [intros ->; apply N; ring|]. exists (out ++ xs). split; [reflexivity|]. cbn [concat].
      intros z Hz. apply in_app_or in Hz as [Hz|Hz]; apply in_or_app; auto.
    + rewrite expect_after. cbn [concat]. rewrite map_app, rsum_app, Rmult_plus_distr_l, <- (pick_expect c k n g Hk Lc).
      destruct (Nat.eq_dec n 0) as [->|Nn].
      { destruct k; [|lia]. cbn [INR]. ring. }
      assert (P : INR n <> 0) by now apply not_0_INR.
      rewrite (expect_ext _ _ (fun r => drawn_sum g r + INR k * rsum (map g (concat cs)) / INR n)).
      * rewrite expect_add, expect_const by now apply pick_proper. field. exact P.
      * intros p r H. destruct (pick_outcome c k n p r Hk Lc H) as (out & -> & _). rewrite (expect_map _ (fun o => bind o (fun rest => Ok (out ++ rest)))). destruct (IH' (mkP (k - length out) (n - length c))) as (P1 & S & E).
        cbn [drawn_sum]. rewrite (expect_ext0 _ _ (fun r => rsum (map g out) + over g r)).
        -- rewrite expect_add, expect_const by exact P1. rewrite <- E. field. exact P.
        -- intros q y Hy Nq. destruct (S q y Hy Nq) as (xs & -> & _). cbn [bind over]. now rewrite map_app, rsum_app.
Qed.
Print Assumptions C199_average.

(** ** C200: parameters that are not reset give exactly the number of samples asked for *)
Theorem C200_in_turn : forall X (g : X -> R) (chunks : list (list X)) k n, n = length (concat chunks) -> (k <= n)%nat ->
  proper (in_turn k n chunks)
  /\ surely (in_turn k n chunks) (fun r => exists xs, r = Ok xs /\ length xs = k /\ incl xs (concat chunks))
  /\ INR n * expect (in_turn k n chunks) (over g) = INR k * rsum (map g (concat chunks)).
Proof.
  intros X g chunks. unfold in_turn. induction chunks as [|c cs IH]; intros k n Hn Hk.
  - cbn in Hn. subst n. assert (k = O) by lia. subst k. cbn [passes]. split; [apply one_proper|]. split.
    + intros p r [H|[]] _. injection H as _ <-. exists []. split; [reflexivity|]. split; [reflexivity|intros x []].
    + cbn [INR]. ring.
  - cbn [concat] in Hn. rewrite app_length in Hn. assert (Lc : (length c <= n)%nat) by lia. rewrite !passes_cons.
    assert (Hr : (n - length c)%nat = length (concat cs)) by lia.
    assert (IHk : forall out : list X, (k + length c <= n + length out /\ length out <= k)%nat -> _) by (intros out B; exact (IH (k - length out)%nat (n - length c)%nat Hr ltac:(lia))).
    assert (NN : forall p r q y, In (p, r) (pick_samples c (mkP k n)) -> In (q, y) match r with
        | Ok (out, p') => map (fun o => (fst o, bind (snd o) (fun rest => Ok (out ++ rest)))) (passes (fun p => p) p' cs) | Err e => [(1, Err e)] end -> 0 <= q).
    { intros p r q y H Hy. destruct (pick_outcome c k n p r Hk Lc H) as (out & -> & _). apply in_map_iff in Hy as ([q' y'] & E & Hy). injection E as <- _.
      eapply passes_nonneg; eauto. }
    split; [|split].
    + apply after_proper; [now apply pick_proper| |exact NN].
      intros p r H N. destruct (pick_outcome c k n p r Hk Lc H) as (out & -> & _ & _ & B). specialize (B N). destruct (IHk out ltac:(lia)) as [[P1 P2] _]. split.
      * intros q y Hy. eapply (NN p _ q y H). exact Hy.
      * rewrite map_map. exact P2.
    + intros p r H N. apply after_in in H as (p1 & x & p2 & H1 & H2 & ->). destruct (pick_outcome c k n p1 x Hk Lc H1) as (out & -> & I & _ & B).
      apply in_map_iff in H2 as ([q' y'] & E & Hy). cbn [fst snd] in E. injection E as -> <-. assert (N1 : p1 <> 0) by (intros ->; apply N; ring). specialize (B N1).
      destruct (IHk out ltac:(lia)) as (_ & S & _).
      destruct (S p2 y' Hy) as (xs & -> & L & I2); [intros ->; apply N; ring|]. exists (out ++ xs). split; [reflexivity|]. split; [rewrite app_length; lia|]. cbn [concat].
      intros z Hz. apply in_app_or in Hz as [Hz|Hz]; apply in_or_app; auto.
    + rewrite expect_after. cbn [concat]. rewrite map_app, rsum_app, Rmult_plus_distr_l, <- (pick_expect c k n g Hk Lc).
      destruct (Nat.eq_dec n 0) as [E0|Nn].
      { subst n. destruct k; [|lia]. rewrite E0. cbn [INR]. ring. }
      assert (P : INR n <> 0) by now apply not_0_INR. set (rest := rsum (map g (concat cs))) in *.
      assert (Z : (n - length c = O)%nat -> rest = 0) by (intros E; unfold rest; rewrite E in Hr; destruct (concat cs); [reflexivity|discriminate]).
      set (z := rest / INR (n - length c)).
      assert (Ez : INR (n - length c) * z = rest).
      { unfold z. destruct (Nat.eq_dec (n - length c) 0) as [E|E]; [rewrite (Z E), E; cbn [INR]; ring|]. field. now apply not_0_INR. }
      rewrite (expect_ext0 _ _ (fun r => drawn_sum g r + (INR k * z + - z * drawn_sum (fun _ => 1) r))).
      * rewrite !expect_add, expect_const, expect_scal by now apply pick_proper. rewrite !Rmult_plus_distr_l.
        assert (E1 : INR n * (- z * expect (pick_samples c (mkP k n)) (drawn_sum (fun _ => 1))) = - z * (INR k * INR (length c))).
        { pose proof (pick_expect c k n (fun _ => 1) Hk Lc) as H. rewrite rsum_const in H. transitivity (- z * (INR n * expect (pick_samples c (mkP k n)) (drawn_sum (fun _ => 1)))); [ring|]. rewrite H. ring. }
        rewrite E1. rewrite minus_INR in Ez by lia. rewrite <- Ez. ring.
      * intros p r H N. destruct (pick_outcome c k n p r Hk Lc H) as (out & -> & _ & _ & B). specialize (B N). rewrite (expect_map _ (fun o => bind o (fun rest => Ok (out ++ rest)))).
        destruct (IHk out ltac:(lia)) as (P1 & S & E). cbn [drawn_sum]. rewrite (expect_ext0 _ _ (fun r => rsum (map g out) + over g r)).
        -- rewrite expect_add, expect_const by exact P1. f_equal. rewrite rsum_const. fold rest in E.
           destruct (Nat.eq_dec (n - length c) 0) as [E0|E0].
           ++ assert (Ek : k = length out) by lia. assert (Ez0 : z = 0) by (unfold z; rewrite (Z E0); unfold Rdiv; ring). rewrite Ez0.
              rewrite (expect_ext0 _ _ (fun _ => 0)); [rewrite expect_const by exact P1; ring|]. intros q y Hy Nq. destruct (S q y Hy Nq) as (xs & -> & L & _). destruct xs; [reflexivity|cbn in L; lia].
           ++ assert (E1 : expect (passes (fun p => p) (mkP (k - length out) (n - length c)) cs) (over g) = INR (k - length out) * z).
              { apply (Rmult_eq_reg_l (INR (n - length c))); [|now apply not_0_INR]. rewrite E, <- Ez. ring. }
              rewrite E1, minus_INR by lia. ring.
        -- intros q y Hy Nq. destruct (S q y Hy Nq) as (xs & -> & _). cbn [bind over]. now rewrite map_app, rsum_app.
Qed.
Print Assumptions C200_in_turn.

(** ** C201: estimates from subsamples *)
(** The samples are stored, in chunks of any sizes. *)
Definition kept (M : nat) (oc : list (list rsample)) (cs : list (nat * arr num)) : Prop := chunks_ok M (length oc) cs /\ holds (length oc) oc cs.
(** Variance of a list of numbers, each with the same probability. *)
Definition pop_var (v : list R) : R := rsum (map (fun x => (x - rmean v) ^ 2) v) / INR (length v).
(** Value of a function of the samples drawn. *)
Definition value_of {A} (f : A -> R) (r : res A) : R := match r with Ok x => f x | Err _ => 0 end.
Definition differences_of (data : list (list rsample)) (m l : nat) : list R := map (rdiff l m) (nth l data []).

Lemma one_chunk {X} k (c : list X) G : (k <= length c)%nat -> expect (sub_level_law k (length c) [c]) G = expect (draws (uniform c) k) (fun xs => G (Ok xs)).
Proof.
  intros Hk. unfold sub_level_law. rewrite passes_cons, pick_unfold, !expect_after by lia. rewrite hyper_all by exact Hk.
  rewrite (expect_map _ (fun out => Ok (out, mkP (k - length out) (length c - length c)))). apply expect_ext. intros p xs _. cbn [passes map fst snd bind].
  rewrite expect_cons, expect_nil, app_nil_r. ring.
Qed.
Lemma one_chunk_in {X} k (c : list X) p r : (k <= length c)%nat -> In (p, r) (sub_level_law k (length c) [c]) -> p <> 0 -> exists q xs, r = Ok xs /\ In (q, xs) (draws (uniform c) k).
Proof.
  intros Hk H N. unfold sub_level_law in H. rewrite passes_cons, pick_unfold in H by lia. apply after_in in H as (p1 & x & p2 & H1 & H2 & ->).
  apply after_in in H1 as (p3 & size & p4 & H1 & H3 & ->). assert (S : (k + length c <= length c + size /\ size <= k /\ size <= length c)%nat).
  { apply (hyper_support (length c) k (length c) p3 size Hk H1). intros ->. apply N. ring. }
  assert (size = k) by lia. subst size. apply in_map_iff in H3 as ([q out] & E & H3). cbn [fst snd] in E. injection E as <- <-. cbn [passes map] in H2.
  destruct H2 as [H2|[]]. cbn [fst snd bind] in H2. injection H2 as _ <-. exists q, out. rewrite app_nil_r. auto.
Qed.
Definition level_laws (vec : list nat) (data : list (list rsample)) : list (dist rsample * nat) := combine (map uniform data) vec.
Lemma subsample_expect vec : forall data G, length vec = length data -> (forall l, (l < length data)%nat -> (nth l vec O <= length (nth l data []))%nat) ->
  expect (subsample_law vec data) G = expect (campaign (level_laws vec data)) (fun oc => G (Ok oc)).
Proof.
  induction vec as [|k vec IH]; intros [|c data] G HL Hk; try discriminate; [reflexivity|].
  unfold level_laws. cbn [subsample_law map combine campaign]. rewrite !expect_joint. rewrite one_chunk by exact (Hk O ltac:(cbn; lia)).
  apply expect_ext. intros p xs _. cbn [bind]. rewrite IH; [reflexivity|cbn in HL; lia|]. intros l Hl. apply (Hk (S l)). cbn. lia.
Qed.
Lemma subsample_in vec : forall data p r, length vec = length data -> (forall l, (l < length data)%nat -> (nth l vec O <= length (nth l data []))%nat) ->
  In (p, r) (subsample_law vec data) -> p <> 0 -> exists q oc, r = Ok oc /\ In (q, oc) (campaign (level_laws vec data)).
Proof.
  induction vec as [|k vec IH]; intros [|c data] p r HL Hk H N; try discriminate.
  - cbn in H. destruct H as [H|[]]. injection H as <- <-. exists 1, []. split; [reflexivity|now left].
  - cbn [subsample_law] in H. apply joint_in in H as (p1 & a & p2 & b & H1 & H2 & -> & ->).
    destruct (one_chunk_in k c p1 a (Hk O ltac:(cbn; lia)) H1) as (q1 & xs & -> & D1); [intros ->; apply N; ring|].
    destruct (IH data p2 b ltac:(cbn in HL; lia) (fun l Hl => Hk (S l) ltac:(cbn; lia)) H2) as (q2 & oc & -> & D2); [intros ->; apply N; ring|].
    exists (q1 * q2), (xs :: oc). split; [reflexivity|]. unfold level_laws. cbn [map combine campaign]. unfold joint. apply in_flat_map. exists (q1, xs). split; [exact D1|].
    apply in_map_iff. exists (q2, oc). split; [reflexivity|exact D2].
Qed.

Lemma uniform_mean (c : list rsample) g : expect (uniform c) g = rmean (map g c).
Proof. rewrite expect_uniform. unfold rmean. now rewrite map_length. Qed.
Lemma uniform_variance (c : list rsample) g : variance (uniform c) g = pop_var (map g c).
Proof. unfold variance, pop_var. rewrite expect_uniform, uniform_mean, !map_length. f_equal. now rewrite map_map. Qed.

Theorem C201_estimates : forall (t : qtype skey) data vec m full store, size t <> O -> (m < size t)%nat -> data <> [] -> length vec = length data ->
  (forall l, (l < length data)%nat -> (1 <= nth l vec O <= length (nth l data []))%nat /\ forall s, In s (nth l data []) -> fit (size t) l s) ->
  kept (size t) data full -> surely (subsample_law vec data) (fun r => forall oc, r = Ok oc -> kept (size t) oc (store oc)) ->
  exists value whole,
    (exists q, estimate_mean t (length data) (read full) = Ok q /\ nth m (mean q) NaN = Fin whole)
    /\ surely (subsample_law vec data) (fun r => exists oc q, r = Ok oc /\ (forall l, (l < length data)%nat -> length (nth l oc []) = nth l vec O)
         /\ estimate_mean t (length data) (read (store oc)) = Ok q /\ nth m (mean q) NaN = Fin (value oc))
    /\ expect (subsample_law vec data) (value_of value) = whole
    /\ variance (subsample_law vec data) (value_of value) = rsum (map (fun l => pop_var (differences_of data m l) / INR (nth l vec O)) (seq 0 (length data))).
Proof.
  intros t data vec m full store Ht Hm Hne HL Hd [Fc Fh] Hs. set (ls := level_laws vec data).
  assert (Lls : length ls = length data) by (unfold ls, level_laws; rewrite combine_length, map_length; lia).
  assert (Hk : forall l, (l < length data)%nat -> (nth l vec O <= length (nth l data []))%nat) by (intros l Hl; apply Hd in Hl; lia).
  assert (Hlaw : forall l, (l < length data)%nat -> law ls l = uniform (nth l data []) /\ count ls l = nth l vec O).
  { intros l Hl. unfold law, count, ls, level_laws. change (@nil (R * rsample)) with (uniform (@nil rsample)). rewrite combine_nth by (rewrite map_length; lia). now rewrite map_nth. }
  assert (Hp : planned 1 (size t) ls).
  { split; [intros E; rewrite E in Lls; destruct data; [contradiction|discriminate]|]. intros l Hl. rewrite Lls in Hl. destruct (Hlaw l Hl) as [-> ->]. destruct (Hd l Hl) as [B F].
    split; [apply uniform_proper; intros E; rewrite E in B; cbn in B; lia|]. split; [lia|]. intros p s H. apply F. eapply uniform_in; eauto. }
  exists (total (level_mean m) 0), (total (level_mean m) 0 data). split; [|split; [|split]].
  - destruct (estimate_holds t 1 data full m Ht Hm (le_n _) Hne) as (q & E & V & _); auto; [|exists q; auto].
    intros l Hl. destruct (Hd l Hl) as [B F]. split; [lia|exact F].
  - intros p r H N. destruct (subsample_in vec data p r HL Hk H N) as (q' & oc & -> & Hin).
    destruct (Hs p _ H N oc eq_refl) as [Kc Kh]. destruct (outcome_level 1 (size t) ls q' oc Hp Hin) as [Lo Ho]. rewrite Lls in Lo.
    destruct (estimate_holds t 1 oc (store oc) m Ht Hm (le_n _)) as (q & E & V & _); auto.
    + intros ->. destruct data; [contradiction|discriminate].
    + intros l Hl. rewrite Lo in Hl. destruct (Ho l ltac:(lia)) as [C F]. destruct (Hlaw l Hl) as [_ E]. destruct (Hd l Hl) as [B _]. split; [lia|exact F].
    + exists oc, q. split; [reflexivity|]. split; [|rewrite <- Lo; auto]. intros l Hl. destruct (Ho l ltac:(lia)) as [C _]. destruct (Hlaw l Hl) as [_ E4]. lia.
  - rewrite subsample_expect by auto. cbn [value_of]. fold ls. change (fun oc => total (level_mean m) 0 oc) with (total (level_mean m) 0). rewrite expect_total by (eapply planned_proper; eauto).
    rewrite sum_from_seq, total_seq, Lls. apply rsum_ext. intros l Hl. apply in_seq in Hl. destruct (Hlaw l ltac:(lia)) as [E1 E2]. cbn [Nat.add]. unfold law, count in E1, E2. rewrite E1, E2.
    unfold level_mean. rewrite expect_mean; [apply uniform_mean| |destruct (Hd l ltac:(lia)); lia]. apply uniform_proper. intros E0. destruct (Hd l ltac:(lia)) as [B _]. rewrite E0 in B. cbn in B. lia.
  - assert (V : variance (subsample_law vec data) (value_of (total (level_mean m) 0)) = variance (campaign ls) (total (level_mean m) 0)).
    { unfold variance. rewrite !subsample_expect by auto. reflexivity. }
    rewrite V, variance_total by (eapply planned_proper; eauto).
    rewrite sum_from_seq, Lls. apply rsum_ext. intros l Hl. apply in_seq in Hl. destruct (Hlaw l ltac:(lia)) as [E1 E2]. cbn [Nat.add]. unfold law, count in E1, E2. rewrite E1, E2.
    unfold level_mean. rewrite variance_mean; [unfold differences_of; now rewrite uniform_variance| |destruct (Hd l ltac:(lia)); lia]. apply uniform_proper. intros E. destruct (Hd l ltac:(lia)) as [B _]. rewrite E in B. cbn in B. lia.
Qed.
Print Assumptions C201_estimates.

(** ** C202: samples drawn several times *)
(** In full the statement (no sample is in a subsample more often than it was collected) is false: the draws are with replacement. It holds when at most one
    sample is asked for. *)
Theorem C202_once_partial : forall X k n (chunks : list (list X)), (k <= 1)%nat -> (k <= n)%nat -> (forall c, In c chunks -> (length c <= n)%nat) ->
  surely (sub_level_law k n chunks) (fun r => exists xs rest, r = Ok xs /\ Permutation (xs ++ rest) (concat chunks)).
Proof.
  intros X k n chunks Hk1 Hk Hc. unfold sub_level_law. generalize (mkP k n) at 2. induction chunks as [|c cs IH]; intros p0 p r H N.
  - destruct H as [H|[]]. injection H as _ <-. exists [], []. split; [reflexivity|constructor].
  - assert (Lc : (length c <= n)%nat) by (apply Hc; now left). rewrite passes_cons in H. apply after_in in H as (p1 & x & p2 & H1 & H2 & ->).
    destruct (pick_outcome c k n p1 x Hk Lc H1) as (out & -> & I & _ & B). specialize (B ltac:(intros ->; apply N; ring)).
    apply in_map_iff in H2 as ([q' y'] & E & Hy). cbn [fst snd] in E. injection E as -> <-.
    destruct (IH (fun c' Hc' => Hc c' (or_intror Hc')) _ _ _ Hy) as (xs & rest & -> & P); [intros ->; apply N; ring|]. cbn [bind concat].
    assert (C : exists o', Permutation (out ++ o') c).
    { destruct out as [|x [|y out]]; [exists c; apply Permutation_refl|  |cbn in B; lia]. destruct (in_split x c (I x (or_introl eq_refl))) as (a & b & ->). exists (a ++ b). exact (Permutation_middle a b x). }
    destruct C as (o' & C). exists (out ++ xs), (o' ++ rest). split; [reflexivity|]. transitivity ((out ++ o') ++ (xs ++ rest)); [|now apply Permutation_app].
    rewrite <- !app_assoc. apply Permutation_app_head. rewrite !app_assoc. apply Permutation_app_tail, Permutation_app_comm.
Qed.
Theorem C202_once_refuted : exists (chunks : list (list nat)) k p xs, (k <= length (concat chunks))%nat /\ NoDup (concat chunks)
  /\ 0 < p /\ In (p, Ok xs) (sub_level_law k (length (concat chunks)) chunks) /\ ~ NoDup xs.
Proof.
  exists [[1; 2]]%nat, 2%nat, (1 * (/ 2 * (/ 2 * 1)) * 1), [1; 1]%nat. split; [cbn; lia|]. split; [repeat constructor; cbn; lia|]. split; [lra|]. split.
  - unfold sub_level_law. rewrite passes_cons, pick_unfold by (cbn; lia). unfold after at 1. apply in_flat_map. exists (1 * (/ 2 * (/ 2 * 1)), Ok ([1; 1]%nat, mkP 0 0)). split.
    + unfold after. apply in_flat_map. exists (1, 2%nat). split.
      * unfold hypergeom. apply in_map_iff. exists 2%nat. split; [|cbn; lia]. f_equal. cbn. field.
      * apply in_map_iff. exists (/ 2 * (/ 2 * 1), Ok ([1; 1]%nat, mkP 0 0)). split; [reflexivity|]. apply in_map_iff. exists (/ 2 * (/ 2 * 1), [1; 1]%nat). split; [reflexivity|].
        cbn [snd]. unfold uniform. cbn [length INR map draws joint flat_map fst snd app]. left. reflexivity.
    + apply in_map_iff. exists (1, Ok [1; 1]%nat). split; [reflexivity|]. cbn [snd passes map fst bind app]. left. reflexivity.
  - intros H. inversion H as [|a b H1 H2]. apply H1. now left.
Qed.
Print Assumptions C202_once_partial.
Print Assumptions C202_once_refuted.

(** ** Examples *)
(** Two chunks of two samples, one sample asked for: each sample is drawn with average 1/4, and 0, 1 or 2 samples may come. *)
Example C199_example : expect (sub_level_law 1 4 [[10; 20]; [30; 40]]%nat) (over (fun _ => 1)) = 1.
Proof.
  destruct (C199_average nat (fun _ => 1) 1 4 [[10; 20]; [30; 40]]%nat) as (_ & _ & E); [lia|intros c [<-|[<-|[]]]; cbn; lia|]. cbn [concat app map] in E.
  rewrite !rsum_cons in E. change (rsum []) with 0 in E. cbn [INR] in E. lra.
Qed.
Example C200_example : surely (in_turn 3 4 [[10; 20]; [30; 40]]%nat) (fun r => exists xs, r = Ok xs /\ length xs = 3%nat).
Proof.
  destruct (C200_in_turn nat (fun _ => 1) [[10; 20]; [30; 40]]%nat 3 4 eq_refl) as (_ & S & _); [lia|]. intros p r H N. destruct (S p r H N) as (xs & E & L & _). eauto.
Qed.
(** One level with the samples 1, 3, 5 of one number; two are drawn. *)
Definition ex_data : list (list rsample) := [[[[1]]; [[3]]; [[5]]]].
Definition ex_keep (oc : list (list rsample)) : list (nat * arr num) := [(0%nat, [map (fun s => map Fin (nth 0 s [])) (nth 0 oc [])])].
Lemma ex_kept oc : length oc = 1%nat -> (forall s, In s (nth 0 oc []) -> fit 1 0 s) -> kept 1 oc (ex_keep oc).
Proof.
  intros L F. unfold kept. rewrite L. destruct oc as [|xs [|]]; try discriminate. cbn [nth] in *. split.
  - intros l x [H|[]]. injection H as <- <-. split; [lia|]. exists (length xs). split; [reflexivity|]. intros row [<-|[]]. cbn [nth]. split; [now rewrite map_length|].
    intros v Hv. apply in_map_iff in Hv as (s & <- & Hs). destruct (F s Hs) as [L1 L2]. destruct s as [|v [|]]; try discriminate. rewrite map_length. apply L2. now left.
  - intros l Hl. assert (l = O) by lia. subst l. unfold level_samples, ex_keep. cbn [nth flat_map fst snd Nat.eqb]. rewrite app_nil_r, one_row, map_map. apply map_ext_in.
    intros s Hs. destruct (F s Hs) as [L1 _]. destruct s as [|v [|]]; try discriminate. reflexivity.
Qed.
Example C201_example : exists value, expect (subsample_law [2%nat] ex_data) (value_of value) = 3 /\ variance (subsample_law [2%nat] ex_data) (value_of value) = 4 / 3.
Proof.
  assert (F : forall s, In s (nth 0 ex_data []) -> fit 1 0 s).
  { intros s H. cbn in H. destruct H as [<-|[<-|[<-|[]]]]; (split; [reflexivity|intros v [<-|[]]; reflexivity]). }
  destruct (C201_estimates QScalar ex_data [2%nat] 0 (ex_keep ex_data) ex_keep) as (value & whole & (q & E1 & E2) & _ & E & V); try (cbn; lia); try discriminate.
  - intros l Hl. cbn in Hl. assert (l = O) by lia. subst l. split; [cbn; lia|exact F].
  - apply ex_kept; auto.
  - intros p r H N oc ->. destruct (subsample_in [2%nat] ex_data p _ eq_refl ltac:(intros l Hl; cbn in Hl; assert (l = O) by lia; subst l; cbn; lia) H N) as (q' & oc' & Eo & Hin).
    injection Eo as <-. unfold level_laws in Hin. cbn [ex_data map combine] in Hin. destruct (campaign_in _ _ _ Hin) as [L D]. cbn [length] in L, D.
    apply ex_kept; auto. intros s Hs. destruct (D O ltac:(lia)) as (q2 & Hq). cbn [nth fst snd] in Hq. apply draws_in in Hq as [_ I]. destruct (I s Hs) as (q3 & Hq3). apply F. eapply uniform_in; eauto.
  - exists value. split.
    + rewrite E. assert (E3 : exists q, estimate_mean (QScalar : qtype skey) (length ex_data) (read (ex_keep ex_data)) = Ok q /\ nth 0 (mean q) NaN = Fin (total (level_mean 0) 0 ex_data)).
      { destruct (estimate_holds QScalar 1 ex_data (ex_keep ex_data) 0) as (q3 & A & B & _); try (cbn; lia); try discriminate; try (now apply ex_kept); [|eauto].
        intros l Hl. cbn in Hl. assert (l = O) by lia. subst l. split; [cbn; lia|exact F]. }
      destruct E3 as (q3 & A & B). rewrite A in E1. injection E1 as ->. rewrite B in E2. injection E2 as <-. cbn. unfold level_mean, rmean, rdiff, rfine. cbn. field.
    + rewrite V. unfold pop_var, differences_of, rmean, rdiff, rfine. cbn. field.
Qed.
