(** Properties of bootstrap estimates and of estimates of subsamples: C128 and C129. *)
From Verif Require Import Base BaseFacts QTypeModel QuantityModel QuantitySpec QuantityProofs QuantityCache NumModel NumFacts EstimateModel EstimateSpec EstimateProofs EstimateProps BootModel.
Local Open Scope nat_scope.

(** ** C128: bootstrap.
    In full: est_bootstrap gives one estimate for each subsample. *)
Definition bootstrap_works : Prop := exists (t : qtype skey) mom L vec chunks draw n qs, 0 < n /\ est_bootstrap t mom L vec chunks draw n = Ok qs.
Theorem C128_refuted : forall (t : qtype skey) mom L vec chunks draw n, 0 < n -> exists e, est_bootstrap t mom L vec chunks draw n = Err e.
Proof.
  intros t mom L vec chunks draw n Hn. unfold est_bootstrap. destruct (_ && _)%bool; [eexists; reflexivity|].
  destruct n as [|n]; [lia|]. cbn [seq boot_loop]. destruct chunks as [|[l x] chunks].
  - exists PyException. reflexivity.
  - unfold estimate_mean. cbn [length seq combine map fst snd est_loop]. unfold est_step at 1. cbn [fst snd].
    unfold boot_chunk. destruct (pick_op (draw 0 0) x) as [m|e]; cbn [bind]; eexists; reflexivity.
Qed.
Print Assumptions C128_refuted.
Corollary C128_refuted_full : ~ bootstrap_works.
Proof. intros (t & mom & L & vec & chunks & draw & n & qs & Hn & E). destruct (C128_refuted t mom L vec chunks draw n Hn) as [e E']. congruence. Qed.

(** ** C129: estimates of subsamples. *)
Lemma pick_op_ok ps M N k (x : arr num) : shaped M N k x -> (forall p, In p ps -> p < N) ->
  pick_op ps x = Ok (map (fun row => map (fun i => nth i row []) ps) x).
Proof.
  intros [_ H] Hp. unfold pick_op. apply mapM_ok. intros row Hr. apply mapM_ok. intros i Hi. destruct (H row Hr) as [L _].
  specialize (Hp i Hi). assert (Hi' : i < length row) by lia. rewrite (nth_error_nth' row [] Hi'). reflexivity.
Qed.
Lemma picked_shaped ps M N k (x : arr num) : shaped M N k x -> (forall p, In p ps -> p < N) -> shaped M (length ps) k (map (fun row => map (fun i => nth i row []) ps) x).
Proof.
  intros [L H] Hp. split; [now rewrite map_length|]. intros row Hr. apply in_map_iff in Hr as (r & <- & Hr). destruct (H r Hr) as [Lr Hs]. split; [now rewrite map_length|].
  intros s Hs'. apply in_map_iff in Hs' as (i & <- & Hi). apply Hs, nth_In. specialize (Hp i Hi). lia.
Qed.
Lemma level_of_chunks (ys : list (arr num)) : forall a l, level_samples (combine (seq a (length ys)) ys) l = if (a <=? l) && (l <? a + length ys) then samples_of (nth (l - a) ys []) else [].
Proof.
  induction ys as [|y ys IH]; intros a l; cbn [length seq combine].
  - destruct (_ && _); [destruct (l - a)|]; reflexivity.
  - unfold level_samples in *. cbn [flat_map fst snd]. rewrite IH. destruct (Nat.eqb_spec a l) as [->|N].
    + replace (l - l) with 0 by lia. cbn [nth]. destruct (Nat.leb_spec (S l) l); [lia|]. destruct (Nat.leb_spec l l); [|lia].
      destruct (Nat.ltb_spec l (l + S (length ys))); [|lia]. cbn. apply app_nil_r.
    + destruct (Nat.leb_spec (S a) l), (Nat.leb_spec a l); try lia; cbn [app andb].
      * replace (l - a) with (S (l - S a)) by lia. cbn [nth]. replace (S a + length ys) with (a + S (length ys)) by lia. reflexivity.
      * reflexivity.
Qed.
(** The draws for a level of N samples and the number k asked for: as in C52. *)
Definition drawn (N k : nat) (ps : list nat) : Prop := exists size, hyper N k N size /\ choice N size ps.
Theorem C129_subsample : forall (t : qtype skey) L xs vec pss (N : nat -> nat), size t <> 0 -> length xs = L -> length pss = L ->
  (forall l, l < L -> shaped (size t) (N l) (parts l) (nth l xs []) /\ nth l vec 0 <= N l /\ drawn (N l) (nth l vec 0) (nth l pss [])) ->
  exists ys, subsampled xs pss = Ok ys /\ length ys = L
  /\ (forall l s, l < L -> In s (samples_of (nth l ys [])) -> In s (samples_of (nth l xs [])))
  /\ forall q, estimate_mean t L (read (combine (seq 0 L) ys)) = Ok q -> forall l, l < L -> nth l (q_n q) 0 + nth l (q_rm q) 0 = nth l vec 0.
Proof.
  intros t L xs vec pss N Ht Lx Lp H.
  set (ys := map (fun p : arr num * list nat => (map (fun row => map (fun i => nth i row []) (snd p)) (fst p) : arr num)) (combine xs pss)).
  assert (E : subsampled xs pss = Ok ys).
  { unfold subsampled, ys. assert (Lxp : length xs = length pss) by lia. assert (H' : forall l, l < length xs -> forall p, In p (nth l pss []) -> exists M n k, shaped M n k (nth l xs []) /\ forall p, In p (nth l pss []) -> p < n).
    { intros l Hl p Hp. destruct (H l ltac:(lia)) as (S1 & _ & size & _ & _ & C). eauto. }
    assert (H2 : forall l, l < length xs -> pick_op (nth l pss []) (nth l xs []) = Ok (map (fun row => map (fun i => nth i row []) (nth l pss [])) (nth l xs []))).
    { intros l Hl. destruct (H l ltac:(lia)) as (S1 & _ & size & _ & _ & C). eapply pick_op_ok; eauto. }
    clear H H' Lx Lp ys. revert pss Lxp H2. induction xs as [|x xs IH]; intros [|ps pss] Lxp H2; try discriminate; [reflexivity|].
    cbn [mapM2]. pose proof (H2 0 ltac:(cbn; lia)) as H0. cbn [nth] in H0. rewrite H0. cbn [bind]. rewrite IH; [reflexivity|cbn in Lxp; lia|]. intros l Hl. apply (H2 (S l)). cbn. lia. }
  assert (Ly : length ys = L) by (unfold ys; rewrite map_length, combine_length; lia).
  assert (Y : forall l, l < L -> nth l ys [] = map (fun row => map (fun i => nth i row []) (nth l pss [])) (nth l xs [])).
  { intros l Hl. unfold ys. set (f := fun p : arr num * list nat => (map (fun row => map (fun i => nth i row []) (snd p)) (fst p) : arr num)).
    change (@nil (list (list num))) with (f ([], [])) at 1. rewrite map_nth. rewrite combine_nth by lia. reflexivity. }
  assert (Lps : forall l, l < L -> length (nth l pss []) = nth l vec 0 /\ forall p, In p (nth l pss []) -> p < N l).
  { intros l Hl. destruct (H l Hl) as (_ & Hk & size & Hh & Hlen & C). split; [|exact C]. unfold hyper in Hh. lia. }
  assert (Sy : forall l, l < L -> shaped (size t) (length (nth l pss [])) (parts l) (nth l ys [])).
  { intros l Hl. rewrite (Y l Hl). destruct (H l Hl) as (S1 & _). eapply picked_shaped; [exact S1|apply (Lps l Hl)]. }
  exists ys. split; [exact E|]. split; [exact Ly|]. split.
  - intros l s Hl Hs. destruct (H l Hl) as (S1 & _). rewrite (samples_of_shaped _ _ _ _ (Sy l Hl) Ht) in Hs. rewrite (samples_of_shaped _ _ _ _ S1 Ht).
    apply in_map_iff in Hs as (i & <- & Hi). apply in_seq in Hi. apply in_map_iff. exists (nth i (nth l pss []) 0).
    destruct (Lps l Hl) as [_ C]. split; [|apply in_seq; specialize (C (nth i (nth l pss []) 0) ltac:(apply nth_In; lia)); lia].
    rewrite (Y l Hl), map_map. apply map_ext. intros row.
    rewrite (nth_indep (map (fun i0 => nth i0 row []) (nth l pss [])) [] (nth 0 row [])) by (rewrite map_length; lia).
    symmetry. apply (map_nth (fun i0 => nth i0 row [])).
  - intros q Eq l Hl. assert (C : chunks_ok (size t) L (combine (seq 0 L) ys)).
    { intros l' x Hx. pose proof (in_combine_l _ _ _ _ Hx) as Hin. apply in_seq in Hin. split; [lia|].
      assert (x = nth l' ys []).
      { apply (In_nth _ _ (0, [])) in Hx as (i & Hi & Hx). rewrite combine_length, seq_length in Hi. rewrite combine_nth in Hx by (rewrite seq_length; symmetry; exact Ly).
        rewrite seq_nth in Hx by lia. injection Hx as <- <-. reflexivity. }
      subst x. eexists. apply Sy. lia. }
    destruct (C39_counts t L _ q l Ht C Eq Hl) as [_ A]. rewrite A. rewrite <- Ly, level_of_chunks. cbn [Nat.leb andb].
    destruct (Nat.ltb_spec l (0 + length ys)); [|lia]. rewrite Nat.sub_0_r.
    rewrite (samples_of_shaped _ _ _ _ (Sy l Hl) Ht), map_length, seq_length. apply (Lps l Hl).
Qed.
Print Assumptions C129_subsample.

(** ** Examples: two levels of three and two samples, of which two and one are drawn. *)
Example C129_example : drawn 3 2 [2; 0] /\ drawn 2 1 [1]
  /\ subsampled [[[[Fin 1]; [Fin 2]; [Fin 3]]]; [[[Fin 4; Fin 5]; [Fin 6; Fin 7]]]] [[2; 0]; [1]] = Ok [[[[Fin 3]; [Fin 1]]]; [[[Fin 6; Fin 7]]]].
Proof.
  split; [exists 2; split; [unfold hyper; lia|split; [reflexivity|intros p [<-|[<-|[]]]; lia]]|].
  split; [exists 1; split; [unfold hyper; lia|split; [reflexivity|intros p [<-|[]]; lia]]|]. reflexivity.
Qed.
Example C128_example : est_bootstrap (QScalar : qtype skey) (fun x => x) 1 (Some [2]) [(0, [[[Fin 1]; [Fin 2]]])] (fun _ _ => [1; 0]) 3 = Err IndexError.
Proof. reflexivity. Qed.
