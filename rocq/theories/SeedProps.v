(** Properties of seeds and of the reproducibility of samples: C130-C132. *)
From Verif Require Import Base BaseFacts TagModel TagProps SeedModel SeedSpec SynthModel.
From Coq Require Import Reals.
Local Open Scope nat_scope.

Section Sims.
Context {G P V F : Type}.
Variables (seed_state : N -> G) (normals : G -> nat -> list V * G) (est : list P -> nat -> Q)
  (rsvd : list P -> nat -> G -> (list Q * F) * G) (full_svd : list P -> list Q * F) (mult : F -> nat -> list V -> list V)
  (srf : nat -> list P -> list V) (modes : list nat -> list P -> list V) (flow : list P -> list V -> res (list V))
  (shoot1 : list V -> list V) (shoot2 : list V -> list V -> list V) (zero : V).
Notation flow_sim := (calculate_flow seed_state normals est rsvd full_svd mult srf modes flow zero).
Notation shoot1_sim := (calculate_shoot1 normals est rsvd full_svd mult srf modes shoot1).
Notation shoot2_sim := (calculate_shoot2 normals est rsvd full_svd mult srf modes shoot2).

(** ** C130: fields by decomposition. *)
Theorem C130_flow_svd : reproducible (fun (w : world) c s => flow_sim w (mkC (str "svd") (c_dim c) (c_fine c) (c_coarse c)) s).
Proof.
  intros w w' c s. unfold calculate_flow. cbn [c_model c_dim c_fine c_coarse]. unfold create_corr_field.
  destruct (pystr_eq_dec (str "svd") (str "fourier")) as [E|_]; [discriminate|].
  destruct (pystr_eq_dec (str "svd") (str "svd")) as [_|N]; [|congruence].
  cbn [sample np_seed rng os]. destruct (svd_dcmp _ _ _ _ _) as [[[f m] g]|e]; [|reflexivity].
  destruct (normals g m). reflexivity.
Qed.

(** ** C131: all fields and simulations.
    In full: [reproducible] for each simulation. The seed has no influence on flow simulations with other fields, nor on the shooting. *)
Theorem C131_flow_ignores_seed : forall model, model <> str "svd" ->
  ignores_seed (fun (w : world) c s => flow_sim w (mkC model (c_dim c) (c_fine c) (c_coarse c)) s).
Proof.
  intros model N w c s s'. unfold calculate_flow. cbn [c_model c_dim c_fine c_coarse]. unfold create_corr_field.
  destruct (pystr_eq_dec model (str "fourier")) as [_|_].
  - cbn [sample np_seed fresh rng os]. destruct (c_dim c) as [|[|[|d]]]; reflexivity.
  - destruct (pystr_eq_dec model (str "svd")) as [E|_]; [congruence|]. reflexivity.
Qed.
Theorem C131_shooting_ignores_seed : ignores_seed shoot1_sim /\ ignores_seed shoot2_sim.
Proof. split; intros w c s s'; reflexivity. Qed.
End Sims.
Print Assumptions C130_flow_svd.
Print Assumptions C131_flow_ignores_seed.
Print Assumptions C131_shooting_ignores_seed.

(** The synthetic simulation, with its counters as the state. *)
Definition synth_sim (rvs : nat -> nat -> list R) (nan_fraction : Q) (st : synth_st) (c : list qfmt * R * R) (seed : nat) : res (list R * list R) * synth_st :=
  let '(s, r) := calculate rvs nan_fraction st (fst (fst c)) (snd (fst c)) (snd c) seed in (r, s).
Lemma ratio_nonneg n m : (0 <= inject_Z (Z.of_nat n) / ((1 # 10000000000) + inject_Z (Z.of_nat m)))%Q.
Proof.
  assert (A : (0 <= inject_Z (Z.of_nat n))%Q) by (change 0%Q with (inject_Z 0); rewrite <- Zle_Qle; lia).
  assert (B : (0 <= inject_Z (Z.of_nat m))%Q) by (change 0%Q with (inject_Z 0); rewrite <- Zle_Qle; lia).
  apply Qle_shift_div_l; [|ring_simplify; exact A].
  apply Qlt_le_trans with ((1 # 10000000000) + 0)%Q; [reflexivity|]. apply Qplus_le_compat; [apply Qle_refl|exact B].
Qed.
Theorem C130_synth : forall rvs nan_fraction, (nan_fraction <= 0)%Q -> reproducible (synth_sim rvs nan_fraction).
Proof.
  intros rvs nf H w w' [[fmt fs] cs] seed. unfold synth_sim. cbn [fst snd].
  assert (A : forall st n m, generate rvs nf st n m = (mkSt (n_nans st) (S (len_results st)), Some (rvs n m))).
  { intros st n m. unfold generate. cbn [n_nans len_results].
    assert (L : Qle_bool nf (inject_Z (Z.of_nat (n_nans st)) / ((1 # 10000000000) + inject_Z (Z.of_nat (S (len_results st))))) = true).
    { apply Qle_bool_iff. eapply Qle_trans; [exact H|]. apply ratio_nonneg. }
    rewrite L. reflexivity. }
  unfold calculate. destruct fmt as [|q fmt]; [reflexivity|]. rewrite !A. reflexivity.
Qed.
Print Assumptions C130_synth.
(** With a share of failed samples the counters decide: the first sample of a process fails, the same sample computed after two failures
    does not. *)
Theorem C131_synth_refuted : forall rvs, exists st st' seed,
  fst (synth_sim rvs (1 # 2) st ([mkQ [1] 1 1], 1%R, 0%R) seed) = Err PyException
  /\ exists v, fst (synth_sim rvs (1 # 2) st' ([mkQ [1] 1 1], 1%R, 0%R) seed) = Ok v.
Proof.
  intros rvs. exists (mkSt 0 0), (mkSt 2 2), 7. split; [reflexivity|]. unfold synth_sim, calculate, generate. cbn [fst snd n_nans len_results q_shape].
  match goal with |- context [Qle_bool ?a ?b] => let x := eval vm_compute in (Qle_bool a b) in change (Qle_bool a b) with x end.
  cbn [negb]. unfold pack. cbn [forallb].
  repeat match goal with |- context [list_eq_dec ?d ?a ?b] => destruct (list_eq_dec d a b) as [_|N]; [|congruence]; cbn [andb bind fst] end.
  eexists. reflexivity.
Qed.
Print Assumptions C131_synth_refuted.

(** Fields of gstools and Fourier modes, for instances in which the values are the seeds of the generators: two runs with one seed differ. *)
Definition w_of (e : nat) : world := mkW (G := unit) tt (fun i => e + i).
Definition flow_demo (model : pystr) := calculate_flow (G := unit) (P := unit) (V := nat) (F := unit) (fun _ => tt) (fun g n => (repeat 0 n, g))
  (fun _ _ => 0%Q) (fun _ _ g => (([], tt), g)) (fun _ => ([], tt)) (fun _ _ x => x) (fun e pts => repeat e (length pts)) (fun es pts => repeat (hd 0 es) (length pts))
  (fun _ x => Ok x) 0.
Definition shoot_demo := calculate_shoot1 (G := unit) (P := unit) (V := nat) (F := unit) (fun g n => (repeat 0 n, g))
  (fun _ _ => 0%Q) (fun _ _ g => (([], tt), g)) (fun _ => ([], tt)) (fun _ _ x => x) (fun e pts => repeat e (length pts)) (fun es pts => repeat (hd 0 es) (length pts))
  (fun x => x).
Theorem C131_flow_refuted : forall model, In model [str "gauss"; str "fourier"; str "exp"] ->
  ~ reproducible (fun (w : world) c s => flow_demo model w (mkC model (c_dim c) (c_fine c) (c_coarse c)) s).
Proof.
  intros model H R. specialize (R (w_of 1) (w_of 2) (mkC [] 2 [tt] None) 5%N). cbn [In] in H. destruct H as [<-|[<-|[<-|[]]]]; discriminate R.
Qed.
Theorem C131_shooting_refuted : ~ reproducible shoot_demo.
Proof. intros R. specialize (R (w_of 1) (w_of 2) (mkC [] 1 [tt] None) 5%N). discriminate R. Qed.
Print Assumptions C131_flow_refuted.
Print Assumptions C131_shooting_refuted.

(** ** C132: seeds of samples. *)
Definition md5_like (digest : pystr -> list N) : Prop := forall id, length (digest id) = 16 /\ Forall (fun b => (b < 256)%N) (digest id).
(** Every identifier has a seed that np.random.seed accepts. *)
Theorem C132_partial : forall digest, md5_like digest -> forall id, exists s, compute_seed digest id = Ok s /\ (s < 2 ^ 32)%N.
Proof.
  intros digest H id. destruct (H id) as [L F]. unfold compute_seed. destruct (digest id) as [|b0 [|b1 [|b2 [|b3 l]]]]; try discriminate.
  eexists. split; [reflexivity|]. inversion F as [|? ? B0 F0]; subst. inversion F0 as [|? ? B1 F1]; subst. inversion F1 as [|? ? B2 F2]; subst. inversion F2 as [|? ? B3 F3]; subst.
  change (2 ^ 32)%N with 4294967296%N. lia.
Qed.
Print Assumptions C132_partial.
(** Two identifiers share the seed exactly when the first four bytes of their hashes agree. *)
Theorem C132_distinct_partial : forall digest, md5_like digest -> forall id id',
  compute_seed digest id = compute_seed digest id' <-> firstn 4 (digest id) = firstn 4 (digest id').
Proof.
  intros digest H id id'. destruct (H id) as [L F]. destruct (H id') as [L' F']. unfold compute_seed.
  destruct (digest id) as [|b0 [|b1 [|b2 [|b3 l]]]]; try discriminate. destruct (digest id') as [|c0 [|c1 [|c2 [|c3 l']]]]; try discriminate. cbn [firstn].
  inversion F as [|? ? B0 F0]; subst. inversion F0 as [|? ? B1 F1]; subst. inversion F1 as [|? ? B2 F2]; subst. inversion F2 as [|? ? B3 F3]; subst.
  inversion F' as [|? ? C0 G0]; subst. inversion G0 as [|? ? C1 G1]; subst. inversion G1 as [|? ? C2 G2]; subst. inversion G2 as [|? ? C3 G3]; subst.
  clear - B0 B1 B2 C0 C1 C2. split.
  - intros E. apply (f_equal (fun r => match r with Ok s => s | Err _ => 0%N end)) in E. cbv iota beta in E.
    assert (b0 = c0 /\ b1 = c1 /\ b2 = c2 /\ b3 = c3)%N as (-> & -> & -> & ->) by lia. reflexivity.
  - intros E. injection E as -> -> -> ->. reflexivity.
Qed.
Print Assumptions C132_distinct_partial.
Lemma pigeon_nat (f : nat -> nat) n : (exists i j, i < j < n /\ f i = f j) \/ NoDup (map f (seq 0 n)).
Proof.
  induction n as [|n IH]; [right; constructor|]. destruct IH as [(i & j & L & E)|IH]; [left; exists i, j; split; [lia|exact E]|].
  rewrite seq_S, map_app. cbn [plus map]. destruct (in_dec Nat.eq_dec (f n) (map f (seq 0 n))) as [I|I].
  - left. apply in_map_iff in I as (i & E & Hi). apply in_seq in Hi. exists i, n. split; [lia|exact E].
  - right. apply NoDup_app_iff. split; [exact IH|]. split; [constructor; [intros []|constructor]|].
    intros x Hx [<-|[]]. contradiction.
Qed.
Lemma pigeon (f : N -> N) (B : N) : (forall i, (i <= B)%N -> (f i < B)%N) -> collision f B.
Proof.
  intros H. destruct (pigeon_nat (fun i => N.to_nat (f (N.of_nat i))) (S (N.to_nat B))) as [(i & j & L & E)|ND].
  - exists (N.of_nat i), (N.of_nat j). split; [lia|]. apply N2Nat.inj. exact E.
  - exfalso. assert (I : incl (map (fun i => N.to_nat (f (N.of_nat i))) (seq 0 (S (N.to_nat B)))) (seq 0 (N.to_nat B))).
    { intros x Hx. apply in_map_iff in Hx as (i & <- & Hi). apply in_seq in Hi. apply in_seq. specialize (H (N.of_nat i) ltac:(lia)). lia. }
    pose proof (NoDup_incl_length ND I) as L. rewrite map_length, !seq_length in L. lia.
Qed.
(** In full: different samples have different seeds. On any level, two of the first 2^32 + 1 samples share one. *)
Theorem C132_refuted : forall digest, md5_like digest -> forall level, collision (fun n => compute_seed digest (sample_tag level n)) (2 ^ 32).
Proof.
  intros digest H level. destruct (pigeon (fun n => match compute_seed digest (sample_tag level n) with Ok s => s | Err _ => 0%N end) (2 ^ 32)) as (i & j & L & E).
  - intros i _. destruct (C132_partial digest H (sample_tag level i)) as (s & -> & S). exact S.
  - exists i, j. split; [exact L|]. destruct (C132_partial digest H (sample_tag level i)) as (s & A & _). destruct (C132_partial digest H (sample_tag level j)) as (s' & B & _).
    rewrite A, B in *. congruence.
Qed.
Print Assumptions C132_refuted.
(** Two samples with different identifiers and, for a reproducible simulation, the same result in any process. *)
Theorem C132_equal_results : forall (W C R : Type) (sim : W -> C -> N -> R * W) digest level, md5_like digest -> reproducible sim ->
  exists i j s, sample_tag level i <> sample_tag level j /\ compute_seed digest (sample_tag level i) = Ok s /\ compute_seed digest (sample_tag level j) = Ok s
    /\ forall w w' c, fst (sim w c s) = fst (sim w' c s).
Proof.
  intros W C R sim digest level H Hr. destruct (C132_refuted digest H level) as (i & j & L & E). destruct (C132_partial digest H (sample_tag level i)) as (s & A & _).
  exists i, j, s. split; [|split; [exact A|split; [congruence|intros; apply Hr]]]. intros T. apply C02_tag_injective in T as [_ T]. lia.
Qed.
Print Assumptions C132_equal_results.

(** ** Examples. *)
Definition demo_digest (id : pystr) : list N := map (fun i => (N.of_nat (length id + i) mod 256)%N) (seq 0 16).
Example C132_example : md5_like demo_digest /\ compute_seed demo_digest (str "L00_S0000000") = Ok 252579084%N.
Proof.
  split; [|vm_compute; reflexivity]. intros id. split; [reflexivity|]. apply Forall_forall. intros b Hb. apply in_map_iff in Hb as (i & <- & _). apply N.mod_lt. discriminate.
Qed.
(** A field of two points by decomposition: the result depends on the seed, not on the state of the generator. *)
Definition svd_demo := calculate_flow (G := N) (P := unit) (V := N) (F := unit) (fun s => s) (fun g n => (repeat g n, g + 1)%N)
  (fun _ _ => 1%Q) (fun _ m g => ((repeat 1%Q m ++ [1 # 1000], tt), g + 10)%N) (fun _ => ([1%Q], tt)) (fun _ m x => x) (fun e pts => []) (fun es pts => [])
  (fun _ x => Ok x) 0%N.
Example C130_example : fst (svd_demo (mkW 3%N (fun i => i)) (mkC (str "svd") 2 [tt; tt] None) 5) = Ok ([15; 15]%N, [0; 0]%N)
  /\ fst (svd_demo (mkW 100%N (fun i => 2 * i)) (mkC (str "svd") 2 [tt; tt] None) 5) = Ok ([15; 15]%N, [0; 0]%N)
  /\ fst (svd_demo (mkW 3%N (fun i => i)) (mkC (str "svd") 2 [tt; tt] None) 6) = Ok ([16; 16]%N, [0; 0]%N).
Proof. vm_compute. auto. Qed.
