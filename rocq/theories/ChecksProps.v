(** Checks made by the code and quantities counted by it: C109 - C115. *)
From Coq Require Import Lqa Reals.
From Verif Require Import Base BaseFacts SynthModel FieldModel MeshModel MeshProps PoolModel PoolProofs PbsModel GmshModel GmshSpec GmshProofs GmshProps.
Local Open Scope nat_scope.

(** ** C109: the share of failed samples of the synthetic simulation. *)
(** State after samples with the given seeds and sizes. *)
Fixpoint synth_run (rvs : nat -> nat -> list R) (f : Q) (s : synth_st) (calls : list (nat * nat)) : synth_st :=
  match calls with
  | [] => s
  | c :: cs => synth_run rvs f (fst (generate rvs f s (fst c) (snd c))) cs
  end.
(** Number of samples without value. *)
Fixpoint synth_failed (rvs : nat -> nat -> list R) (f : Q) (s : synth_st) (calls : list (nat * nat)) : nat :=
  match calls with
  | [] => 0
  | c :: cs => (match snd (generate rvs f s (fst c) (snd c)) with None => 1 | Some _ => 0 end)
               + synth_failed rvs f (fst (generate rvs f s (fst c) (snd c))) cs
  end.
Definition qnat (n : nat) : Q := inject_Z (Z.of_nat n).
Lemma qnat_S n : (qnat (S n) == qnat n + 1)%Q.
Proof. unfold qnat. rewrite Nat2Z.inj_succ, <- Z.add_1_r, inject_Z_plus. reflexivity. Qed.
Definition within (f : Q) (n k : nat) : Prop := (f * qnat n <= qnat k /\ qnat k < f * (qnat n + (1 # 10000000000)) + 1)%Q.
Lemma generate_within rvs f s seed size : (0 <= f <= 1)%Q -> within f (len_results s) (n_nans s) ->
  let s' := fst (generate rvs f s seed size) in
  len_results s' = S (len_results s) /\ within f (len_results s') (n_nans s')
  /\ n_nans s' = (match snd (generate rvs f s seed size) with None => 1 | Some _ => 0 end) + n_nans s.
Proof.
  intros Hf [A B]. destruct s as [k n]. cbn [n_nans len_results] in *. unfold generate. cbn [n_nans len_results].
  assert (Hn : (0 < (1 # 10000000000) + inject_Z (Z.of_nat (S n)))%Q).
  { fold (qnat (S n)). rewrite qnat_S. assert (0 <= qnat n)%Q by (unfold qnat; change 0%Q with (inject_Z 0); rewrite <- Zle_Qle; lia). lra. }
  fold (qnat k). fold (qnat (S n)) in *. set (d := ((1 # 10000000000) + qnat (S n))%Q) in *.
  assert (E : (qnat k / d * d == qnat k)%Q) by (field; lra).
  destruct (Qle_bool f (qnat k / d)) eqn:L; cbn [negb fst snd n_nans len_results].
  - apply Qle_bool_iff in L. split; [reflexivity|split; [|reflexivity]].
    assert (f * d <= qnat k)%Q by (rewrite <- E; apply Qmult_le_compat_r; lra).
    unfold within. rewrite qnat_S in *. unfold d in *. rewrite qnat_S in *. split; lra.
  - assert (qnat k / d < f)%Q by (apply Qnot_le_lt; intros X; apply Qle_bool_iff in X; congruence).
    assert (qnat k < f * d)%Q by (rewrite <- E; apply Qmult_lt_compat_r; lra).
    split; [reflexivity|split; [|reflexivity]]. unfold within. unfold d in *. rewrite (qnat_S k), qnat_S in *. split; lra.
Qed.
(** After any number of samples of a new process the number of failed ones is that of the wanted share, rounded up. *)
Theorem C109_share : forall rvs f calls, (0 <= f <= 1)%Q ->
  let n := qnat (length calls) in
  let k := qnat (synth_failed rvs f (mkSt 0 0) calls) in
  (f * n <= k /\ k < f * (n + (1 # 10000000000)) + 1)%Q.
Proof.
  intros rvs f calls Hf. cbv zeta.
  assert (G : forall cs s, within f (len_results s) (n_nans s) -> within f (length cs + len_results s) (synth_failed rvs f s cs + n_nans s)).
  { induction cs as [|c cs IH]; intros s W; [exact W|]. cbn [length synth_failed].
    destruct (generate_within rvs f s (fst c) (snd c) Hf W) as (A & B & C). specialize (IH _ B). rewrite A, C in IH.
    match goal with |- within _ ?a ?b => match type of IH with within _ ?a' ?b' => replace a with a' by lia; replace b with b' by lia end end. exact IH. }
  specialize (G calls (mkSt 0 0)). cbn [len_results n_nans] in G. rewrite !Nat.add_0_r in G. apply G.
  unfold within. change (qnat 0) with 0%Q. split; lra.
Qed.
Print Assumptions C109_share.
Example C109_example : synth_failed (fun _ _ => []) (1 # 3) (mkSt 0 0) (repeat (1, 1) 10) = 4.
Proof. reflexivity. Qed.

(** ** C110: parameters of fields. *)
(** Number of parameters of a field. *)
Definition takes {V} (k : @kind V) (n : nat) : Prop :=
  match k with KConst _ | KRandom _ => n = 0 | KFunc a _ => n = a /\ n <> 0 end.
Theorem C110_parameters : forall {V} name (k : @kind V) params regions,
  (takes k (length params) -> mk_field name k params regions = Ok (mkSpec name k params regions))
  /\ (~ takes k (length params) -> exists e, mk_field name k params regions = Err e /\ (e = AssertionError \/ e = PyException)).
Proof.
  intros V name k params regions. unfold takes, mk_field. destruct k as [c|r|a h].
  1,2: destruct (Nat.eqb_spec (length params) 0); split; try tauto; try reflexivity; intros; eexists; split; [reflexivity|auto].
  destruct (Nat.eqb_spec (length params) 0) as [E|E]; [split; [intros []; contradiction|eexists; split; [reflexivity|auto]]|].
  destruct (Nat.eqb_spec a (length params)) as [F|F].
  - split; [reflexivity|]. intros H. exfalso. apply H. auto.
  - split; [intros []; congruence|]. eexists. split; [reflexivity|auto].
Qed.
Print Assumptions C110_parameters.
Example C110_example : mk_field (str "f") (KFunc 2 (fun l => hd 0 l)) [PName (str "a")] [] = Err PyException
  /\ takes (KFunc 2 (fun l => hd 0 l)) (length [PName (str "a"); PNum 3]).
Proof. split; [reflexivity|split; [reflexivity|discriminate]]. Qed.

(** ** C111: coordinates kept of a mesh. *)
(** Some two centres are at least 1e-10 apart along an axis. *)
Definition thick (cs : list coord) (i : nat) : Prop := exists c d, In c cs /\ In d cs /\ (axis i c - axis i d >= 1 # 10000000000)%Q.
Lemma qmin_spec l : forall x, (forall y, In y (x :: l) -> (qmin x l <= y)%Q) /\ In (qmin x l) (x :: l).
Proof.
  induction l as [|a l IH]; intros x; cbn [qmin fold_right].
  - split; [intros y [<-|[]]; lra|left; reflexivity].
  - fold (qmin x l). destruct (IH x) as [A B]. destruct (Qle_bool a (qmin x l)) eqn:E.
    + apply Qle_bool_iff in E. split; [|right; left; reflexivity]. intros y [<-|[<-|H]].
      * specialize (A x (or_introl eq_refl)). lra.
      * lra.
      * specialize (A y (or_intror H)). lra.
    + assert (qmin x l < a)%Q by (apply Qnot_le_lt; intros X; apply Qle_bool_iff in X; congruence).
      split; [|destruct B as [B|B]; [left; exact B|right; right; exact B]]. intros y [<-|[<-|H']].
      * apply A. left. reflexivity.
      * lra.
      * apply A. right. exact H'.
Qed.
Lemma qmax_spec l : forall x, (forall y, In y (x :: l) -> (y <= qmax x l)%Q) /\ In (qmax x l) (x :: l).
Proof.
  induction l as [|a l IH]; intros x; cbn [qmax fold_right].
  - split; [intros y [<-|[]]; lra|left; reflexivity].
  - fold (qmax x l). destruct (IH x) as [A B]. destruct (Qle_bool a (qmax x l)) eqn:E.
    + apply Qle_bool_iff in E. split; [|destruct B as [B|B]; [left; exact B|right; right; exact B]]. intros y [<-|[<-|H']].
      * apply A. left. reflexivity.
      * lra.
      * apply A. right. exact H'.
    + assert (qmax x l < a)%Q by (apply Qnot_le_lt; intros X; apply Qle_bool_iff in X; congruence).
      split; [|right; left; reflexivity]. intros y [<-|[<-|H']].
      * specialize (A x (or_introl eq_refl)). lra.
      * lra.
      * specialize (A y (or_intror H')). lra.
Qed.
Lemma extent_thick cs i : cs <> [] -> ((1 # 10000000000) <= extent (map (axis i) cs))%Q <-> thick cs i.
Proof.
  intros N. destruct cs as [|c cs]; [congruence|]. cbn [map extent].
  destruct (qmin_spec (map (axis i) cs) (axis i c)) as [A B]. destruct (qmax_spec (map (axis i) cs) (axis i c)) as [C D].
  change (axis i c :: map (axis i) cs) with (map (axis i) (c :: cs)) in *. split.
  - intros H. apply in_map_iff in B as (b & B1 & B2). apply in_map_iff in D as (d & D1 & D2). exists d, b.
    split; [exact D2|split; [exact B2|]]. rewrite B1, D1. exact H.
  - intros (u & v & U & W & H). specialize (C (axis i u) (in_map _ _ _ U)). specialize (A (axis i v) (in_map _ _ _ W)). lra.
Qed.
(** All three coordinates are kept when the centres extend along all axes; otherwise exactly one axis is left out, and the
    centres extend along it by less than the tolerance. *)
Theorem C111_coordinates : forall g md, extract_mesh g = Ok md ->
  exists cs, Forall2 (barycentre g) (bulk g) cs
  /\ ((forall i, i < 3 -> thick cs i) -> md_points md = map (fun c => [axis 0 c; axis 1 c; axis 2 c]) cs)
  /\ ((exists i, i < 3 /\ ~ thick cs i) ->
      exists k a b, k < 3 /\ a < b < 3 /\ a <> k /\ b <> k /\ ~ thick cs k /\ md_points md = map (fun c => [axis a c; axis b c]) cs).
Proof.
  intros g md H. destruct (extract_mesh_ok g md H) as (cs & A & _ & _ & P & N). exists cs. split; [exact A|]. rewrite P. clear P H A.
  set (d := fun i => extent (map (axis i) cs)).
  assert (T : forall i, ((1 # 10000000000) <= d i)%Q <-> thick cs i) by (intros i; apply extent_thick; exact N).
  set (j := if Qle_bool (d 0) (d 1) then 0 else 1). set (k := if Qle_bool (d j) (d 2) then j else 2).
  replace (drop_axis cs) with (if Qle_bool (1 # 10000000000) (d k) then None else Some k) by reflexivity.
  assert (K : k < 3 /\ forall i, i < 3 -> (d k <= d i)%Q).
  { assert (J : j < 2 /\ (d j <= d 0%nat)%Q /\ (d j <= d 1%nat)%Q).
    { unfold j. destruct (Qle_bool (d 0) (d 1)) eqn:E; [apply Qle_bool_iff in E; split; [lia|split; lra]|].
      assert (d 1%nat < d 0%nat)%Q by (apply Qnot_le_lt; intros X; apply Qle_bool_iff in X; congruence). split; [lia|split; lra]. }
    destruct J as (J0 & J1 & J2). unfold k. destruct (Qle_bool (d j) (d 2)) eqn:E.
    - apply Qle_bool_iff in E. split; [lia|]. intros [|[|[|i]]] Hi; try assumption; lia.
    - assert (d 2%nat < d j)%Q by (apply Qnot_le_lt; intros X; apply Qle_bool_iff in X; congruence).
      split; [lia|]. intros [|[|[|i]]] Hi; try lia; lra. }
  destruct K as [K1 K2]. split.
  - intros Th. pose proof (proj2 (T k) (Th k K1)) as D. apply Qle_bool_iff in D. rewrite D. reflexivity.
  - intros (i & Hi & Ti). assert (Dk : ~ ((1 # 10000000000) <= d k)%Q) by (intros D; apply Ti; apply T; specialize (K2 i Hi); lra).
    destruct (Qle_bool (1 # 10000000000) (d k)) eqn:D; [apply Qle_bool_iff in D; contradiction|].
    assert (Nk : ~ thick cs k) by (intros X; apply Dk; apply T; exact X).
    exists k. clearbody k. destruct k as [|[|[|k]]]; [exists 1, 2|exists 0, 2|exists 0, 1|lia]; repeat split; try lia; assumption.
Qed.
Print Assumptions C111_coordinates.

Definition ex_cube : gmsh := mkGm [(str "bulk", 1)] [(1, ([1; 1], [1])); (2, ([1; 1], [2]))]
  [(1, (0, 0, 0)%Q); (2, (1, 1, 1)%Q)].
Definition ex_flat : gmsh := mkGm [(str "bulk", 1)] [(1, ([1; 1], [1])); (2, ([1; 1], [2]))]
  [(1, (0, 5, 0)%Q); (2, (1, 5, 1)%Q)].
Example C111_example : exists a b, extract_mesh ex_cube = Ok a /\ map (@length Q) (md_points a) = [3; 3]
  /\ extract_mesh ex_flat = Ok b /\ map (@length Q) (md_points b) = [2; 2].
Proof. do 2 eexists. split; [reflexivity|]. split; [reflexivity|]. split; reflexivity. Qed.

(** ** C112: region names of both meshes. *)
Lemma pget_In {A} (d : list (pystr * A)) k v : pget d k = Some v -> In k (map fst d).
Proof. induction d as [|[n w] d IH]; cbn; [discriminate|]. destruct (pystr_eq_dec k n) as [->|]; [auto|right; auto]. Qed.
Lemma In_pget {A} (d : list (pystr * A)) k : In k (map fst d) -> exists v, pget d k = Some v.
Proof.
  induction d as [|[n w] d IH]; cbn; [intros []|]. intros H. destruct (pystr_eq_dec k n) as [E|E]; [eauto|].
  destruct H as [H|H]; [congruence|auto].
Qed.
Lemma NoDup_pget {A} (d : list (pystr * A)) k v : NoDup (map fst d) -> In (k, v) d -> pget d k = Some v.
Proof.
  induction d as [|[n w] d IH]; cbn; [intros _ []|]. intros N [H|H].
  - injection H as -> ->. destruct (pystr_eq_dec k k); congruence.
  - inversion N as [|? ? N1 N2]; subst. destruct (pystr_eq_dec k n) as [->|]; [|auto]. exfalso. apply N1. apply (in_map fst) in H. exact H.
Qed.
Lemma pset_keys {A} (d : list (pystr * A)) k v : NoDup (map fst d) -> NoDup (map fst (pset d k v)).
Proof.
  assert (K : forall d x, In x (map fst (pset d k v)) -> x = k \/ In x (map fst d)).
  { clear. induction d as [|[n w] d IH]; cbn; intros x H; [intuition|]. destruct (pystr_eq_dec k n) as [->|]; cbn in *; [intuition|].
    destruct H as [H|H]; [auto|]. destruct (IH x H); auto. }
  induction d as [|[n w] d IH]; intros N; cbn; [constructor; [intros []|constructor]|].
  inversion N as [|? ? N1 N2]; subst. destruct (pystr_eq_dec k n) as [->|E]; cbn; [constructor; assumption|].
  constructor; [|auto]. intros H. destruct (K _ _ H); [congruence|contradiction].
Qed.
Lemma read_regions_keys ph : forall bc rm bc1 rm1, NoDup (map fst rm) -> read_regions ph bc rm = Ok (bc1, rm1) -> NoDup (map fst rm1).
Proof.
  induction ph as [|[name id] ph IH]; intros bc rm bc1 rm1 N; cbn; [now intros [= <- <-]|].
  destruct (strip_quotes name); [discriminate|]. apply IH. now apply pset_keys.
Qed.
Lemma extract_keys g md : extract_mesh g = Ok md -> NoDup (map fst (md_map md)).
Proof.
  unfold extract_mesh. destruct (read_regions (g_physical g) [] []) as [[bc rm]|] eqn:R; [|discriminate]. cbn [bind fst snd].
  destruct (bulk_elements bc (g_elements g)) as [els|]; [|discriminate]. cbn [bind].
  destruct (centers (g_nodes g) els) as [[|c cs]|]; [discriminate| |discriminate]. cbn [bind]. intros [= <-]. cbn.
  eapply read_regions_keys; [|exact R]. constructor.
Qed.
Lemma dict_eqb_spec a b : NoDup (map fst a) -> NoDup (map fst b) -> (dict_eqb a b = true <-> forall n, pget a n = pget b n).
Proof.
  intros Na Nb. unfold dict_eqb. split.
  - intros H. apply andb_prop in H as [L F]. apply Nat.eqb_eq in L. rewrite forallb_forall in F.
    assert (S1 : forall n v, pget a n = Some v -> pget b n = Some v).
    { intros n v H. assert (I : In (n, v) a).
      { clear -H. induction a as [|[m w] a IH]; cbn in *; [discriminate|]. destruct (pystr_eq_dec n m) as [->|]; [left; congruence|right; auto]. }
      specialize (F _ I). cbn in F. destruct (pget b n) as [x|]; [|discriminate]. apply Nat.eqb_eq in F. congruence. }
    intros n. destruct (pget a n) as [v|] eqn:E; [symmetry; auto|]. destruct (pget b n) as [w|] eqn:E'; [|reflexivity]. exfalso.
    assert (I : incl (map fst b) (map fst a)).
    { apply NoDup_length_incl; [exact Na|rewrite !map_length; lia|]. intros x Hx. apply In_pget in Hx as [v Hv]. apply S1 in Hv. eapply pget_In; eauto. }
    apply pget_In in E'. apply I in E'. apply In_pget in E' as [v Hv]. congruence.
  - intros H. apply andb_true_intro. split.
    + apply Nat.eqb_eq. rewrite <- (map_length fst a), <- (map_length fst b).
      apply Nat.le_antisymm; apply NoDup_incl_length; try assumption; intros x Hx; apply In_pget in Hx as [v Hv];
        [rewrite H in Hv|rewrite <- H in Hv]; eapply pget_In; eauto.
    + apply forallb_forall. intros [n v] I. cbn. rewrite <- H, (NoDup_pget a n v Na I). apply Nat.eqb_refl.
Qed.
(** Points of a fine and a coarse mesh are put together only if both give the same numbers to the same region names; if they
    differ, make_fields raises AssertionError, or ValueError when also the numbers of coordinates differ. *)
Theorem C112_same_regions : forall {V} (zero : V) rf_ok fs m fine coarse fd cd,
  extract_mesh fine = Ok fd -> extract_mesh coarse = Ok cd ->
  ((exists n, pget (md_map fd) n <> pget (md_map cd) n) ->
   make_fields zero rf_ok fs m fd (Some cd) = Err AssertionError \/ make_fields zero rf_ok fs m fd (Some cd) = Err ValueError)
  /\ ((forall n, pget (md_map fd) n = pget (md_map cd) n) -> length (hd [] (md_points fd)) = length (hd [] (md_points cd)) ->
      make_fields zero rf_ok fs m fd (Some cd)
      = set_points zero rf_ok fs m (md_points fd ++ md_points cd) (md_regions fd ++ md_regions cd) (md_map fd)).
Proof.
  intros V zero rf_ok fs m fine coarse fd cd Hf Hc. pose proof (extract_keys _ _ Hf) as Nf. pose proof (extract_keys _ _ Hc) as Nc.
  pose proof (dict_eqb_spec _ _ Nf Nc) as E. unfold make_fields. split.
  - intros (n & Hn). destruct (Nat.eqb _ _); [left|right; reflexivity]. destruct (dict_eqb _ _); [|reflexivity].
    exfalso. apply Hn. apply E. reflexivity.
  - intros H L. rewrite L, Nat.eqb_refl. rewrite (proj2 E H). reflexivity.
Qed.
Print Assumptions C112_same_regions.
Definition ex_more : gmsh := mkGm [(str "bulk", 1); (str "rock", 2)] [(1, ([1; 1], [1])); (2, ([1; 1], [2]))]
  [(1, (0, 0, 0)%Q); (2, (1, 1, 1)%Q)].
Example C112_example : exists a b, extract_mesh ex_cube = Ok a /\ extract_mesh ex_more = Ok b
  /\ pget (md_map a) (str "rock") <> pget (md_map b) (str "rock") /\ (forall n, pget (md_map a) n = pget (md_map a) n).
Proof. do 2 eexists. split; [reflexivity|]. split; [reflexivity|]. split; [vm_compute; discriminate|reflexivity]. Qed.

(** ** C113: running times of collected jobs. *)
(** The last record of a level in the time file of a job. *)
Definition last_record (l : nat) (recs : list (nat * Z * nat)) : option (Z * nat) :=
  last (map (fun r => Some (snd (fst r), snd r)) (filter (fun r => Nat.eqb (fst (fst r)) l) recs)) None.
Definition plus_time (a b : option (Z * nat)) : option (Z * nat) :=
  match a, b with
  | Some (t, n), Some (t', n') => Some ((t + t')%Z, n + n')
  | None, _ => b
  | _, None => a
  end.
(** Files of the jobs with the given PBS numbers that are waiting for collection. *)
Definition waiting {A} (f : fs A) (fin : list nat) : list (jobfiles A) :=
  flat_map (fun id => match find (fun e => Nat.eqb (snd e) id) (pbs_files f) with
                      | Some e => match dget (jobs f) (fst e) with Some x => [x] | None => [] end
                      | None => []
                      end) fin.
Lemma plus_time_assoc a b c : plus_time a (plus_time b c) = plus_time (plus_time a b) c.
Proof. destruct a as [[t n]|], b as [[t' n']|], c as [[t'' n'']|]; cbn; try reflexivity. now rewrite Z.add_assoc, Nat.add_assoc. Qed.
Lemma plus_time_none a : plus_time a None = a.
Proof. now destruct a as [[]|]. Qed.
Definition times_dict (recs : list (nat * Z * nat)) (d : dict (list (Z * nat))) : dict (list (Z * nat)) :=
  fold_left (fun d r => put d (fst (fst r)) (snd (fst r), snd r)) recs d.
Lemma times_dict_list recs l : forall d, dlist (times_dict recs d) l
  = dlist d l ++ map (fun r => (snd (fst r), snd r)) (filter (fun r => Nat.eqb (fst (fst r)) l) recs).
Proof.
  induction recs as [|r recs IH]; intros d; cbn; [now rewrite app_nil_r|]. fold (times_dict recs (put d (fst (fst r)) (snd (fst r), snd r))).
  rewrite IH. destruct (Nat.eqb_spec (fst (fst r)) l) as [->|E]; [rewrite dlist_put_eq; cbn; now rewrite <- app_assoc|now rewrite dlist_put_neq].
Qed.
Lemma times_dict_keys recs : forall d, NoDup (dkeys d) -> NoDup (dkeys (times_dict recs d)).
Proof. induction recs as [|r recs IH]; intros d N; cbn; [auto|]. apply IH. unfold put. now apply dkeys_dset_nodup. Qed.
Definition last_opt {B} (l : list B) : option B := last (map Some l) None.
Lemma last_opt_rev {B} (l : list B) : last_opt l = hd_error (rev l).
Proof.
  destruct l as [|x l] using rev_ind; [reflexivity|]. unfold last_opt. rewrite map_app, rev_app_distr. cbn [map rev app hd_error].
  apply last_last.
Qed.
Lemma add_time_get d k v l : dget (add_time d (k, v)) l = if Nat.eqb k l then plus_time (dget d l) (last_opt v) else dget d l.
Proof.
  rewrite last_opt_rev. unfold add_time. cbn [fst snd]. destruct (rev v) as [|[t n] r]; cbn [hd_error].
  - destruct (Nat.eqb k l); [|reflexivity]. now destruct (dget d l) as [[]|].
  - destruct (Nat.eqb_spec k l) as [->|E].
    + destruct (dget d l) as [[t0 n0]|]; rewrite dget_dset_eq; reflexivity.
    + destruct (dget d k) as [[t0 n0]|]; rewrite dget_dset_neq by exact E; reflexivity.
Qed.
Lemma add_times_get (t : dict (list (Z * nat))) l : NoDup (dkeys t) -> forall d, dget (fold_left add_time t d) l = plus_time (dget d l) (last_opt (dlist t l)).
Proof.
  induction t as [|[k v] t IH]; intros N d; cbn [fold_left].
  - cbn. now destruct (dget d l) as [[]|].
  - inversion N as [|? ? N1 N2]; subst. rewrite IH by exact N2. rewrite add_time_get. unfold dlist. cbn [dget]. rewrite (Nat.eqb_sym l k).
    destruct (Nat.eqb_spec k l) as [->|E]; [|reflexivity].
    assert (X : dget t l = None).
    { destruct (dget t l) eqn:G; [|reflexivity]. exfalso. apply N1. clear -G. induction t as [|[k' v'] t IH]; cbn in *; [discriminate|].
      destruct (Nat.eqb_spec l k') as [->|]; auto. }
    rewrite X. change (last_opt (B := Z * nat) []) with (@None (Z * nat)). apply plus_time_none.
Qed.
Lemma job_times {A} (x : jobfiles A) d l : dget (fold_left add_time (snd (read_results x)) d) l = plus_time (dget d l) (last_record l (f_times x)).
Proof.
  unfold read_results. cbn [snd]. change (fold_left _ (f_times x) []) with (times_dict (f_times x) []).
  rewrite (add_times_get (times_dict (f_times x) []) l (times_dict_keys (f_times x) [] (NoDup_nil nat)) d).
  rewrite times_dict_list. cbn [dlist dget app]. unfold last_record, last_opt. now rewrite map_map.
Qed.
Lemma waiting_drop {A} (f : fs A) j id fin : ~ In id fin ->
  waiting (mkF (jobs f) (filter (fun p => negb (Nat.eqb (fst p) j && Nat.eqb (snd p) id)) (pbs_files f)) (id_job f) (scripts f)) fin = waiting f fin.
Proof.
  intros N. unfold waiting. cbn [pbs_files jobs]. induction fin as [|i fin IH]; [reflexivity|]. cbn [flat_map]. f_equal; [|apply IH; cbn in N; tauto].
  assert (E : i <> id) by (cbn in N; tauto). clear -E.
  replace (find (fun e => Nat.eqb (snd e) i) (filter _ (pbs_files f))) with (find (fun e => Nat.eqb (snd e) i) (pbs_files f)); [reflexivity|].
  induction (pbs_files f) as [|[a b] l IH]; [reflexivity|]. cbn [find filter fst snd].
  destruct (Nat.eqb_spec b i) as [->|B].
  - destruct (Nat.eqb_spec i id); [contradiction|]. rewrite andb_false_r. cbn [negb find snd]. now rewrite Nat.eqb_refl.
  - destruct (negb _); [|exact IH]. cbn [find snd]. destruct (Nat.eqb_spec b i); [contradiction|exact IH].
Qed.
(** The time and the number of samples reported for a level are the sums of the last records of that level in the time
    files of all jobs collected; there is no entry for a level without record. *)
Theorem C113_times : forall {A} (f : fs A) fin f' s e t l, NoDup fin -> collect f fin ([], [], []) = (f', Ok (s, e, t)) ->
  dget t l = fold_right plus_time None (map (fun x => last_record l (f_times x)) (waiting f fin)).
Proof.
  intros A f fin f' s e t l. change (fold_right plus_time None (map (fun x => last_record l (f_times x)) (waiting f fin)))
    with (plus_time (dget ([] : dict (Z * nat)) l) (fold_right plus_time None (map (fun x => last_record l (f_times x)) (waiting f fin)))).
  generalize ([] : dict (list (pystr * A))) as s0. generalize ([] : dict (list (pystr * pystr))) as e0. generalize ([] : dict (Z * nat)) as t0.
  revert f f' s e t. induction fin as [|id fin IH]; intros f f' s e t t0 e0 s0 N H.
  - cbn in H. apply pair_equal_spec in H as [_ H]. injection H as -> -> ->. cbn. now destruct (dget t l) as [[]|].
  - inversion N as [|? ? N1 N2]; subst. cbn [collect] in H. unfold find_job in H. cbn [waiting flat_map].
    fold (waiting f fin).
    destruct (find (fun e => Nat.eqb (snd e) id) (pbs_files f)) as [[j i]|]; cbn [fst] in H |- *.
    + destruct (dget (jobs f) j) as [x|]; [|discriminate]. destruct (read_results x) as [[s1 e1] t1] eqn:R.
      apply IH in H; [|exact N2]. rewrite waiting_drop in H by exact N1. rewrite H. cbn [app map fold_right].
      rewrite plus_time_assoc. f_equal. rewrite <- job_times, R. reflexivity.
    + apply IH in H; [|exact N2]. exact H.
Qed.
Print Assumptions C113_times.
Definition ex_jobs : fs nat := mkF [(0, mkJ [] [] [] [(0, 5%Z, 2); (0, 9%Z, 3)]); (1, mkJ [] [] [] [(1, 4%Z, 1); (0, 6%Z, 2)])] [(0, 70); (1, 71)] [] [].
Example C113_example : exists f' s e t, collect ex_jobs [71; 70; 72] ([], [], []) = (f', Ok (s, e, t)) /\ dget t 0 = Some (15%Z, 5) /\ dget t 1 = Some (4%Z, 1).
Proof. do 4 eexists. split; [reflexivity|]. split; reflexivity. Qed.

(** ** C114: errors of qstat. *)
(** Polls of qstat, one answer each: the state afterwards and the outcomes. *)
Fixpoint polls (p : pbs) (answers : list (option (list nat))) : pbs * list (res (list nat * list nat)) :=
  match answers with
  | [] => (p, [])
  | a :: answers' => let (p1, r) := qstat_job p a in let (p2, rs) := polls p1 answers' in (p2, r :: rs)
  end.
Lemma qloop_none : forall fuel i ids unf, i + fuel = length ids -> qloop fuel i ids [] unf = (ids, unf ++ skipn i ids).
Proof.
  induction fuel as [|fuel IH]; intros i ids unf H; cbn [qloop].
  - rewrite skipn_all2 by lia. now rewrite app_nil_r.
  - destruct (nth_error ids i) as [x|] eqn:E; [|apply nth_error_None in E; lia]. cbn [existsb]. rewrite IH by lia.
    rewrite <- app_assoc. do 2 f_equal. cbn. clear -E. revert ids E. induction i; intros [|y ids] E; cbn in *; try discriminate; [congruence|auto].
Qed.
Lemma qstat_error p : pbs_ids p <> [] -> exists p', qstat_job p None = (p', if Nat.ltb 9 (qstat_failed p) then Err PyException else Ok ([], pbs_ids p))
  /\ pbs_ids p' = pbs_ids p /\ qstat_failed p' = S (qstat_failed p).
Proof.
  intros N. unfold qstat_job. destruct (pbs_ids p) as [|i ids] eqn:E; [congruence|]. rewrite qloop_none by reflexivity. cbn [skipn app].
  change (Nat.ltb 10 (S (qstat_failed p))) with (Nat.ltb 9 (qstat_failed p)).
  destruct (Nat.ltb 9 (qstat_failed p)); eexists; (split; [reflexivity|split; reflexivity]).
Qed.
(** With jobs waiting, up to ten errors in a row after a good answer are taken as "all jobs are running"; the eleventh
    and later ones raise. *)
Theorem C114_errors : forall p n, pbs_ids p <> [] -> qstat_failed p = 0 ->
  snd (polls p (repeat None n)) = repeat (Ok ([], pbs_ids p)) (Nat.min n 10) ++ repeat (Err PyException) (n - 10)
  /\ pbs_ids (fst (polls p (repeat None n))) = pbs_ids p.
Proof.
  assert (G : forall n p, pbs_ids p <> [] ->
    snd (polls p (repeat None n)) = repeat (Ok ([], pbs_ids p)) (Nat.min n (10 - qstat_failed p)) ++ repeat (Err PyException) (n - (10 - qstat_failed p))
    /\ pbs_ids (fst (polls p (repeat None n))) = pbs_ids p).
  { induction n as [|n IH]; intros p N; [split; reflexivity|]. cbn [repeat polls].
    destruct (qstat_error p N) as (p1 & -> & A & B). specialize (IH p1 ltac:(congruence)). rewrite A, B in IH.
    destruct (polls p1 (repeat None n)) as [p2 rs]. cbn [fst snd] in *. destruct IH as [-> ->]. split; [|reflexivity].
    destruct (Nat.ltb_spec 9 (qstat_failed p)) as [L|L].
    - replace (10 - qstat_failed p) with 0 by lia. replace (10 - S (qstat_failed p)) with 0 by lia. now rewrite !Nat.min_0_r, !Nat.sub_0_r.
    - replace (10 - qstat_failed p) with (S (10 - S (qstat_failed p))) by lia. cbn [Nat.min Nat.sub repeat app]. reflexivity. }
  intros p n N Z0. specialize (G n p N). rewrite Z0 in G. exact G.
Qed.
Print Assumptions C114_errors.
(** A good answer sets the counter back. *)
Theorem C114_reset : forall p fin p' r, pbs_ids p <> [] -> qstat_job p (Some fin) = (p', r) ->
  qstat_failed p' = 0 /\ exists unf, r = Ok (fin, unf).
Proof.
  intros p fin p' r N H. unfold qstat_job in H. destruct (pbs_ids p) as [|i ids] eqn:E; [congruence|].
  destruct (qloop _ _ _ _ _) as [a b]. injection H as <- <-. split; [reflexivity|eauto].
Qed.
Print Assumptions C114_reset.
Definition ex_pool : pbs := mkP [] 0 0 2 [70; 71] [] 0 0.
Example C114_example : map (fun r => match r with Ok _ => true | Err _ => false end)
   (snd (polls ex_pool (repeat None 9 ++ [Some []] ++ repeat None 11))) = repeat true 20 ++ [false].
Proof. reflexivity. Qed.

(** ** C115: reading a field file twice. *)
Lemma repeated_field {V} (show : V -> pystr) rd t0 ids name values rest m : float_text show rd t0 ->
  is_fields ids ((name, values) :: rest) -> Forall plain_field ((name, values) :: rest) ->
  (exists times x, pget (element_data m) name = Some times /\ zget times 0%Z = Some x) ->
  forall text, write_fields show ids ((name, values) :: rest) = Ok text -> read rd m text = Err AssertionError.
Proof.
  intros FT IF PF (times & x & Ht & Hx) text W. destruct (ft_version show rd t0 FT) as [v0 Hv].
  unfold write_fields in W. destruct (field_lines show ids ((name, values) :: rest)) as [ls|] eqn:L; [|discriminate]. cbn [bind] in W.
  apply (f_equal (fun r => match r with Ok y => y | Err _ => [] end)) in W. subst text.
  unfold read. rewrite split_unlines.
  2:{ apply Forall_app. split; [apply clean_format|]. apply (field_lines_clean show rd t0 FT ids ((name, values) :: rest)); [|exact L].
      eapply Forall_impl; [|exact PF]. intros f [_ [Cl _]] c' Hc. apply Cl. exact Hc. }
  destruct (reads_format rd v0 Hv (mkR m 0 None ([], 0%Z, 0%Z))) as [k [K R]]. cbn [msh cur] in R.
  cbn [field_lines] in L. unfold write_element_data in L. destruct values as [|row values]; [discriminate|].
  cbn [bind] in L. destruct (field_lines show ids rest) as [b|]; [|discriminate]. cbn [bind] in L.
  apply (f_equal (fun r => match r with Ok y => y | Err _ => [] end)) in L. subst ls.
  rewrite !app_length. rewrite <- app_assoc. cbn in K.
  match goal with |- bind (read_loop _ ?n _ _) _ = _ => replace n with (k + S (n - k - 1)) by (change (length format_lines) with 3; lia) end. rewrite R. clear R.
  cbn [app read_loop readline]. change (strip is_space (str "$ElementData")) with (str "$ElementData").
  match goal with |- context [step rd (str "$ElementData") ?r ?s] => set (rr := r); set (s0 := s) end.
  assert (E : step rd (str "$ElementData") rr s0 = Err AssertionError).
  { change (step rd (str "$ElementData") rr s0) with (section_line rd (str "$ElementData") rr s0). unfold section_line.
    repeat match goal with |- context [pystr_eq_dec (str ?a) (str ?b)] =>
       first [ (assert (a = b) by reflexivity; destruct (pystr_eq_dec (str a) (str b)); [|congruence])
             | (destruct (pystr_eq_dec (str a) (str b)) as [X|_]; [vm_compute in X; discriminate X|]) ] end.
    cbn [orb]. unfold rr. rewrite (read_head_written rd t0 (ft_zero show rd t0 FT)).
    - cbn [bind]. unfold s0. cbn [msh]. rewrite Ht, Hx. reflexivity.
    - inversion PF as [|? ? P1 P2]; subst. destruct P1 as (_ & _ & Q1 & Q2). split; intros c Hc; apply is_quote_neq; auto. }
  rewrite E. reflexivity.
Qed.
(** A field file read a second time into the same object raises AssertionError. *)
Theorem C115_read_twice : forall {V} (show : V -> pystr) rd t0 ids fields, float_text show rd t0 -> fields <> [] ->
  is_fields ids fields -> Forall plain_field fields ->
  exists text m, write_fields show ids fields = Ok text /\ read rd empty_mesh text = Ok m /\ read rd m text = Err AssertionError.
Proof.
  intros V show rd t0 ids fields FT N IF PF. destruct (C95_fields show rd t0 ids fields FT IF PF) as (text & m & W & R & (S1 & _) & _).
  exists text, m. split; [exact W|]. split; [exact R|]. destruct fields as [|[name values] rest]; [congruence|].
  eapply repeated_field; [exact FT|exact IF|exact PF| |exact W].
  destruct (S1 name values) as (d & D & _).
  - cbn. destruct (pystr_eq_dec name name); congruence.
  - exists [(0%Z, (t0, d))], (t0, d). split; [exact D|reflexivity].
Qed.
Print Assumptions C115_read_twice.
(** The two fields of the example of C95 meet the hypotheses; reading them twice raises. *)
Example C115_example : exists text m, write_fields ex_show [9%Z; 4%Z] ex_fields = Ok text /\ read ex_rd empty_mesh text = Ok m
  /\ read ex_rd m text = Err AssertionError.
Proof. apply (C115_read_twice ex_show ex_rd 0%Z); [exact ex_float|discriminate|apply C95_example_fields|apply C95_example_fields]. Qed.
