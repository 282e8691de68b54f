(** Sizes of types and numbers of components: C163 C164. *)
From Coq Require Import String ZArith.
From Verif Require Import Base BaseFacts QTypeModel QTypeProofs QuantityModel QuantitySpec QuantityGraph QuantityProofs QuantityCacheProofs QuantityFacts QSizeFacts.
Local Open Scope string_scope.
Local Open Scope list_scope.
Local Open Scope nat_scope.
Notation length := List.length.
Notation skey := string.

(** * C163 *)
(** A quantity built by commands that keep sizes (subsampling and selection included) has, on every chunk on which it is
    evaluated, as many components as its type says. *)
Theorem C163_sound_partial : forall (V : Type) (g : graph skey V) env lvl cid a n x,
  made string_dec sensible g -> declared g env -> nth_error g a = Some n ->
  samples string_dec env lvl cid g a = Ok (Num x) -> length x = size (n_type n).
Proof. intros V g env lvl cid a n x Hm Hd En Hx. eapply sizes_sound; eauto. eapply made_sizes; [|exact Hm]. auto. Qed.

(** The types of QDict, QField, QTimeSeries and QArray are as large as their parts together when names do not repeat. *)
Lemma combine_sum (names : list skey) : forall ts : list (qtype skey), length names = length ts ->
  list_sum (map (fun x => size (snd x)) (combine names ts)) = list_sum (map size ts).
Proof. induction names as [|s names IH]; intros [|t ts] H; try discriminate; [reflexivity|]. cbn. f_equal. apply IH. now injection H. Qed.
Lemma same_sum {K} b (ts : list (qtype K)) : (forall t, In t ts -> size t = b) -> list_sum (map size ts) = length ts * b.
Proof. induction ts as [|t ts IH]; intros H; [reflexivity|]. cbn. rewrite (H t) by now left. f_equal. apply IH. intros; apply H; now right. Qed.
Lemma combine_fst {A B} (x : list A) : forall y : list B, length x = length y -> map fst (combine x y) = x.
Proof. induction x as [|a x IH]; intros [|b y] H; try discriminate; [reflexivity|]. cbn. f_equal. apply IH. now injection H. Qed.
Lemma combine_snd {A B} (x : list A) : forall y : list B, length x = length y -> map snd (combine x y) = y.
Proof. induction x as [|a x IH]; intros [|b y] H; try discriminate; [reflexivity|]. cbn. f_equal. apply IH. now injection H. Qed.
Theorem C163_composed_partial : forall (names : list skey) (ts : list (qtype skey)), length names = length ts -> NoDup names ->
  (forall t, mk_dict string_dec (combine names ts) = Ok t -> size t = list_sum (map size ts))
  /\ (forall t, mk_field string_dec (combine names ts) = Ok t -> size t = list_sum (map size ts))
  /\ forall q, (forall t, In t ts -> t = q) ->
     size (QTimes names q) = list_sum (map size ts)
     /\ forall shape, prod shape = length ts -> size (QArray shape q) = list_sum (map size ts).
Proof.
  intros names ts L N. assert (Nd : NoDup (map fst (combine names ts))) by (now rewrite combine_fst). ands.
  - intros t H. apply mk_dict_inv in H; auto. subst t. cbn [size]. now apply combine_sum.
  - intros t H. unfold mk_field in H. destruct (combine names ts) as [|x r] eqn:E; [discriminate|]. rewrite <- E in *.
    destruct (forallb _ _) eqn:F; [|discriminate]. injection H as <-. cbn [size]. rewrite pdict_nodup by auto. rewrite combine_fst by auto.
    rewrite (same_sum (size (snd x))); [now rewrite L|]. intros t Ht. rewrite forallb_forall in F.
    rewrite <- (combine_snd names ts L) in Ht. apply in_map_iff in Ht as (y & <- & Hy). specialize (F y Hy). now apply Nat.eqb_eq in F.
  - intros q Hq. assert (E : list_sum (map size ts) = length ts * size q) by (apply same_sum; intros t Ht; now rewrite (Hq t Ht)).
    rewrite E. split; [cbn [size]; now rewrite L|]. intros shape Hs. cbn [size]. now rewrite Hs.
Qed.

Example C163_composed_ex : NoDup ["a"; "b"] /\ mk_dict string_dec (combine ["a"; "b"] [QScalar; QArray [2; 2] QScalar]) = Ok (QDict [("a", QScalar); ("b", QArray [2; 2] QScalar)])
  /\ list_sum (map size [QScalar; QArray [2; 2] (QScalar : qtype skey)]) = 5.
Proof. ands; try reflexivity. apply NoDup_cons; [intros [C|[]]; discriminate|]. apply NoDup_cons; [intros []|constructor]. Qed.

(** A single number plus a list of three: the type stays that of a single number, the samples have three components. The
    same with a composed quantity that repeats a name. *)
Definition env1 : nat -> arr Z := fun _ => [[[5; 4]; [6; 5]]]%Z.
Definition scalar_plus_list : res (graph skey Z) :=
  bind (build string_dec [] (CRoot 0 QScalar)) (fun g => bind (build string_dec g (CConst [1; 2; 3]%Z)) (fun g => build string_dec g (CBin Z.add 0 1))).
Theorem C163_refuted : exists g n x, scalar_plus_list = Ok g /\ declared g env1 /\ nth_error g 2 = Some n
  /\ samples string_dec env1 0 0 g 2 = Ok (Num x) /\ length x <> size (n_type n).
Proof.
  eexists _, _, _. split; [reflexivity|]. split; [|split; [reflexivity|split; [reflexivity|cbn; lia]]].
  intros a n r H Ho. destruct a as [|[|[|a]]]; cbn in H; [injection H as <-; cbn in Ho; reflexivity| | |destruct a; discriminate]; injection H as <-; discriminate.
Qed.
Definition dict_of (names : list skey) (ts : list (qtype skey)) : res (qtype skey) := mk_dict string_dec (combine names ts).
Definition twice_named : res (graph skey Z) :=
  bind (build string_dec [] (CRoot 0 QScalar)) (fun g => build string_dec g (CConcat (dict_of ["a"; "a"]) [0; 0])).
Theorem C163_names_refuted : exists g n x, twice_named = Ok g /\ declared g env1 /\ nth_error g 1 = Some n
  /\ samples string_dec env1 0 0 g 1 = Ok (Num x) /\ length x <> size (n_type n).
Proof.
  eexists _, _, _. split; [reflexivity|]. split; [|split; [reflexivity|split; [reflexivity|cbn; lia]]].
  intros a n r H Ho. destruct a as [|[|a]]; cbn in H; [injection H as <-; cbn in Ho; reflexivity| |destruct a; discriminate]. injection H as <-. discriminate.
Qed.

(** * C164 *)
(** A quantity from stored data that careful commands have built can be evaluated on every chunk of the declared form. *)
Theorem C164_evaluates : forall (V : Type) (g : graph skey V) env k lvl cid a n,
  made string_dec careful g -> declared g env -> (forall r, exists M N, shaped M N k (env r)) ->
  nth_error g a = Some n -> from_storage g a ->
  if n_mask n then exists m, samples string_dec env lvl cid g a = Ok (Mask m)
  else exists x, samples string_dec env lvl cid g a = Ok (Num x) /\ length x = size (n_type n).
Proof. intros V g env k lvl cid a n Hm Hd He En Hs. eapply careful_progress; eauto. Qed.

(** A program with arithmetic, a condition, a selection, an item and a composition. *)
Definition demo : list (cmd skey Z) :=
  [ CRoot 0 (QDict [("u", QArray [2] QScalar); ("p", QScalar)]);
    CItem (Key "u") 0; CItem (Key "p") 0; CBin Z.add 1 2; CConst [4]%Z; CCmp Z.ltb 4 3; CSelect 3 [5]; CItem (Index [At 1%Z]) 6;
    CConcat (dict_of ["a"; "b"]) [6; 7] ].
Fixpoint run (g : graph skey Z) (cs : list (cmd skey Z)) : res (graph skey Z) :=
  match cs with [] => Ok g | c :: cs' => bind (build string_dec g c) (fun g' => run g' cs') end.
Definition env3 : nat -> arr Z := fun _ => [[[1; 2]; [5; 6]]; [[3; 4]; [7; 8]]; [[1; 1]; [1; 1]]]%Z.
Lemma run_made P cs : forall g g', made string_dec P g -> run g cs = Ok g' ->
  (forall pre c post g0, cs = pre ++ c :: post -> run g pre = Ok g0 -> P g0 c) -> made string_dec P g'.
Proof.
  induction cs as [|c cs IH]; intros g g' Hm H HP; cbn in H; [injection H as <-; exact Hm|]. apply bind_ok in H as (g1 & E & H).
  eapply IH; [|exact H|].
  - econstructor; [exact Hm| |exact E]. apply (HP [] c cs); reflexivity.
  - intros pre d post g0 -> Hr. apply (HP (c :: pre) d post); [reflexivity|]. cbn. now rewrite E.
Qed.
Example C164_ex : exists g n, run [] demo = Ok g /\ made string_dec careful g /\ made string_dec sensible g /\ declared g env3
  /\ nth_error g 8 = Some n /\ from_storage g 8 /\ size (n_type n) = 3
  /\ samples string_dec env3 0 0 g 8 = Ok (Num [[[6; 7]]; [[8; 9]]; [[8; 9]]]%Z).
Proof.
  assert (H : exists g, run [] demo = Ok g) by (eexists; reflexivity). destruct H as [g E]. exists g.
  assert (M : made string_dec careful g).
  { eapply run_made; [constructor|exact E|]. intros pre c post g0 Ed Hr. unfold demo in Ed.
    do 9 (destruct pre as [|? pre]; [cbn in Ed; injection Ed as <- <-; cbn in Hr; injection Hr as <-; clear;
          (split; [|split]); cbn; try exact Logic.I; try (unfold from_storage, fits, sz; cbn; intuition (subst; try discriminate; try lia))
         |cbn in Ed; injection Ed as <- Ed]).
    1: { match goal with H : _ = Ok ns |- _ => injection H as <- end. vm_compute in H0. injection H0 as <-. reflexivity. }
    destruct pre; discriminate. }
  assert (M2 : made string_dec sensible g).
  { clear E. induction M as [|g0 c g1 M IH Hc Hb]; [constructor|]. econstructor; [exact IH|apply Hc|exact Hb]. }
  vm_compute in E. injection E as <-. eexists. ands; [reflexivity|exact M|exact M2| |reflexivity|discriminate|reflexivity|reflexivity].
  intros a n r H Ho. do 9 (destruct a as [|a]; [cbn in H; injection H as <-; first [discriminate Ho|reflexivity]|]). destruct a; discriminate.
Qed.

Print Assumptions C163_sound_partial.
Print Assumptions C163_composed_partial.
Print Assumptions C163_refuted.
Print Assumptions C163_names_refuted.
Print Assumptions C164_evaluates.
