(** Recovery after a restart, the class file, kill points between samples. *)
From Verif Require Import Base BaseFacts PermTac PoolModel PoolProofs PbsModel PbsSpec PbsRead PbsTimes.

Section Recover.
Context {A : Type}.
Implicit Types f : fs A.
Definition keep (ids : list pystr) (e : nat * (pystr * A)) : bool := pys_in (rid e) ids.

Lemma append_level ids k q : forall d : dict (list (pystr * A)),
  Permutation (entries (fold_left (fun d r => if pys_in (fst r) ids then put d k r else d) q d))
              (entries d ++ filter (keep ids) (map (pair k) q)).
Proof.
  induction q as [|r q IH]; intros d; cbn [fold_left map filter]; [now rewrite app_nil_r|]. rewrite IH.
  unfold keep at 2, rid. cbn [snd]. destruct (pys_in (fst r) ids); [|reflexivity].
  rewrite entries_put, <- app_assoc. reflexivity.
Qed.
Lemma append_wanted_ok ids s : forall d : dict (list (pystr * A)),
  Permutation (entries (append_wanted ids d s)) (entries d ++ filter (keep ids) (entries s)).
Proof.
  unfold append_wanted. induction s as [|[k q] s IH]; intros d; cbn [fold_left]; [cbn; now rewrite app_nil_r|].
  rewrite IH. cbn [fst snd]. rewrite append_level. unfold entries at 4. cbn [flat_map fst snd]. fold (entries s).
  rewrite filter_app, app_assoc. reflexivity.
Qed.
Lemma wanted_ids ids (s : dict (list (pystr * A))) : map fst (flat_map snd (wanted ids s)) = map rid (filter (keep ids) (entries s)).
Proof.
  unfold wanted, entries. induction s as [|[k q] s IH]; [reflexivity|]. cbn [map flat_map fst snd].
  rewrite map_app, filter_app, map_app, IH. f_equal. clear IH. induction q as [|r q IHq]; [reflexivity|].
  cbn [map filter]. change (keep ids (k, r)) with (pys_in (fst r) ids). destruct (pys_in (fst r) ids); cbn [map]; now rewrite IHq.
Qed.
Lemma filter_perm {B} (g : B -> bool) l l' : Permutation l l' -> Permutation (filter g l) (filter g l').
Proof.
  induction 1; cbn; [constructor| | |eauto using Permutation_trans].
  - destruct (g x); [now apply perm_skip|assumption].
  - destruct (g x), (g y); try reflexivity. apply perm_swap.
Qed.

Lemma read_succ (x : jobfiles A) : exists e t, read_results x = (group (f_succ x), e, t).
Proof. eexists _, _. reflexivity. Qed.

Lemma home_eq f i j x j' x' : home f i j x -> home f i j' x' -> j = j' /\ x = x'.
Proof. intros [H1 H2] [H3 H4]. rewrite H1 in H3. injection H3 as <-. rewrite H2 in H4. now injection H4. Qed.

Lemma loop_ok f ids : consistent f ids -> forall order already s0, incl order ids ->
  exists s1, collect_loop f ids order already (s0, [], []) = Done (s1, [], [])
  /\ (forall e, In e (entries s0) -> In e (entries s1))
  /\ (forall e, In e (entries s1) -> In e (entries s0) \/ (In (rid e) ids /\ succeeded f (rid e) e))
  /\ (forall i e, In i order -> ~ In i already -> succeeded f i e -> In e (entries s1))
  /\ ((forall i, In i ids -> exists e, succeeded f i e) ->
      NoDup already -> incl already ids -> Permutation (map rid (entries s0)) already ->
      (forall i i' j, In i already -> In i' ids -> sget (id_job f) i = Some j -> sget (id_job f) i' = Some j -> In i' already) ->
      NoDup (map rid (entries s1)) /\ incl (map rid (entries s1)) ids /\ forall i, In i already \/ In i order -> In i (map rid (entries s1))).
Proof.
  intros [C1 C2]. induction order as [|sid order IH]; intros already s0 I; cbn [collect_loop].
  - exists s0. ands; auto; [intros i e []|]. intros All N In1 P Cl. ands.
    + now apply (Permutation_NoDup (Permutation_sym P)).
    + intros i Hi. apply In1. now apply (Permutation_in _ P).
    + intros i [Hi|[]]. now apply (Permutation_in _ (Permutation_sym P)).
  - assert (incl order ids) as I' by (intros z Hz; apply I; now right).
    destruct (pys_in sid already) eqn:E.
    + apply pys_in_true in E. destruct (IH already s0 I') as (s1 & H1 & H2 & H3 & H4 & H5). exists s1. ands; auto.
      * intros i e [<-|Hi] Na; [contradiction|]. now apply H4.
      * intros All N In1 P Cl. destruct (H5 All N In1 P Cl) as (K1 & K2 & K3). ands; auto.
        intros i [Hi|[<-|Hi]]; auto.
    + assert (~ In sid already) as Ns by (intros X; apply pys_in_true in X; congruence). clear E.
      destruct (C1 sid) as (j & x & Hh); [apply I; now left|]. pose proof Hh as [Hs Hd]. rewrite Hs, Hd.
      destruct (C2 sid j x) as [Nr Cr]; [apply I; now left|exact Hh|].
      destruct (read_succ x) as (er & tr & ->). cbn [existsb].
      set (s := group (f_succ x)). set (s1 := append_wanted ids s0 s). set (al := already ++ _).
      destruct (group_ok (f_succ x)) as [_ Pg]. fold s in Pg. change (map _ (f_succ x)) with (recorded x) in Pg.
      assert (Permutation (entries s1) (entries s0 ++ filter (keep ids) (recorded x))) as P1.
      { unfold s1. rewrite append_wanted_ok. apply Permutation_app_head. now apply filter_perm. }
      assert (Permutation al (already ++ map rid (filter (keep ids) (recorded x)))) as Pal.
      { unfold al. apply Permutation_app_head. rewrite wanted_ids. apply Permutation_map. now apply filter_perm. }
      assert (forall e, In e (recorded x) -> In (rid e) ids -> succeeded f (rid e) e) as Sc.
      { intros e He Hi. exists j, x. split; [|auto]. split; [now apply Cr|exact Hd]. }
      destruct (IH al s1 I') as (s2 & H1 & H2 & H3 & H4 & H5). exists s2. split; [exact H1|]. ands.
      * intros e He. apply H2. apply (Permutation_in _ (Permutation_sym P1)), in_app_iff. now left.
      * intros e He. apply H3 in He as [He|He]; [|auto]. apply (Permutation_in _ P1) in He. apply in_app_iff in He as [He|He]; [auto|].
        apply filter_In in He as [He Hk]. apply pys_in_true in Hk. right. auto.
      * intros i e Hi Na Su. assert (In i ids) as Hii by (apply I; exact Hi).
        assert (In e (entries s1) \/ ~ In i al) as [X|X]; [|now apply H2|].
        -- destruct (in_dec pystr_eq_dec i al) as [Y|Y]; [left|now right]. apply (Permutation_in _ Pal) in Y.
           apply in_app_iff in Y as [Y|Y]; [contradiction|]. apply in_map_iff in Y as (e' & Ee' & He').
           apply filter_In in He' as [He' _]. destruct Su as (j' & x' & Hh' & He & Er).
           assert (j' = j /\ x' = x) as [-> ->].
           { apply (home_eq f i j' x' j x Hh'). split; [|exact Hd]. rewrite <- Ee'. apply Cr; [exact He'|]. now rewrite Ee'. }
           apply (Permutation_in _ (Permutation_sym P1)), in_app_iff. right. apply filter_In. split; [exact He|].
           unfold keep. apply pys_in_true. now rewrite Er.
        -- destruct Hi as [<-|Hi].
           ++ destruct Su as (j' & x' & Hh' & He & Er). destruct (home_eq _ _ _ _ _ _ Hh' Hh) as [-> ->]. exfalso. apply X.
              apply (Permutation_in _ (Permutation_sym Pal)), in_app_iff. right. apply in_map_iff. exists e. split; [exact Er|].
              apply filter_In. split; [exact He|]. apply pys_in_true. now rewrite Er.
           ++ now apply (H4 i e).
      * intros All N In1 P Cl.
        assert (In sid al) as Hsid.
        { destruct (All sid) as (e & j' & x' & Hh' & He & Er); [apply I; now left|]. destruct (home_eq _ _ _ _ _ _ Hh' Hh) as [-> ->].
          apply (Permutation_in _ (Permutation_sym Pal)), in_app_iff. right. apply in_map_iff. exists e. split; [exact Er|].
          apply filter_In. split; [exact He|]. apply pys_in_true. rewrite Er. apply I. now left. }
        assert (forall i, In i (map rid (filter (keep ids) (recorded x))) -> In i ids /\ sget (id_job f) i = Some j) as Nw.
        { intros i Hi. apply in_map_iff in Hi as (e & <- & He). apply filter_In in He as [He Hk]. apply pys_in_true in Hk. auto. }
        assert (NoDup al) as Nal.
        { apply (Permutation_NoDup (Permutation_sym Pal)). apply NoDup_app_iff. ands; auto.
          - assert (forall l, NoDup (map rid l) -> NoDup (map rid (filter (keep ids) l))) as Nf; [|now apply Nf].
            induction l as [|e l IHl]; cbn; intros Nl; [constructor|]. apply NoDup_cons_iff in Nl as [Ne Nl].
            destruct (keep ids e); [|auto]. cbn. constructor; [|auto]. intros X. apply Ne. apply in_map_iff in X as (z & <- & Hz).
            apply filter_In in Hz as [Hz _]. now apply in_map.
          - intros i Hi Hi'. apply Nw in Hi' as [Hi1 Hi2]. apply Ns. apply (Cl i sid j); auto. apply I. now left. }
        assert (incl al ids) as Ial.
        { intros i Hi. apply (Permutation_in _ Pal), in_app_iff in Hi as [Hi|Hi]; [auto|]. now apply Nw. }
        assert (Permutation (map rid (entries s1)) al) as Ps1.
        { rewrite (Permutation_map rid P1), map_app, P. now symmetry. }
        destruct (H5 All Nal Ial Ps1) as (K1 & K2 & K3).
        { intros i i' j' Hi Hi' Hj Hj'. apply (Permutation_in _ (Permutation_sym Pal)), in_app_iff.
          apply (Permutation_in _ Pal), in_app_iff in Hi as [Hi|Hi]; [left; now apply (Cl i i' j')|]. right.
          apply Nw in Hi as [Hi1 Hi2]. rewrite Hj in Hi2. injection Hi2 as ->.
          destruct (All i' Hi') as (e & j2 & x2 & Hh2 & He & Er).
          destruct (home_eq _ _ _ _ _ _ Hh2 (conj Hj' Hd)) as [-> ->]. apply in_map_iff. exists e. split; [exact Er|].
          apply filter_In. split; [exact He|]. apply pys_in_true. now rewrite Er. }
        ands; auto. intros i [Hi|[<-|Hi]]; apply K3; auto. left. apply (Permutation_in _ (Permutation_sym Pal)), in_app_iff. now left.
Qed.

(** ** Kill points between samples *)
Lemma calc_firstn out clock m : forall ss cur st n k,
  firstn (2 * m) (calc (A:=A) out clock ss cur st n k) = calc out clock (firstn m ss) cur st n k.
Proof.
  induction m as [|m IH]; intros ss cur st n k; [reflexivity|]. destruct ss as [|s ss]; [reflexivity|].
  replace (2 * S m) with (S (S (2 * m))) by lia. cbn [calc firstn]. now rewrite IH.
Qed.
Lemma sorted_firstn m : forall ss, sorted ss -> sorted (firstn m ss).
Proof.
  induction m as [|m IH]; intros ss H; [exact I|]. destruct ss as [|s ss]; [exact I|]. destruct H as [F H]. split; [|now apply IH].
  rewrite Forall_forall in *. intros y Hy. apply F. rewrite <- (firstn_skipn m ss). apply in_app_iff. now left.
Qed.
End Recover.

(** ** The class file *)
Lemma readline_app s t : (forall c, In c s -> newline c = false) -> readline (s ++ t) = s ++ readline t.
Proof. induction s as [|c s IH]; cbn; intros H; [reflexivity|]. rewrite H by auto. rewrite IH; auto. Qed.
Lemma split_app s t : (forall c, In c s -> c <> semi) -> split semi (s ++ semi :: t) = s :: split semi t.
Proof.
  induction s as [|c s IH]; cbn [app split]; intros H; [reflexivity|].
  destruct (Ascii.eqb_spec c semi) as [E|_]; [exfalso; apply (H c); [now left|exact E]|].
  rewrite IH by (intros d Hd; apply H; now right). reflexivity.
Qed.
Lemma class_file d l b : plain d -> plain l -> deserialize (serialize None d l b) = Ok (d, l, b).
Proof.
  intros Hd Hl. unfold deserialize, serialize.
  assert (plain (str (if b then "True" else "False"))) as Hb.
  { intros c Hc. assert (forallb (fun c => negb (Ascii.eqb c semi) && negb (newline c))%bool (str (if b then "True" else "False")) = true) as F
      by (destruct b; reflexivity). rewrite forallb_forall in F. specialize (F c Hc). apply andb_prop in F as [F1 F2].
    split; [intros ->; now rewrite Ascii.eqb_refl in F1|now destruct (newline c)]. }
  cbn [app]. rewrite (readline_app d) by (intros; now apply Hd).
  cbn [readline]. replace (newline semi) with false by reflexivity. rewrite (readline_app l) by (intros; now apply Hl).
  cbn [readline]. replace (newline semi) with false by reflexivity. rewrite (readline_app (str _)) by (intros; now apply Hb).
  cbn [readline]. replace (newline semi) with false by reflexivity.
  rewrite split_app by (intros; now apply Hd). rewrite split_app by (intros; now apply Hl). rewrite split_app by (intros; now apply Hb).
  destruct b; reflexivity.
Qed.
