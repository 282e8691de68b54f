From Verif Require Import Base BaseFacts QTypeModel QTypeProofs QuantityModel QuantitySpec.

Section Proofs.
Context {K V : Type} (K_eq : forall a b : K, {a = b} + {a <> b}).
Notation gr := (graph K V).

(** * Broadcasting *)
Lemma mapM_ok {A B} (f : A -> res B) (h : A -> B) l : (forall x, In x l -> f x = Ok (h x)) -> mapM f l = Ok (map h l).
Proof. induction l as [|x l IH]; intros H; [reflexivity|]. cbn. rewrite (H x) by now left. cbn. rewrite IH; [reflexivity|]. intros; apply H; now right. Qed.
Lemma mapM_ext {A B} (f g : A -> res B) l : (forall x, In x l -> f x = g x) -> mapM f l = mapM g l.
Proof. induction l as [|x l IH]; intros H; [reflexivity|]. cbn. rewrite (H x) by now left. rewrite IH; [reflexivity|]. intros; apply H; now right. Qed.

Fixpoint zipw {A B C} (h : A -> B -> C) (x : list A) (y : list B) : list C :=
  match x, y with a :: x', b :: y' => h a b :: zipw h x' y' | _, _ => [] end.
Lemma mapM2_ok {A B C} (f : A -> B -> res C) h x : forall y, (forall a b, In a x -> In b y -> f a b = Ok (h a b)) -> mapM2 f x y = Ok (zipw h x y).
Proof.
  induction x as [|a x IH]; intros [|b y] H; try reflexivity. cbn. rewrite (H a b) by (now left). cbn. rewrite IH; [reflexivity|].
  intros; apply H; now right.
Qed.

(** The result of broadcasting when the operation never fails. *)
Definition compat (m n : nat) : bool := (Nat.eqb m n || Nat.eqb m 1 || Nat.eqb n 1)%bool.
Definition bz {A B C} (h : A -> B -> C) (x : list A) (y : list B) : list C :=
  if Nat.eqb (length x) (length y) then zipw h x y
  else match x, y with [a], _ => map (h a) y | _, [b] => map (fun a => h a b) x | _, _ => [] end.
Lemma bcast_ok {A B C} (f : A -> B -> res C) h x y : (forall a b, In a x -> In b y -> f a b = Ok (h a b)) ->
  bcast f x y = if compat (length x) (length y) then Ok (bz h x y) else Err ValueError.
Proof.
  intros H. unfold bcast, bz, compat. destruct (Nat.eqb_spec (length x) (length y)) as [E|E]; cbn [orb].
  - now apply mapM2_ok.
  - destruct x as [|a [|a' x]]; cbn [length] in *.
    + destruct y as [|b [|b' y]]; cbn [length] in *; try congruence; reflexivity.
    + cbn [Nat.eqb orb]. rewrite (mapM_ok (f a) (h a)); [reflexivity|]. intros; apply H; [now left|auto].
    + destruct y as [|b [|b' y]]; cbn [length] in *; try congruence; try reflexivity.
      cbn [Nat.eqb orb]. rewrite (mapM_ok (fun a => f a b) (fun a => h a b)); [reflexivity|]. intros; apply H; [auto|now left].
Qed.
Lemma bz_map {A B C A' B' C'} (fa : A -> A') (fb : B -> B') (fc : C -> C') (h : A -> B -> C) (h' : A' -> B' -> C') x y :
  (forall a b, In a x -> In b y -> h' (fa a) (fb b) = fc (h a b)) -> bz h' (map fa x) (map fb y) = map fc (bz h x y).
Proof.
  intros H. unfold bz. rewrite !map_length. destruct (Nat.eqb (length x) (length y)).
  - revert y H. induction x as [|a x IH]; intros [|b y] H; try reflexivity. cbn. rewrite (H a b) by now left. f_equal. apply IH.
    intros; apply H; now right.
  - destruct x as [|a [|a' x]]; [destruct y as [|b [|b' y]]; reflexivity| |].
    + cbn [map]. rewrite map_map, map_map. apply map_ext_in. intros b Hb. apply H; [now left|exact Hb].
    + destruct y as [|b [|b' y]]; try reflexivity.
      cbn [map]. rewrite !map_map. f_equal; [apply H; [now left|now left]|]. f_equal; [apply H; [right; now left|now left]|].
      apply map_ext_in. intros a2 Ha. apply H; [right; now right|now left].
Qed.
Lemma bz_forall {A B C} (P : C -> Prop) (h : A -> B -> C) x y : (forall a b, In a x -> In b y -> P (h a b)) -> Forall P (bz h x y).
Proof.
  intros H. unfold bz. destruct (Nat.eqb (length x) (length y)).
  - revert y H. induction x as [|a x IH]; intros [|b y] H; cbn; constructor; [apply H; now left|]. apply IH. intros; apply H; now right.
  - destruct x as [|a [|a' x]]; [destruct y as [|b [|b' y]]; constructor| |].
    + apply Forall_forall. intros c Hc. apply in_map_iff in Hc as (b & <- & Hb). apply H; [now left|auto].
    + destruct y as [|b [|b' y]]; [apply Forall_nil| |apply Forall_nil].
      apply Forall_forall. intros c Hc. apply in_map_iff in Hc as (a2 & <- & Ha). apply H; [exact Ha|now left].
Qed.
Lemma bz_one_r {A B C} (h : A -> B -> C) x b : bz h x [b] = map (fun a => h a b) x.
Proof. destruct x as [|a [|a' x]]; reflexivity. Qed.
Lemma bz_one_l {A B C} (h : A -> B -> C) a y : bz h [a] y = map (h a) y.
Proof. destruct y as [|b [|b' y]]; reflexivity. Qed.
Lemma compat_one_r m : compat m 1 = true.
Proof. unfold compat. now rewrite Bool.orb_true_r. Qed.
Lemma compat_one_l m : compat 1 m = true.
Proof. unfold compat. cbn. now rewrite Bool.orb_true_r. Qed.
Lemma bz_eq {A B C} (h : A -> B -> C) x y : length x = length y -> bz h x y = zipw h x y.
Proof. intros E. unfold bz. now rewrite E, Nat.eqb_refl. Qed.
Lemma zipw_app {A B C} (h : A -> B -> C) x1 : forall y1 x2 y2, length x1 = length y1 -> zipw h (x1 ++ x2) (y1 ++ y2) = zipw h x1 y1 ++ zipw h x2 y2.
Proof. induction x1 as [|a x IH]; intros [|b y] x2 y2 H; try discriminate; [reflexivity|]. cbn. f_equal. apply IH. now injection H. Qed.
Lemma zipw_length {A B C} (h : A -> B -> C) x : forall y, length x = length y -> length (zipw h x y) = length x.
Proof. induction x as [|a x IH]; intros [|b y] H; try discriminate; [reflexivity|]. cbn. f_equal. apply IH. now injection H. Qed.
Lemma zipw_in {A B C} (h : A -> B -> C) x : forall y c, In c (zipw h x y) -> exists a b, In a x /\ In b y /\ c = h a b.
Proof.
  induction x as [|a x IH]; intros [|b y] c H; cbn in H; try contradiction. destruct H as [<-|H].
  - exists a, b. cbn. auto.
  - destruct (IH _ _ H) as (a' & b' & ? & ? & ->). exists a', b'. cbn. auto.
Qed.

(** * Rows of two chunks, paired *)
Definition rowok {W} (w k : nat) (row : list (list W)) : Prop := length row = w /\ forall s, In s row -> length s = k.
Definition pairok {W} (w1 w2 k : nat) (p : list (list W) * list (list W)) : Prop := rowok w1 k (fst p) /\ rowok w2 k (snd p).
Definition papp {W} (p : list W * list W) : list W := fst p ++ snd p.

Section Bin.
Context {W : Type} (f : V -> V -> W).
Definition smp (s t : list V) : list W := bz f s t.
Definition rowz (r t : list (list V)) : list (list W) := bz smp r t.
Lemma row_ok w k r t : rowok w k r -> rowok w k t -> bcast (bcast (fun a b => Ok (f a b))) r t = Ok (rowz r t) /\ rowok w k (rowz r t).
Proof.
  intros [Hr Hrs] [Ht Hts]. assert (E : forall a b, In a r -> In b t -> bcast (fun a b => Ok (f a b)) a b = Ok (smp a b)).
  { intros a b Ha Hb. rewrite (bcast_ok _ f) by auto. unfold compat. rewrite (Hrs a Ha), (Hts b Hb), Nat.eqb_refl. reflexivity. }
  split.
  - rewrite (bcast_ok _ smp) by exact E. unfold compat. rewrite Hr, Ht, Nat.eqb_refl. reflexivity.
  - unfold rowz. rewrite bz_eq by congruence. split; [rewrite zipw_length; congruence|].
    intros s Hs. apply zipw_in in Hs as (a & b & Ha & Hb & ->). unfold smp. rewrite bz_eq by (rewrite (Hrs a), (Hts b); auto).
    rewrite zipw_length; [now apply Hrs|]. rewrite (Hrs a), (Hts b); auto.
Qed.
Lemma row_const_r w k r v : rowok w k r -> bcast (bcast (fun a b => Ok (f a b))) r [[v]] = Ok (rowz r [[v]]) /\ rowok w k (rowz r [[v]]).
Proof.
  intros [Hr Hrs]. split.
  - rewrite (bcast_ok _ smp); [now rewrite compat_one_r|]. intros a b Ha [<-|[]]. rewrite (bcast_ok _ f) by auto. now rewrite compat_one_r.
  - unfold rowz. rewrite bz_one_r. split; [now rewrite map_length|]. intros s Hs. apply in_map_iff in Hs as (a & <- & Ha). unfold smp.
    rewrite bz_one_r, map_length. auto.
Qed.
Lemma row_const_l w k r v : rowok w k r -> bcast (bcast (fun a b => Ok (f a b))) [[v]] r = Ok (rowz [[v]] r) /\ rowok w k (rowz [[v]] r).
Proof.
  intros [Hr Hrs]. split.
  - rewrite (bcast_ok _ smp); [now rewrite compat_one_l|]. intros a b [<-|[]] Hb. rewrite (bcast_ok _ f) by auto. now rewrite compat_one_l.
  - unfold rowz. rewrite bz_one_l. split; [now rewrite map_length|]. intros s Hs. apply in_map_iff in Hs as (a & <- & Ha). unfold smp.
    rewrite bz_one_l, map_length. auto.
Qed.

Definition hom (w1 w2 k : nat) (v1 v2 v : res (list (list (list W)))) : Prop :=
  (exists e, v1 = Err e /\ v2 = Err e /\ v = Err e)
  \/ exists ps, Forall (pairok w1 w2 k) ps /\ v1 = Ok (map fst ps) /\ v2 = Ok (map snd ps) /\ v = Ok (map papp ps).

Lemma bin_pairs w1 w2 k ps qs : Forall (pairok w1 w2 k) ps -> Forall (pairok w1 w2 k) qs ->
  hom w1 w2 k (bin f (map fst ps) (map fst qs)) (bin f (map snd ps) (map snd qs)) (bin f (map papp ps) (map papp qs)).
Proof.
  intros Hp Hq. rewrite Forall_forall in Hp, Hq. unfold bin.
  rewrite !(bcast_ok _ rowz); rewrite ?map_length.
  - destruct (compat (length ps) (length qs)); [right|left; eauto].
    exists (bz (fun p q => (rowz (fst p) (fst q), rowz (snd p) (snd q))) ps qs). ands.
    + apply bz_forall. intros p q Ip Iq. destruct (Hp p Ip) as [A1 A2], (Hq q Iq) as [B1 B2]. split; cbn.
      * now apply row_ok. * now apply row_ok.
    + f_equal. now apply bz_map.
    + f_equal. now apply bz_map.
    + f_equal. apply bz_map. intros p q Ip Iq. unfold papp. cbn. destruct (Hp p Ip) as [[A1 _] [A2 _]], (Hq q Iq) as [[B1 _] [B2 _]].
      unfold rowz. rewrite !bz_eq by (rewrite ?app_length; congruence). apply zipw_app. congruence.
  - intros a b Ha Hb. apply in_map_iff in Ha as (p & <- & Ip). apply in_map_iff in Hb as (q & <- & Iq).
    destruct (Hp p Ip) as [[A1 A1'] [A2 A2']], (Hq q Iq) as [[B1 B1'] [B2 B2']]. apply (row_ok (w1 + w2) k).
    + unfold papp. split; [rewrite app_length; congruence|]. intros s Hs. apply in_app_or in Hs as [Hs|Hs]; auto.
    + unfold papp. split; [rewrite app_length; congruence|]. intros s Hs. apply in_app_or in Hs as [Hs|Hs]; auto.
  - intros a b Ha Hb. apply in_map_iff in Ha as (p & <- & Ip). apply in_map_iff in Hb as (q & <- & Iq).
    apply (row_ok w2 k); [apply (Hp p Ip)|apply (Hq q Iq)].
  - intros a b Ha Hb. apply in_map_iff in Ha as (p & <- & Ip). apply in_map_iff in Hb as (q & <- & Iq).
    apply (row_ok w1 k); [apply (Hp p Ip)|apply (Hq q Iq)].
Qed.

Lemma pairok_papp w1 w2 k (p : list (list V) * list (list V)) : pairok w1 w2 k p -> rowok (w1 + w2) k (papp p).
Proof.
  intros [[A1 A1'] [A2 A2']]. unfold papp. split; [rewrite app_length; congruence|]. intros s Hs. apply in_app_or in Hs as [Hs|Hs]; auto.
Qed.

Lemma bin_const_r w1 w2 k ps c : Forall (pairok w1 w2 k) ps ->
  hom w1 w2 k (bin f (map fst ps) (const_arr c)) (bin f (map snd ps) (const_arr c)) (bin f (map papp ps) (const_arr c)).
Proof.
  intros Hp. rewrite Forall_forall in Hp. unfold bin, const_arr.
  rewrite !(bcast_ok _ rowz); rewrite ?map_length.
  - destruct (compat (length ps) (length c)); [right|left; eauto].
    exists (bz (fun p v => (rowz (fst p) [[v]], rowz (snd p) [[v]])) ps c). ands.
    + apply bz_forall. intros p v Ip Iv. destruct (Hp p Ip) as [A1 A2]. split; cbn; now apply row_const_r.
    + f_equal. now apply bz_map.
    + f_equal. now apply bz_map.
    + f_equal. apply bz_map. intros p v Ip Iv. unfold papp. cbn. unfold rowz. rewrite !bz_one_r. apply map_app.
  - intros a b Ha Hb. apply in_map_iff in Ha as (p & <- & Ip). apply in_map_iff in Hb as (v & <- & Iv).
    apply (row_const_r (w1 + w2) k). now apply pairok_papp, Hp.
  - intros a b Ha Hb. apply in_map_iff in Ha as (p & <- & Ip). apply in_map_iff in Hb as (v & <- & Iv).
    apply (row_const_r w2 k). apply (Hp p Ip).
  - intros a b Ha Hb. apply in_map_iff in Ha as (p & <- & Ip). apply in_map_iff in Hb as (v & <- & Iv).
    apply (row_const_r w1 k). apply (Hp p Ip).
Qed.
Lemma bin_const_l w1 w2 k ps c : Forall (pairok w1 w2 k) ps ->
  hom w1 w2 k (bin f (const_arr c) (map fst ps)) (bin f (const_arr c) (map snd ps)) (bin f (const_arr c) (map papp ps)).
Proof.
  intros Hp. rewrite Forall_forall in Hp. unfold bin, const_arr.
  rewrite !(bcast_ok _ rowz); rewrite ?map_length.
  - destruct (compat (length c) (length ps)); [right|left; eauto].
    exists (bz (fun v p => (rowz [[v]] (fst p), rowz [[v]] (snd p))) c ps). ands.
    + apply bz_forall. intros v p Iv Ip. destruct (Hp p Ip) as [A1 A2]. split; cbn; now apply row_const_l.
    + f_equal. now apply bz_map.
    + f_equal. now apply bz_map.
    + f_equal. apply bz_map. intros v p Iv Ip. unfold papp. cbn. unfold rowz. rewrite !bz_one_l. apply map_app.
  - intros b a Hb Ha. apply in_map_iff in Ha as (p & <- & Ip). apply in_map_iff in Hb as (v & <- & Iv).
    apply (row_const_l (w1 + w2) k). now apply pairok_papp, Hp.
  - intros b a Hb Ha. apply in_map_iff in Ha as (p & <- & Ip). apply in_map_iff in Hb as (v & <- & Iv).
    apply (row_const_l w2 k). apply (Hp p Ip).
  - intros b a Hb Ha. apply in_map_iff in Ha as (p & <- & Ip). apply in_map_iff in Hb as (v & <- & Iv).
    apply (row_const_l w1 k). apply (Hp p Ip).
Qed.
End Bin.

(** * Masks *)
Lemma nth_app_l {A} (l1 l2 : list A) i d : i < length l1 -> nth i (l1 ++ l2) d = nth i l1 d.
Proof. apply app_nth1. Qed.
Lemma process_mask_pairs w1 w2 k (ps : list (list (list bool) * list (list bool))) : Forall (pairok w1 w2 k) ps ->
  (exists e, process_mask (map fst ps) = Err e /\ process_mask (map snd ps) = Err e /\ process_mask (map papp ps) = Err e)
  \/ exists m1 m2, length m1 = w1 /\ length m2 = w2 /\ process_mask (map fst ps) = Ok m1 /\ process_mask (map snd ps) = Ok m2
     /\ process_mask (map papp ps) = Ok (m1 ++ m2).
Proof.
  intros Hp. destruct ps as [|p ps]; [left; exists ValueError; auto|]. right. rewrite Forall_forall in Hp.
  destruct (Hp p (or_introl eq_refl)) as [[A1 _] [A2 _]].
  eexists _, _. split; [|split; [|split; [reflexivity|split; [reflexivity|]]]].
  - cbn [map]. rewrite map_length, seq_length. exact A1.
  - cbn [map]. rewrite map_length, seq_length. exact A2.
  - cbn [map process_mask]. f_equal. replace (length (papp p)) with (length (fst p) + length (snd p)) by (unfold papp; now rewrite app_length).
    rewrite seq_app, map_app. f_equal.
    + apply map_ext_in. intros i Hi. apply in_seq in Hi. change (papp p :: map papp ps) with (map papp (p :: ps)). change (fst p :: map fst ps) with (map fst (p :: ps)).
      assert (G : forall l, incl l (p :: ps) -> forallb (fun row => forallb (fun b => b) (nth i row [])) (map papp l) = forallb (fun row => forallb (fun b => b) (nth i row [])) (map fst l)).
      { induction l as [|q l IH]; intros Hl; [reflexivity|]. cbn [map forallb]. rewrite IH by (intros x Hx; apply Hl; now right). f_equal.
        unfold papp. rewrite app_nth1; [reflexivity|]. destruct (Hp q (Hl q (or_introl eq_refl))) as [[B1 _] _]. lia. }
      apply G. apply incl_refl.
    + rewrite Nat.add_0_l. replace (length (fst p)) with (length (fst p) + 0) by lia. generalize 0 as o. rewrite A1, A2.
      assert (G : forall n o, map (fun i => forallb (fun row => forallb (fun b => b) (nth i row [])) (papp p :: map papp ps)) (seq (w1 + o) n)
        = map (fun i => forallb (fun row => forallb (fun b => b) (nth i row [])) (snd p :: map snd ps)) (seq o n)).
      { induction n as [|n IH]; intros o; [reflexivity|]. cbn [seq map]. f_equal.
        - change (papp p :: map papp ps) with (map papp (p :: ps)). change (snd p :: map snd ps) with (map snd (p :: ps)).
          assert (G : forall l, incl l (p :: ps) -> forallb (fun row => forallb (fun b => b) (nth (w1 + o) row [])) (map papp l) = forallb (fun row => forallb (fun b => b) (nth o row [])) (map snd l)).
          { induction l as [|q l IHl]; intros Hl; [reflexivity|]. cbn [map forallb]. rewrite IHl by (intros x Hx; apply Hl; now right). f_equal.
            unfold papp. destruct (Hp q (Hl q (or_introl eq_refl))) as [[B1 _] _]. rewrite app_nth2 by lia. do 2 f_equal. lia. }
          apply G. apply incl_refl.
        - specialize (IH (S o)). rewrite Nat.add_succ_r in IH. exact IH. }
      intros o. apply G.
Qed.

Lemma keep_app {A} (m1 m2 : list bool) (l1 l2 : list A) : length m1 = length l1 -> keep (m1 ++ m2) (l1 ++ l2) = keep m1 l1 ++ keep m2 l2.
Proof.
  intros H. unfold keep. assert (E : combine (m1 ++ m2) (l1 ++ l2) = combine m1 l1 ++ combine m2 l2).
  { revert l1 H. induction m1 as [|b m IH]; intros [|a l] H; try discriminate; [reflexivity|]. cbn. f_equal. apply IH. now injection H. }
  rewrite E, filter_app, map_app. reflexivity.
Qed.
Lemma keep_length {A} (m : list bool) (l : list A) : length m = length l -> length (keep m l) = length (filter (fun b => b) m).
Proof.
  unfold keep. rewrite map_length. revert l. induction m as [|b m IH]; intros [|a l] H; try discriminate; [reflexivity|]. cbn.
  injection H as H. destruct b; cbn; now rewrite (IH _ H).
Qed.
Lemma keep_in {A} (m : list bool) (l : list A) x : In x (keep m l) -> In x l.
Proof. unfold keep. intros H. apply in_map_iff in H as ([b y] & <- & H). apply filter_In in H as [H _]. now apply in_combine_r in H. Qed.

Lemma select_pairs w1 w2 k ps m1 m2 : Forall (pairok w1 w2 k) ps -> length m1 = w1 -> length m2 = w2 ->
  exists ps', Forall (pairok (length (filter (fun b => b) m1)) (length (filter (fun b => b) m2)) k) ps'
  /\ select_op (map fst ps) m1 = Ok (map (fst (A:=list (list V))) ps') /\ select_op (map snd ps) m2 = Ok (map snd ps')
  /\ select_op (map papp ps) (m1 ++ m2) = Ok (map papp ps').
Proof.
  intros Hp H1 H2. rewrite Forall_forall in Hp. exists (map (fun p => (keep m1 (fst p), keep m2 (snd p))) ps). ands.
  - apply Forall_forall. intros q Hq. apply in_map_iff in Hq as (p & <- & Ip). destruct (Hp p Ip) as [[A1 A1'] [A2 A2']]. split; cbn.
    + split; [apply keep_length; congruence|]. intros s Hs. apply A1'. now apply keep_in in Hs.
    + split; [apply keep_length; congruence|]. intros s Hs. apply A2'. now apply keep_in in Hs.
  - unfold select_op. rewrite (mapM_ok _ (keep m1)), !map_map; [reflexivity|].
    intros r Hr. apply in_map_iff in Hr as (p & <- & Ip). destruct (Hp p Ip) as [[A1 _] _]. now rewrite H1, A1, Nat.eqb_refl.
  - unfold select_op. rewrite (mapM_ok _ (keep m2)), !map_map; [reflexivity|].
    intros r Hr. apply in_map_iff in Hr as (p & <- & Ip). destruct (Hp p Ip) as [_ [A2 _]]. now rewrite H2, A2, Nat.eqb_refl.
  - unfold select_op. rewrite (mapM_ok _ (keep (m1 ++ m2))), !map_map.
    + f_equal. apply map_ext_in. intros p Ip. destruct (Hp p Ip) as [[A1 _] _]. unfold papp. cbn. apply keep_app. congruence.
    + intros r Hr. apply in_map_iff in Hr as (p & <- & Ip). destruct (Hp p Ip) as [[A1 _] [A2 _]]. unfold papp.
      rewrite !app_length, H1, H2, A1, A2, Nat.eqb_refl. reflexivity.
Qed.

(** * Rows rearranged: items, composition, moments *)
Lemma select_rows_incl {R} shape : forall ix (rows out : list R), select_rows shape ix rows = Ok out -> incl out rows.
Proof.
  induction shape as [|n sh IH]; intros [|s ix] rows out H; cbn in H; try discriminate; try (injection H as <-; apply incl_refl).
  destruct (positions n s) as [ps|]; [|discriminate]. revert out H. induction ps as [|p ps IHp]; intros out H; cbn in H.
  - injection H as <-. intros x [].
  - destruct (fold_right _ (Ok []) ps) as [a|] eqn:E in H; [|discriminate]. cbn in H.
    destruct (select_rows sh ix (firstn _ _)) as [r|] eqn:Er in H; [|discriminate]. cbn in H. injection H as <-.
    apply incl_app; [|now apply IHp]. apply IH in Er. intros x Hx. apply Er in Hx.
    rewrite <- (firstn_skipn (p * prod sh) rows). apply in_or_app. right.
    rewrite <- (firstn_skipn (prod sh) (skipn (p * prod sh) rows)). apply in_or_app. now left.
Qed.
Lemma getitem_rows_incl {R} t k (rows out : list R) : getitem_rows K_eq t k rows = Ok out -> incl out rows.
Proof.
  unfold getitem_rows. destruct (get_key K_eq t k) as [[q o]|e]; cbn [bind fst snd]; [|discriminate].
  assert (E : Ok (firstn (size q) (skipn o rows)) = Ok out -> incl out rows).
  { intros H. injection H as <-. intros x Hx. rewrite <- (firstn_skipn o rows). apply in_or_app. right.
    rewrite <- (firstn_skipn (size q) (skipn o rows)). apply in_or_app. now left. }
  destruct t; destruct k; try exact E. destruct (Nat.eqb (length rows) (prod shape)); [|discriminate]. apply select_rows_incl.
Qed.

Lemma item_pairs {W} w1 w2 k t key ps : Forall (@pairok W w1 w2 k) ps ->
  hom w1 w2 k (getitem_rows K_eq t key (map fst ps)) (getitem_rows K_eq t key (map snd ps)) (getitem_rows K_eq t key (map papp ps)).
Proof.
  intros Hp. rewrite !getitem_rows_map. destruct (getitem_rows K_eq t key ps) as [out|e] eqn:E; cbn [bind].
  - right. exists out. ands; try reflexivity. rewrite Forall_forall in *. intros q Hq. apply Hp. now apply (getitem_rows_incl _ _ _ _ E).
  - left. exists e. auto.
Qed.

Lemma map_len_const (row : list (list V)) w k : rowok w k row -> map (@length V) row = repeat k w.
Proof. intros [<- H]. induction row as [|s l IH]; [reflexivity|]. cbn. rewrite (H s) by now left. f_equal. apply IH. intros; apply H; now right. Qed.
Lemma concat_op_ok (rows : list (arr V)) w k : Forall (fun a => Forall (rowok w k) a) rows -> concat_op rows = Ok (concat rows).
Proof.
  intros H. unfold concat_op. assert (Hc : Forall (rowok w k) (concat rows)) by (apply Forall_concat; exact H).
  destruct (concat rows) as [|r l]; [reflexivity|]. rewrite Forall_forall in Hc.
  assert (E : forallb (fun row => if list_eq_dec Nat.eq_dec (map (@length V) row) (map (@length V) r) then true else false) (r :: l) = true).
  { apply forallb_forall. intros row Hrow. destruct (list_eq_dec _ _ _) as [|N]; [reflexivity|]. exfalso. apply N.
    rewrite (map_len_const row w k), (map_len_const r w k); auto. apply Hc. now left. }
  rewrite E. reflexivity.
Qed.
Lemma concat_map_map {A B} (f : A -> B) (ls : list (list A)) : concat (map (map f) ls) = map f (concat ls).
Proof. symmetry. apply concat_map. Qed.
Lemma concat_pairs w1 w2 k (pss : list (list (list (list V) * list (list V)))) : Forall (Forall (pairok w1 w2 k)) pss ->
  hom w1 w2 k (concat_op (map (map fst) pss)) (concat_op (map (map snd) pss)) (concat_op (map (map papp) pss)).
Proof.
  intros H. right. exists (concat pss).
  assert (E : forall (f : list (list V) * list (list V) -> list (list V)) w, (forall p, pairok w1 w2 k p -> rowok w k (f p)) ->
    concat_op (map (map f) pss) = Ok (map f (concat pss))).
  { intros f w Hf. rewrite (concat_op_ok _ w k), concat_map_map; [reflexivity|]. apply Forall_map.
    eapply Forall_impl; [|exact H]. intros a Ha. apply Forall_map. eapply Forall_impl; [|exact Ha]. exact Hf. }
  ands; [now apply Forall_concat|apply (E _ w1)|apply (E _ w2)|apply (E _ (w1 + w2))].
  - intros p Hp. apply Hp. - intros p Hp. apply Hp. - intros p Hp. now apply pairok_papp.
Qed.

Lemma moments_pairs w1 w2 k r (ev : V -> list V) d bottom ps : Forall (pairok w1 w2 k) ps ->
  hom w1 w2 k (Ok (moments_rows r ev d bottom (map fst ps))) (Ok (moments_rows r ev d bottom (map snd ps))) (Ok (moments_rows r ev d bottom (map papp ps))).
Proof.
  intros Hp. right. set (mom := fun j => map (map (fun v => nth j (ev v) d))).
  set (pm := fun j (p : list (list V) * list (list V)) => (mom j (fst p), mom j (snd p))).
  assert (Hm : forall j p, pairok w1 w2 k p -> pairok w1 w2 k (pm j p)).
  { intros j p [[A1 A1'] [A2 A2']]. unfold pm, mom. split; cbn; (split; [now rewrite map_length|]); intros s Hs;
      apply in_map_iff in Hs as (s' & <- & Hs); rewrite map_length; auto. }
  exists (if bottom then flat_map (fun p => map (fun j => pm j p) (seq 0 r)) ps else flat_map (fun j => map (pm j) ps) (seq 0 r)).
  assert (E : forall f : list (list V) * list (list V) -> list (list V), (forall j p, f (pm j p) = mom j (f p)) ->
    moments_rows r ev d bottom (map f ps) = map f (if bottom then flat_map (fun p => map (fun j => pm j p) (seq 0 r)) ps else flat_map (fun j => map (pm j) ps) (seq 0 r))).
  { intros f Hf. unfold moments_rows. destruct bottom.
    - rewrite flat_map_map, flat_map_mapl. apply flat_map_ext2. intros p. rewrite map_map. apply map_ext. intros j. symmetry. apply Hf.
    - rewrite flat_map_map. apply flat_map_ext2. intros j. rewrite !map_map. apply map_ext. intros p. symmetry. apply Hf. }
  ands.
  - rewrite Forall_forall in Hp. apply Forall_forall. intros q Hq. destruct bottom.
    + apply in_flat_map in Hq as (p & Ip & Hq). apply in_map_iff in Hq as (j & <- & _). auto.
    + apply in_flat_map in Hq as (j & _ & Hq). apply in_map_iff in Hq as (p & <- & Ip). auto.
  - f_equal. now apply E.
  - f_equal. now apply E.
  - f_equal. apply E. intros j p. unfold papp, pm, mom. cbn. symmetry. apply map_app.
Qed.

End Proofs.
