(** Time records of a job. *)
From Verif Require Import Base BaseFacts PoolModel PoolProofs PbsModel PbsSpec PbsRead.

Section Times.
Context {A : Type}.
Variable out : samp -> A + pystr.
Variable clock : nat -> Z.
Notation calc := (calc out clock).
Definition lev (r : nat * Z * nat) : nat := fst (fst r).

Lemma trecs_cons (e : event A) es : trecs (e :: es) = match e with EvTimes r => r | _ => [] end ++ trecs es.
Proof. reflexivity. Qed.
Lemma trecs_calc s ss cur st n k :
  trecs (calc (s :: ss) cur st n k) =
  if Nat.eqb cur (s_level s)
  then (s_level s, (clock k - st)%Z, S n) :: trecs (calc ss (s_level s) st (S n) (S k))
  else (cur, (clock k - st)%Z, n) :: (s_level s, (clock (S (S k)) - clock (S k))%Z, 1)
       :: trecs (calc ss (s_level s) (clock (S k)) 1 (S (S (S k)))).
Proof.
  cbn [PbsModel.calc]. rewrite !trecs_cons. destruct (out s); cbn [app]; destruct (Nat.eqb cur (s_level s)); reflexivity.
Qed.

Lemma same_level l mid post : Forall (fun s => s_level s = l) mid -> forall st n k,
  trecs (calc (mid ++ post) l st n k) =
    map (fun i => (l, (clock (k + i) - st)%Z, S n + i)) (seq 0 (length mid))
    ++ trecs (calc post l st (n + length mid) (k + length mid)).
Proof.
  induction 1 as [|s mid E _ IH]; intros st n k.
  - cbn. now rewrite !Nat.add_0_r.
  - cbn [app]. rewrite trecs_calc, E, Nat.eqb_refl. rewrite IH. cbn [length seq map app]. rewrite !Nat.add_0_r. f_equal.
    rewrite <- seq_shift, map_map. replace (n + S (length mid)) with (S n + length mid) by lia.
    replace (k + S (length mid)) with (S k + length mid) by lia. f_equal. apply map_ext. intros i.
    replace (k + S i) with (S k + i) by lia. f_equal. lia.
Qed.
Lemma same_tags l mid post : Forall (fun s => s_level s = l) mid ->
  tags (mid ++ post) l = repeat (Close l) (length mid) ++ tags post l.
Proof. induction 1 as [|s mid E _ IH]; cbn; [reflexivity|]. rewrite E, Nat.eqb_refl. cbn. now rewrite IH. Qed.

Lemma before pre rest : forall cur st n k, exists P cur' st' n',
  trecs (calc (pre ++ rest) cur st n k) = P ++ trecs (calc rest cur' st' n' (k + length (tags pre cur)))
  /\ tags (pre ++ rest) cur = tags pre cur ++ tags rest cur'
  /\ (forall r, In r P -> lev r = cur \/ In (lev r) (map s_level pre))
  /\ (cur' = cur \/ In cur' (map s_level pre))
  /\ (pre = [] -> P = [] /\ cur' = cur /\ st' = st /\ n' = n).
Proof.
  induction pre as [|s pre IH]; intros cur st n k.
  - exists [], cur, st, n. cbn. rewrite Nat.add_0_r. ands; auto.
  - cbn [app]. rewrite trecs_calc. cbn [tags]. destruct (Nat.eqb_spec cur (s_level s)) as [E|E].
    + destruct (IH (s_level s) st (S n) (S k)) as (P & cur' & st' & n' & H1 & H2 & H3 & H4 & _).
      exists ((s_level s, (clock k - st)%Z, S n) :: P), cur', st', n'. cbn [app length map In].
      rewrite H1, H2. rewrite <- plus_n_Sm. ands; try reflexivity; [|destruct H4; subst; auto|discriminate].
      intros r [<-|Hr]; [now left; cbn|]. apply H3 in Hr. intuition congruence.
    + destruct (IH (s_level s) (clock (S k)) 1 (S (S (S k)))) as (P & cur' & st' & n' & H1 & H2 & H3 & H4 & _).
      eexists ((cur, _, n) :: (s_level s, _, 1) :: P), cur', st', n'. cbn [app length map In].
      rewrite H1, H2. rewrite <- !plus_n_Sm. ands; try reflexivity; [|destruct H4; subst; auto|discriminate].
      intros r [<-|[<-|Hr]]; cbn; auto. apply H3 in Hr. intuition congruence.
Qed.
Lemma levels_of ss : forall cur st n k r, In r (trecs (calc ss cur st n k)) -> lev r = cur \/ In (lev r) (map s_level ss).
Proof.
  intros cur st n k r H. destruct (before ss [] cur st n k) as (P & c & s' & n' & H1 & _ & H3 & _).
  rewrite app_nil_r in H1. rewrite H1 in H. apply in_app_iff in H as [H|H]; [auto|destruct H].
Qed.
Lemma tags_of ss : forall cur l, In (Close l) (tags ss cur) -> l = cur \/ In l (map s_level ss).
Proof.
  induction ss as [|s ss IH]; intros cur l H; [destruct H|]. cbn in H. apply in_app_iff in H as [H|[H|H]].
  - destruct Nat.eqb; [destruct H|]. destruct H as [[= ->]|[[=]|[]]]. now left.
  - injection H as <-. right; left; reflexivity.
  - apply IH in H. cbn. intuition.
Qed.

Lemma sorted_app a b : sorted (a ++ b) -> sorted a /\ sorted b.
Proof.
  induction a as [|x a IH]; cbn; [auto|]. intros [F S]. apply IH in S. apply Forall_app in F. tauto.
Qed.
(** A sorted list splits around a level. *)
Lemma sorted_split l ss : sorted ss -> exists pre mid post, ss = pre ++ mid ++ post
  /\ Forall (fun s => s_level s < l) pre /\ Forall (fun s => s_level s = l) mid /\ Forall (fun s => l < s_level s) post.
Proof.
  induction ss as [|s ss IH]; intros S; [exists [], [], []; auto|]. destruct S as [F S].
  destruct (IH S) as (pre & mid & post & -> & H1 & H2 & H3).
  destruct (lt_eq_lt_dec (s_level s) l) as [[L|E]|G].
  - exists (s :: pre), mid, post. ands; auto.
  - destruct pre as [|x pre].
    + exists [], (s :: mid), post. ands; auto.
    + exfalso. inversion H1; subst. cbn in F. inversion F; subst. lia.
  - destruct pre as [|x pre]; [destruct mid as [|y mid]|].
    + exists [], [], (s :: post). ands; auto.
    + exfalso. inversion H2; subst. cbn in F. inversion F; subst. lia.
    + exfalso. inversion H1; subst. cbn in F. inversion F; subst. lia.
Qed.

Definition of_level (l : nat) (rs : list (nat * Z * nat)) := filter (fun r => Nat.eqb (lev r) l) rs.
Lemma of_level_none l rs : (forall r, In r rs -> lev r <> l) -> of_level l rs = [].
Proof.
  intros H. unfold of_level. induction rs as [|r rs IH]; [reflexivity|]. cbn.
  destruct (Nat.eqb_spec (lev r) l) as [E|_]; [exfalso; apply (H r); [now left|exact E]|]. apply IH. intros r' Hr. apply H. now right.
Qed.
Lemma of_level_app l a b : of_level l (a ++ b) = of_level l a ++ of_level l b.
Proof. apply filter_app. Qed.

Lemma after_level l (E : list samp) post : Forall (fun s => l < s_level s) post ->
  forall st n k, of_level l (trecs (calc post l st n k)) = match post with [] => [] | _ => [(l, (clock k - st)%Z, n)] end
  /\ (forall i, 1 <= i -> nth_error (tags post l) i <> Some (Close l))
  /\ (post <> [] -> nth_error (tags post l) 0 = Some (Close l)).
Proof.
  clear E. intros F st n k. destruct post as [|s post].
  - ands; auto; [|congruence]. intros i _. destruct i; discriminate.
  - inversion F as [|? ? L F']; subst. rewrite trecs_calc. cbn [tags]. destruct (Nat.eqb_spec l (s_level s)) as [E|N]; [lia|].
    assert (forall x, (x = s_level s \/ In x (map s_level post)) -> x <> l) as Gt.
    { intros x [->|H]; [lia|]. apply in_map_iff in H as (y & <- & Hy). rewrite Forall_forall in F'. specialize (F' _ Hy). lia. }
    ands.
    + match goal with |- of_level l (?a :: ?r) = _ => change (a :: r) with ([a] ++ r); rewrite of_level_app, (of_level_none l r) end;
        [cbn; now rewrite Nat.eqb_refl|].
      intros r [<-|Hr]; [cbn; lia|]. apply levels_of in Hr. now apply Gt.
    + intros i Hi. destruct i as [|[|[|i]]]; cbn; try lia; try congruence.
      intros H. apply nth_error_In in H. apply tags_of in H. now apply (Gt l).
    + reflexivity.
Qed.

Lemma last_app_cons {B} (a b : list B) x d : last (a ++ x :: b) d = last (x :: b) d.
Proof. induction a as [|y a IH]; [reflexivity|]. cbn [app]. rewrite <- IH. cbn. destruct (a ++ x :: b) eqn:E; [destruct a; discriminate|reflexivity]. Qed.

(** Main lemma: the last record of a level that has samples. *)
Lemma last_record E l : sorted E -> (exists s, In s E /\ s_level s = l) -> forall d,
  exists b e, last (of_level l (trecs (calc E 0 (clock 0) 0 1))) d
              = (l, (clock e - clock b)%Z, length (filter (fun s => Nat.eqb (s_level s) l) E))
  /\ nth_error (readings E) b = Some (Open l) /\ nth_error (readings E) e = Some (Close l) /\ b < e
  /\ forall i, e < i -> nth_error (readings E) i <> Some (Close l).
Proof.
  intros So (s0 & Hs0 & Es0) d. destruct (sorted_split l E So) as (pre & mid & post & -> & Hpre & Hmid & Hpost).
  assert (length mid > 0) as Lm.
  { destruct mid; [|cbn; lia]. exfalso. cbn in Hs0. apply in_app_iff in Hs0. rewrite Forall_forall in Hpre, Hpost.
    destruct Hs0 as [H|H]; [apply Hpre in H|apply Hpost in H]; lia. }
  clear s0 Hs0 Es0.
  assert (length (filter (fun s => Nat.eqb (s_level s) l) (pre ++ mid ++ post)) = length mid) as Lf.
  { assert (forall q, Forall (fun s => s_level s <> l) q -> filter (fun s => Nat.eqb (s_level s) l) q = []) as N0.
    { induction 1 as [|x q H _ IH]; cbn; [reflexivity|]. destruct (Nat.eqb_spec (s_level x) l); [contradiction|exact IH]. }
    assert (forall q, Forall (fun s => s_level s = l) q -> filter (fun s => Nat.eqb (s_level s) l) q = q) as N1.
    { induction 1 as [|x q H _ IH]; cbn; [reflexivity|]. rewrite H, Nat.eqb_refl. now f_equal. }
    rewrite !filter_app. rewrite (N1 mid Hmid), (N0 pre), (N0 post); [now rewrite app_nil_r| |].
    - eapply Forall_impl; [|exact Hpost]; cbn; intros; lia.
    - eapply Forall_impl; [|exact Hpre]; cbn; intros; lia. }
  rewrite Lf. destruct (before pre (mid ++ post) 0 (clock 0) 0 1) as (P & cur' & st' & n' & H1 & H2 & H3 & H4 & H5).
  (* after the possible change of level the state is (l, clock b, 0, k1) *)
  assert (exists Q b k1, trecs (calc (pre ++ mid ++ post) 0 (clock 0) 0 1)
             = Q ++ trecs (calc (mid ++ post) l (clock b) 0 k1)
           /\ (forall r, In r Q -> lev r <> l) /\ b < k1
           /\ exists T, readings (pre ++ mid ++ post) = T ++ tags (mid ++ post) l /\ length T = k1 /\ nth_error T b = Some (Open l))
    as (Q & b & k1 & HQ & HQl & Hb & T & HT & HTl & HTb).
  { destruct mid as [|s mid]; [cbn in Lm; lia|]. inversion Hmid as [|? ? Es _]; subst.
    destruct (Nat.eq_dec cur' (s_level s)) as [E|N].
    - assert (pre = []) as ->.
      { destruct pre as [|x pre]; [reflexivity|]. exfalso. rewrite Forall_forall in Hpre. destruct H4 as [H4|H4].
        - assert (s_level x < s_level s) by (apply Hpre; now left). lia.
        - apply in_map_iff in H4 as (y & <- & Hy). apply Hpre in Hy. lia. }
      destruct (H5 eq_refl) as (-> & -> & -> & ->). exists [], 0, 1. rewrite <- E. ands; auto.
      exists [Open 0]. cbn [app]. ands; auto.
    - exists (P ++ [(cur', (clock (1 + length (tags pre 0)) - st')%Z, n')]), (2 + length (tags pre 0)), (3 + length (tags pre 0)).
      ands.
      + rewrite H1, <- app_assoc. f_equal. cbn [app]. rewrite !trecs_calc. rewrite Nat.eqb_refl.
        destruct (Nat.eqb_spec cur' (s_level s)); [contradiction|]. reflexivity.
      + intros r Hr. apply in_app_iff in Hr as [Hr|[<-|[]]]; [|exact N].
        assert (forall x, In x (map s_level pre) -> x < s_level s) as Lt.
        { intros x Hx. apply in_map_iff in Hx as (y & <- & Hy). rewrite Forall_forall in Hpre. now apply Hpre. }
        destruct (H3 r Hr) as [Z|Z]; [|apply Lt in Z; lia].
        destruct pre as [|x pre]; [destruct (H5 eq_refl) as (-> & _); destruct Hr|].
        assert (s_level x < s_level s) by (apply Lt; now left). lia.
      + lia.
      + exists (Open 0 :: tags pre 0 ++ [Close cur'; Open (s_level s)]). unfold readings. rewrite H2. ands.
        * cbn [app tags]. rewrite Nat.eqb_refl. destruct (Nat.eqb_spec cur' (s_level s)); [contradiction|].
          cbn [app]. rewrite <- app_assoc. reflexivity.
        * cbn [length]. rewrite app_length. cbn. lia.
        * change (nth_error (tags pre 0 ++ [Close cur'; Open (s_level s)]) (S (length (tags pre 0))) = Some (Open (s_level s))).
          rewrite nth_error_app2 by lia.
          replace (S (length (tags pre 0)) - length (tags pre 0)) with 1 by lia. reflexivity. }
  rewrite HQ, (same_level l mid post Hmid), !of_level_app. rewrite (of_level_none l Q HQl). cbn [app].
  assert (of_level l (map (fun i => (l, (clock (k1 + i) - clock b)%Z, 1 + i)) (seq 0 (length mid)))
          = map (fun i => (l, (clock (k1 + i) - clock b)%Z, 1 + i)) (seq 0 (length mid))) as Em.
  { unfold of_level. generalize (seq 0 (length mid)). intros q. induction q as [|i q IH]; cbn [map filter lev fst]; [reflexivity|].
    rewrite Nat.eqb_refl. f_equal. exact IH. }
  rewrite Em. destruct (after_level l mid post Hpost (clock b) (0 + length mid) (k1 + length mid)) as (Ha & Ht & Ht0).
  rewrite Ha. rewrite HT, (same_tags l mid post Hmid).
  assert (forall i, i < length mid -> nth_error (repeat (Close l) (length mid)) i = Some (Close l)) as Rp.
  { intros i Hi. apply nth_error_repeat. exact Hi. }
  destruct post as [|p post].
  - exists b, (k1 + (length mid - 1)). ands.
    + rewrite app_nil_r. destruct (length mid) as [|m] eqn:Lmm; [lia|].
      rewrite seq_app1, map_app. cbn [map]. rewrite last_last. cbn [Nat.add]. now rewrite Nat.sub_0_r || (replace (S m - 1) with m by lia; reflexivity).
    + rewrite nth_error_app1; [exact HTb|lia].
    + rewrite nth_error_app2 by lia. rewrite nth_error_app1 by (rewrite repeat_length; lia). apply Rp. lia.
    + lia.
    + intros i Hi. cbn [tags]. rewrite app_nil_r. rewrite nth_error_app2 by lia.
      replace (nth_error _ (i - length T)) with (@None tag); [discriminate|]. symmetry. apply nth_error_None. rewrite repeat_length. lia.
  - exists b, (k1 + length mid). ands.
    + rewrite last_last. reflexivity.
    + rewrite nth_error_app1; [exact HTb|lia].
    + rewrite nth_error_app2 by lia. rewrite nth_error_app2 by (rewrite repeat_length; lia). rewrite repeat_length.
      replace (k1 + length mid - length T - length mid) with 0 by lia. now apply Ht0.
    + lia.
    + intros i Hi. rewrite nth_error_app2 by lia. rewrite nth_error_app2 by (rewrite repeat_length; lia). rewrite repeat_length.
      apply Ht. lia.
Qed.

Lemma fold_put_list {B C} (k : C -> nat) (v : C -> B) l : forall d n,
  dlist (fold_left (fun d c => put d (k c) (v c)) l d) n = dlist d n ++ map v (filter (fun c => Nat.eqb (k c) n) l).
Proof.
  induction l as [|c l IH]; intros d n; cbn; [now rewrite app_nil_r|]. rewrite IH.
  destruct (Nat.eqb_spec (k c) n) as [<-|N].
  - rewrite dlist_put_eq, <- app_assoc. reflexivity.
  - now rewrite dlist_put_neq.
Qed.
End Times.
