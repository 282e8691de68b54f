(** Proofs about templates and outflow. *)
From Verif Require Import Base BaseFacts FlowModel FlowSpec.

Section One.
Variable n v : pystr.
Hypothesis Hn : no_brackets n.
Notation ph := (placeholder n).

Lemma starts_app p s : starts p (p ++ s) = true.
Proof. induction p as [|c p IH]; cbn; [reflexivity|]. rewrite Ascii.eqb_refl. exact IH. Qed.
Lemma starts_other c s : c <> "<"%char -> starts ph (c :: s) = false.
Proof. intros H. unfold placeholder. cbn [starts]. destruct (Ascii.eqb_spec "<" c); [congruence|reflexivity]. Qed.
Lemma starts_name w s : no_brackets w -> w <> n -> starts ph ("<"%char :: w ++ ">"%char :: s) = false.
Proof.
  intros [_ Hw] N. unfold placeholder. cbn [starts]. rewrite Ascii.eqb_refl. cbn [andb].
  destruct Hn as [_ Hn']. clear Hn. revert w Hw N. induction n as [|c m IH]; intros w Hw N.
  - destruct w as [|d w]; [congruence|]. cbn [app starts]. destruct (Ascii.eqb_spec ">" d) as [<-|]; [exfalso; apply Hw; now left|reflexivity].
  - destruct w as [|d w]; cbn [app starts].
    + destruct (Ascii.eqb_spec c ">") as [->|]; [exfalso; apply Hn'; now left|reflexivity].
    + destruct (Ascii.eqb_spec c d) as [<-|]; [|reflexivity]. cbn [andb]. apply IH.
      * intros H. apply Hn'. now right.
      * intros H. apply Hw. now right.
      * congruence.
Qed.
Lemma replace_skip s t : replace ph v (s ++ t) (length s) = replace ph v t 0.
Proof. induction s as [|c s IH]; cbn; [destruct t; reflexivity|exact IH]. Qed.
Lemma count_skip s t : count ph (s ++ t) (length s) = count ph t 0.
Proof. induction s as [|c s IH]; cbn; [destruct t; reflexivity|exact IH]. Qed.
Lemma replace_copy s t : no_open s -> replace ph v (s ++ t) 0 = s ++ replace ph v t 0.
Proof.
  induction s as [|c s IH]; intros H; [reflexivity|]. cbn [app replace].
  rewrite (starts_other c (s ++ t)) by (intros ->; apply H; now left). f_equal. apply IH. intros X. apply H. now right.
Qed.
Lemma count_copy s t : no_open s -> count ph (s ++ t) 0 = count ph t 0.
Proof.
  induction s as [|c s IH]; intros H; [reflexivity|]. cbn [app count].
  rewrite (starts_other c (s ++ t)) by (intros ->; apply H; now left). apply IH. intros X. apply H. now right.
Qed.
Lemma len_ph : length ph - 1 = length (n ++ [">"%char]).
Proof. unfold placeholder. cbn. lia. Qed.

Definition one (t : token) : list token :=
  match t with Chr c => [Chr c] | Ph w => if pystr_eq_dec w n then map Chr v else [Ph w] end.
Lemma text_app a b : text_of (a ++ b) = text_of a ++ text_of b.
Proof. apply flat_map_app. Qed.
Lemma text_chars s : text_of (map Chr s) = s.
Proof. induction s as [|c s IH]; [reflexivity|]. cbn. f_equal. exact IH. Qed.
Lemma ph_split w t : show (Ph w) ++ t = "<"%char :: w ++ ">"%char :: t.
Proof. cbn. f_equal. now rewrite <- app_assoc. Qed.

Lemma replace_text ts : flat ts -> replace ph v (text_of ts) 0 = text_of (flat_map one ts).
Proof.
  induction 1 as [|t ts H _ IH]; [reflexivity|]. cbn [flat_map]. rewrite text_app, <- IH.
  change (text_of (t :: ts)) with (show t ++ text_of ts). destruct t as [c|w].
  - cbn [show one]. apply (replace_copy [c]). intros [X|[]]. contradiction.
  - cbn [one]. destruct (pystr_eq_dec w n) as [->|N].
    + rewrite text_chars. change (show (Ph n)) with ph.
      assert (starts ph (ph ++ text_of ts) = true) as S by apply starts_app.
      unfold placeholder at 2. cbn [app replace]. change ("<"%char :: (n ++ [">"%char]) ++ text_of ts) with (ph ++ text_of ts).
      rewrite S, len_ph. f_equal. apply replace_skip.
    + rewrite ph_split. cbn [replace]. rewrite starts_name by assumption.
      replace (w ++ ">"%char :: text_of ts) with ((w ++ [">"%char]) ++ text_of ts) by now rewrite <- app_assoc.
      rewrite replace_copy; [cbn; now rewrite app_nil_r|]. intros X. apply in_app_iff in X as [X|[X|[]]]; [exact (proj1 H X)|discriminate X].
Qed.
Lemma count_text ts : flat ts -> (0 < count ph (text_of ts) 0)%nat <-> In (Ph n) ts.
Proof.
  induction 1 as [|t ts H _ IH]; [cbn; split; [lia|intros []]|].
  change (text_of (t :: ts)) with (show t ++ text_of ts). destruct t as [c|w].
  - cbn [show]. rewrite (count_copy [c]) by (intros [X|[]]; contradiction). rewrite IH. cbn. intuition discriminate.
  - destruct (pystr_eq_dec w n) as [->|N].
    + change (show (Ph n)) with ph. assert (starts ph (ph ++ text_of ts) = true) as S by apply starts_app.
      unfold placeholder at 2. cbn [app count]. change ("<"%char :: (n ++ [">"%char]) ++ text_of ts) with (ph ++ text_of ts).
      rewrite S. cbn. split; [auto|lia].
    + rewrite ph_split. cbn [count]. rewrite starts_name by assumption.
      replace (w ++ ">"%char :: text_of ts) with ((w ++ [">"%char]) ++ text_of ts) by now rewrite <- app_assoc.
      rewrite count_copy; [rewrite IH; cbn; intuition congruence|].
      intros X. apply in_app_iff in X as [X|[X|[]]]; [exact (proj1 H X)|discriminate X].
Qed.
Lemma one_none ts : ~ In (Ph n) ts -> flat_map one ts = ts.
Proof.
  induction ts as [|t ts IH]; intros H; [reflexivity|]. cbn [flat_map]. rewrite IH by (intros X; apply H; now right).
  destruct t as [c|w]; [reflexivity|]. cbn. destruct (pystr_eq_dec w n) as [->|]; [exfalso; apply H; now left|reflexivity].
Qed.
Lemma one_flat ts : no_open v -> flat ts -> flat (flat_map one ts).
Proof.
  intros Hv H. unfold flat in *. rewrite Forall_forall in *. intros t Ht. apply in_flat_map in Ht as (t0 & H0 & Ht).
  specialize (H t0 H0). destruct t0 as [c|w]; cbn in Ht.
  - destruct Ht as [<-|[]]. exact H.
  - destruct pystr_eq_dec; [|destruct Ht as [<-|[]]; exact H]. apply in_map_iff in Ht as (c & <- & Hc). intros ->. now apply Hv.
Qed.
Lemma one_keeps m ts : m <> n -> In (Ph m) (flat_map one ts) <-> In (Ph m) ts.
Proof.
  intros N. rewrite in_flat_map. split.
  - intros ([c|w] & H0 & Ht); cbn in Ht; [destruct Ht as [Ht|[]]; discriminate|].
    destruct pystr_eq_dec; [|destruct Ht as [[= <-]|[]]; exact H0]. apply in_map_iff in Ht as (c & Ht & _). discriminate.
  - intros H. exists (Ph m). split; [exact H|]. cbn. destruct (pystr_eq_dec m n); [contradiction|now left].
Qed.
End One.

Definition tok_eq_dec : forall a b : token, {a = b} + {a <> b}.
Proof. decide equality; [apply ascii_dec|apply pystr_eq_dec]. Defined.
Definition occurs (ts : list token) (n : pystr) : bool := if in_dec tok_eq_dec (Ph n) ts then true else false.

Lemma fill_one n v ps ts : ~ In n (map fst ps) -> flat_map (fill ps) (flat_map (one n v) ts) = flat_map (fill ((n, v) :: ps)) ts.
Proof.
  intros Nn. induction ts as [|t ts IH]; [reflexivity|]. cbn [flat_map]. rewrite flat_map_app, IH. f_equal.
  destruct t as [c|w]; [reflexivity|]. cbn [one fill lookup]. destruct (pystr_eq_dec w n) as [->|N].
  - clear. induction v as [|c s IH]; [reflexivity|]. cbn. now rewrite IH.
  - cbn. apply app_nil_r.
Qed.

Lemma substitute_ok ps : forall ts used, flat ts -> NoDup (map fst ps) ->
  (forall n v, In (n, v) ps -> no_brackets n /\ no_open v) ->
  fold_left substitute_one ps (used, text_of ts) = (used ++ filter (occurs ts) (map fst ps), filled ps ts).
Proof.
  induction ps as [|[n v] ps IH]; intros ts used F Nd H.
  - cbn. rewrite app_nil_r. unfold filled. f_equal. f_equal.
    induction ts as [|t ts IHt]; [reflexivity|]. inversion F; subst. cbn. rewrite <- IHt by assumption. destruct t; reflexivity.
  - cbn [map fst] in Nd. apply NoDup_cons_iff in Nd as [Nn Nd]. destruct (H n v) as [Hn Hv]; [now left|].
    assert (forall m w, In (m, w) ps -> no_brackets m /\ no_open w) as H' by (intros m w X; apply H; now right).
    cbn [fold_left substitute_one fst snd map filter]. unfold filled. rewrite <- fill_one by assumption. fold (filled ps (flat_map (one n v) ts)).
    assert (filter (occurs (flat_map (one n v) ts)) (map fst ps) = filter (occurs ts) (map fst ps)) as Eo.
    { apply filter_ext_in. intros m Hm. unfold occurs. assert (m <> n) as N by (intros ->; contradiction).
      pose proof (one_keeps n v m ts N). destruct (in_dec tok_eq_dec (Ph m) (flat_map (one n v) ts)), (in_dec tok_eq_dec (Ph m) ts); tauto. }
    pose proof (count_text n Hn ts F) as C. unfold occurs at 1. destruct (in_dec tok_eq_dec (Ph n) ts) as [O|O].
    + apply C in O. destruct (Nat.ltb_spec 0 (count (placeholder n) (text_of ts) 0)); [|lia].
      rewrite replace_text by assumption. rewrite IH; auto; [|now apply one_flat]. rewrite Eo, <- app_assoc. reflexivity.
    + destruct (Nat.ltb_spec 0 (count (placeholder n) (text_of ts) 0)) as [L|L]; [apply C in L; contradiction|].
      rewrite (one_none n v ts O). apply IH; auto.
Qed.

Lemma lookup_In {B} (ps : list (pystr * B)) n v : NoDup (map fst ps) -> lookup ps n = Some v <-> In (n, v) ps.
Proof.
  induction ps as [|[m w] ps IH]; cbn; intros N; [split; [discriminate|intros []]|]. apply NoDup_cons_iff in N as [Nm N].
  destruct (pystr_eq_dec n m) as [->|Ne].
  - split; [intros [= ->]; auto|]. intros [[= ->]|H]; [reflexivity|]. exfalso. apply Nm. apply in_map_iff. now exists (m, v).
  - rewrite (IH N). split; [auto|]. intros [[= -> ->]|H]; [contradiction|exact H].
Qed.
Lemma lookup_perm {B} (ps qs : list (pystr * B)) n : NoDup (map fst ps) -> Permutation ps qs -> lookup ps n = lookup qs n.
Proof.
  intros N P. assert (NoDup (map fst qs)) as N' by (eapply Permutation_NoDup; [apply Permutation_map, P|exact N]).
  destruct (lookup ps n) as [v|] eqn:E.
  - apply lookup_In in E; [|exact N]. symmetry. apply lookup_In; [exact N'|]. now apply (Permutation_in _ P).
  - destruct (lookup qs n) as [v|] eqn:E'; [|reflexivity]. apply lookup_In in E'; [|exact N'].
    apply (Permutation_in _ (Permutation_sym P)) in E'. apply lookup_In in E'; [congruence|exact N].
Qed.
Lemma filled_perm ps qs ts : NoDup (map fst ps) -> Permutation ps qs -> filled ps ts = filled qs ts.
Proof.
  intros N P. unfold filled. f_equal. apply flat_map_ext. intros [c|w]; [reflexivity|]. cbn. now rewrite (lookup_perm ps qs w N P).
Qed.

(** ** Outflow *)
Definition bad_item (it : flux_item) : Prop := at_outflow it /\ (1 # 10000000000 < i_in it)%Q.
Lemma Qle_bool_spec x y : Qle_bool x y = true <-> (x <= y)%Q.
Proof. apply Qle_bool_iff. Qed.
Lemma extract_ok items : forall total found,
  match extract_loop items total found with
  | Ok (t, b) => (forall it, In it (before_later items) -> ~ bad_item it)
                 /\ (t == total + fluxes (before_later items))%Q
                 /\ (b = true <-> found = true \/ exists it, In it (before_later items) /\ at_outflow it)
  | Err e => e = PyException /\ exists it, In it (before_later items) /\ bad_item it
  end.
Proof.
  induction items as [|it items IH]; intros total found; cbn [extract_loop before_later].
  - ands; [intros it []|cbn; ring|]. split; [auto|]. intros [H|(it & [] & _)]; exact H.
  - destruct (Qlt_le_dec 0%Q (i_time it)) as [L|L].
    + destruct (Qle_bool (i_time it) 0%Q) eqn:E; [apply Qle_bool_spec in E; exfalso; revert L; now apply Qle_not_lt|].
      cbn. ands; [intros ? []|ring|]. split; [auto|]. intros [H|(x & [] & _)]; exact H.
    + apply Qle_bool_spec in L as ->. cbn [negb].
      destruct (pystr_eq_dec (i_region it) outflow) as [R|R].
      * destruct (Qle_bool (i_in it) (1 # 10000000000)) eqn:E; cbn [negb].
        -- specialize (IH (total + i_flux it)%Q true). destruct (extract_loop items (total + i_flux it)%Q true) as [[t b]|e].
           ++ destruct IH as (H1 & H2 & H3). ands.
              ** intros x [<-|Hx]; [|now apply H1]. intros [_ B]. apply Qle_bool_spec in E. revert B. now apply Qle_not_lt.
              ** rewrite H2. cbn [fluxes]. destruct (pystr_eq_dec (i_region it) outflow); [ring|contradiction].
              ** rewrite H3. split; [|intros _; now left]. intros _. right. exists it. split; [now left|exact R].
           ++ destruct IH as (-> & x & Hx & B). split; [reflexivity|]. exists x. split; [now right|exact B].
        -- split; [reflexivity|]. exists it. split; [now left|]. split; [exact R|].
           apply Qnot_le_lt. intros X. apply Qle_bool_spec in X. congruence.
      * specialize (IH total found). destruct (extract_loop items total found) as [[t b]|e].
        -- destruct IH as (H1 & H2 & H3). ands.
           ++ intros x [<-|Hx]; [|now apply H1]. intros [B _]. contradiction.
           ++ rewrite H2. cbn [fluxes]. destruct (pystr_eq_dec (i_region it) outflow); [contradiction|ring].
           ++ rewrite H3. split; [intros [H|(x & Hx & A)]; [now left|right; exists x; split; [now right|exact A]]|].
              intros [H|(x & [<-|Hx] & A)]; [now left|contradiction|right; eauto].
        -- destruct IH as (-> & x & Hx & B). split; [reflexivity|]. exists x. split; [now right|exact B].
Qed.
