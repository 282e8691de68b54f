(** Properties of the input and output files of the flow simulation: C61, C63, C84. *)
From Verif Require Import Base BaseFacts FlowModel FlowSpec FlowProofs.

(** Every opening bracket is closed, with no bracket in between. *)
Definition no_nested (s : pystr) : Prop :=
  forall a b, s = a ++ "<"%char :: b -> exists w r, b = w ++ ">"%char :: r /\ no_brackets w.

(** Such a text is a sequence of characters and placeholders. *)
Lemma no_nested_flat s : no_nested s -> exists ts, flat ts /\ text_of ts = s.
Proof.
  remember (length s) as k eqn:Hk. assert (length s <= k) as L by lia. clear Hk. revert s L.
  induction k as [|k IH]; intros s L H.
  - destruct s; [|cbn in L; lia]. exists []. split; [constructor|reflexivity].
  - destruct s as [|c s]; [exists []; split; [constructor|reflexivity]|]. cbn in L. destruct (ascii_dec c "<") as [->|N].
    + destruct (H [] s eq_refl) as (w & r & -> & Hw). destruct (IH r) as (ts & F & E).
      * rewrite app_length in L. cbn in L. lia.
      * intros a b ->. apply (H ("<"%char :: w ++ ">"%char :: a) b). cbn. now rewrite <- app_assoc.
      * exists (Ph w :: ts). split; [constructor; assumption|]. change (text_of (Ph w :: ts)) with (show (Ph w) ++ text_of ts).
        rewrite E. apply ph_split.
    + destruct (IH s) as (ts & F & E); [lia| |].
      * intros a b ->. now apply (H (c :: a) b).
      * exists (Chr c :: ts). split; [constructor; assumption|]. cbn. f_equal. exact E.
Qed.

(** C84: in a template without nested brackets, for names without brackets and values without an opening bracket, every
    placeholder of a given name is replaced by its value and all else is kept; the names reported are those that occur, in
    the order of the parameters; the order of the parameters does not matter for the text. *)
Theorem C84_substitution text ps :
  no_nested text -> NoDup (map fst ps) -> (forall n v, In (n, v) ps -> no_brackets n /\ no_open v) ->
  exists ts, flat ts /\ text_of ts = text
    /\ snd (substitute_placeholders text ps) = filled ps ts
    /\ (exists keep, fst (substitute_placeholders text ps) = filter keep (map fst ps)
                     /\ forall n, In n (map fst ps) -> (keep n = true <-> In (Ph n) ts))
    /\ (forall qs, Permutation ps qs ->
          snd (substitute_placeholders text qs) = snd (substitute_placeholders text ps)
          /\ Permutation (fst (substitute_placeholders text qs)) (fst (substitute_placeholders text ps))).
Proof.
  intros T N H. destruct (no_nested_flat text T) as (ts & F & <-). exists ts. unfold substitute_placeholders.
  rewrite (substitute_ok ps ts [] F N H). cbn [fst snd app]. ands; auto.
  - exists (occurs ts). split; [reflexivity|]. intros n _. unfold occurs. destruct in_dec; intuition discriminate.
  - intros qs P. rewrite (substitute_ok qs ts [] F).
    + cbn [fst snd app]. split; [symmetry; now apply filled_perm|]. symmetry.
      assert (forall (f : pystr -> bool) l m, Permutation l m -> Permutation (filter f l) (filter f m)) as FP.
      { clear. intros f l m. induction 1; cbn; auto.
        - destruct (f x); auto.
        - destruct (f x), (f y); auto; constructor.
        - eapply Permutation_trans; eauto. }
      apply FP. now apply Permutation_map.
    + eapply Permutation_NoDup; [apply Permutation_map, P|exact N].
    + intros n v X. apply H. now apply (Permutation_in _ (Permutation_sym P)).
Qed.
Print Assumptions C84_substitution.
Example C84_substitution_ex :
  let text := str "mesh: <mesh_file> h: <h> <h> <other>" in
  let ps := [(str "h", str "0.5"); (str "dt", str "3"); (str "mesh_file", str "m>sh.msh")] in
  substitute_placeholders text ps = ([str "h"; str "mesh_file"], str "mesh: m>sh.msh h: 0.5 0.5 <other>").
Proof. vm_compute. reflexivity. Qed.

(** C61 in full is false: with nested brackets the value of one parameter completes the name of another, and the order
    of the parameters matters, although neither names nor values contain brackets. *)
Theorem C61_refuted : exists text ps qs,
  NoDup (map fst ps) /\ Permutation ps qs /\ (forall n v, In (n, v) ps -> no_brackets n /\ no_brackets v)
  /\ snd (substitute_placeholders text ps) <> snd (substitute_placeholders text qs)
  /\ fst (substitute_placeholders text ps) <> fst (substitute_placeholders text qs).
Proof.
  exists (str "<a<b>>"), [(str "b", str "x"); (str "ax", str "y")], [(str "ax", str "y"); (str "b", str "x")]. ands.
  - constructor; [intros [H|[]]; discriminate H|]. constructor; [intros []|constructor].
  - apply perm_swap.
  - intros n v [[= <- <-]|[[= <- <-]|[]]]; split; split; cbn; intuition discriminate.
  - intros H. vm_compute in H. discriminate H.
  - intros H. vm_compute in H. discriminate H.
Qed.
Print Assumptions C61_refuted.

(** C61, the part that holds: templates without nested brackets. Missing: other templates, see [C61_refuted]. *)
Theorem C61_partial text ps :
  no_nested text -> NoDup (map fst ps) -> (forall n v, In (n, v) ps -> no_brackets n /\ no_brackets v) ->
  exists ts, flat ts /\ text_of ts = text
    /\ snd (substitute_placeholders text ps) = filled ps ts
    /\ (forall n, In n (fst (substitute_placeholders text ps)) <-> In n (map fst ps) /\ In (Ph n) ts)
    /\ (forall qs, Permutation ps qs -> snd (substitute_placeholders text qs) = snd (substitute_placeholders text ps)).
Proof.
  intros T N H. destruct (C84_substitution text ps T N) as (ts & F & E & S & (keep & K & Kk) & P).
  { intros n v X. destruct (H n v X) as [A [B _]]. split; assumption. }
  exists ts. ands; auto.
  - intros n. rewrite K, filter_In. split; intros [A B]; (split; [exact A|]); now apply Kk.
  - intros qs Q. now apply P.
Qed.
Print Assumptions C61_partial.
Example C61_partial_ex :
  substitute_placeholders (str "<a>+<b>=<c>") [(str "b", str "2"); (str "a", str "1")] = ([str "b"; str "a"], str "1+2=<c>").
Proof. vm_compute. reflexivity. Qed.

(** C63: the result is minus the sum of the fluxes of the outflow records before the first record of a later time; an
    exception, of the same kind, exactly if there is no such record or one of them has an inflow above the tolerance. *)
Theorem C63_outflow items :
  let its := before_later items in
  let bad := exists it, In it its /\ i_region it = str ".bc_outflow" /\ (1 # 10000000000 < i_in it)%Q in
  let none := forall it, In it its -> i_region it <> str ".bc_outflow" in
  (bad \/ none -> extract_result items = Err PyException)
  /\ (~ bad -> ~ none -> exists q, extract_result items = Ok q /\ (q == - fluxes its)%Q).
Proof.
  cbv zeta. pose proof (extract_ok items 0 false) as E. unfold extract_result.
  destruct (extract_loop items 0 false) as [[t b]|e].
  - destruct E as (H1 & H2 & H3). split.
    + intros [(it & I & R & B)|Nn]; [exfalso; apply (H1 it I); split; assumption|].
      destruct b; [|reflexivity]. destruct H3 as [H3 _]. destruct (H3 eq_refl) as [H|(it & I & A)]; [discriminate|].
      exfalso. now apply (Nn it I).
    + intros _ Nn. destruct b.
      * exists (- t)%Q. split; [reflexivity|]. rewrite H2. ring.
      * exfalso. apply Nn. intros it I A. destruct H3 as [_ H3]. assert (false = true); [apply H3; right; eauto|discriminate].
  - destruct E as (-> & it & I & B). split; [reflexivity|]. intros Nb. exfalso. apply Nb. exists it. split; [exact I|exact B].
Qed.
Print Assumptions C63_outflow.
Example C63_outflow_ex :
  let r t reg f g := mkI t (str reg) f g in
  extract_result [r 0 ".bc_inflow"%string 3 3; r 0 ".bc_outflow"%string (-3 # 2) 0; r 0 ".bc_outflow"%string (-1 # 2) 0; r 1 ".bc_outflow"%string (-7) 5]%Q = Ok (8 # 4)%Q
  /\ extract_result [r 0 ".bc_inflow"%string 3 3; r 1 ".bc_outflow"%string (-7) 0]%Q = Err PyException
  /\ extract_result [r 0 ".bc_outflow"%string (-7) (1#2); r 0 ".bc_outflow"%string (-7) 0]%Q = Err PyException.
Proof. vm_compute. repeat split. Qed.
