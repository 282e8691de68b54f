(** Reading what was written. *)
From Coq Require Import DecimalString DecimalFacts DecimalPos DecimalZ.
From Verif Require Import Base BaseFacts FieldModel GmshModel.

(** ** Text *)
Definition clean (l : pystr) : Prop := forall c, In c l -> c <> nl /\ c <> cr.
Definition word (w : pystr) : Prop := w <> [] /\ forall c, In c w -> is_space c = false.

Lemma split_lines_nonempty s : split_lines s <> [].
Proof. destruct s as [|c s]; cbn [split_lines]; [discriminate|]. destruct (Ascii.eqb c nl); [discriminate|]. destruct (Ascii.eqb c cr).
  - destruct s as [|d s]; [discriminate|]. destruct (Ascii.eqb d nl); discriminate.
  - destruct (split_lines s); discriminate. Qed.
Lemma split_lines_line l t : clean l -> split_lines (l ++ nl :: t) = l :: split_lines t.
Proof.
  induction l as [|c l IH]; intros H; [reflexivity|].
  destruct (H c (or_introl eq_refl)) as [Hn Hc]. cbn [app split_lines].
  apply Ascii.eqb_neq in Hn. apply Ascii.eqb_neq in Hc. rewrite Hn, Hc, IH; [reflexivity|]. intros d Hd. apply H. right; exact Hd.
Qed.
Lemma split_unlines ls : Forall clean ls -> split_lines (unlines ls) = ls ++ [[]].
Proof.
  induction 1 as [|l ls Hl _ IH]; [reflexivity|]. unfold unlines in *. cbn [flat_map]. rewrite <- app_assoc. cbn [app].
  rewrite split_lines_line by exact Hl. now rewrite IH.
Qed.
Lemma word_clean w : (forall c, In c w -> is_space c = false) -> clean w.
Proof. intros H c Hc. apply H in Hc. split; intros ->; discriminate. Qed.
Lemma clean_app a b : clean a -> clean b -> clean (a ++ b).
Proof. intros A B c H. apply in_app_or in H. destruct H; auto. Qed.
Lemma clean_sp : clean sp.
Proof. intros c [<-|[]]. split; discriminate. Qed.
Lemma clean_join ws : Forall clean ws -> clean (join sp ws).
Proof.
  induction 1 as [|w ws Hw _ IH]; [intros c []|]. cbn [join]. destruct ws; [exact Hw|]. apply clean_app; [exact Hw|].
  apply clean_app; [apply clean_sp|exact IH].
Qed.

Lemma split_aux_word w : (forall c, In c w -> is_space c = false) -> forall cur x, split_aux cur (w ++ x) = split_aux (rev w ++ cur) x.
Proof.
  induction w as [|c w IH]; intros H cur x; [reflexivity|]. cbn [app split_aux]. rewrite (H c (or_introl eq_refl)), IH.
  - cbn [rev]. now rewrite <- app_assoc.
  - intros d Hd. apply H. right; exact Hd.
Qed.
Lemma split_cons w x : word w -> split (w ++ sp ++ x) = w :: split x.
Proof.
  intros [Hn H]. unfold split. rewrite split_aux_word by exact H. rewrite app_nil_r. cbn [app sp split_aux].
  replace (is_space " ") with true by reflexivity. destruct (rev w) as [|c r] eqn:E.
  - exfalso. apply Hn. rewrite <- (rev_involutive w), E. reflexivity.
  - rewrite <- E, rev_involutive. reflexivity.
Qed.
Lemma split_one w : word w -> split w = [w].
Proof.
  intros [Hn H]. unfold split. rewrite <- (app_nil_r w) at 1. rewrite split_aux_word by exact H. rewrite app_nil_r. cbn.
  destruct (rev w) as [|c r] eqn:E.
  - exfalso. apply Hn. rewrite <- (rev_involutive w), E. reflexivity.
  - rewrite <- E, rev_involutive. reflexivity.
Qed.
Lemma split_sp x : split (sp ++ x) = split x.
Proof. reflexivity. Qed.
Lemma split_join ws : Forall word ws -> split (join sp ws) = ws.
Proof.
  induction 1 as [|w ws Hw _ IH]; [reflexivity|]. cbn [join]. destruct ws; [apply split_one; exact Hw|].
  rewrite split_cons by exact Hw. now rewrite IH.
Qed.
Lemma split_join_app ws x : Forall word ws -> split (join sp ws ++ sp ++ x) = ws ++ split x.
Proof.
  induction 1 as [|w ws Hw _ IH]; [reflexivity|]. cbn [join]. destruct ws; [rewrite split_cons by exact Hw; reflexivity|].
  rewrite <- !app_assoc. rewrite split_cons by exact Hw. cbn [app]. f_equal. exact IH.
Qed.

Lemma split_aux_trail t : forallb is_space t = true -> forall l cur, split_aux cur (l ++ t) = split_aux cur l.
Proof.
  intros H. induction l as [|c l IH]; intros cur.
  - cbn [app]. revert cur. induction t as [|c t IHt]; intros cur; [reflexivity|]. cbn in H. apply andb_prop in H as [H1 H2].
    cbn [split_aux]. rewrite H1. destruct cur; [apply (IHt H2 [])|]. f_equal. apply (IHt H2 []).
  - cbn [app split_aux]. destruct (is_space c); [|apply IH]. destruct cur; [apply IH|]. now rewrite IH.
Qed.
Lemma drop_spec p l : exists t, l = t ++ drop p l /\ forallb p t = true.
Proof.
  induction l as [|c l [t [E H]]]; [exists []; auto|]. cbn [drop]. destruct (p c) eqn:Ec.
  - exists (c :: t). cbn. rewrite Ec, <- E. auto.
  - exists []. auto.
Qed.
Lemma split_drop l : split (drop is_space l) = split l.
Proof. unfold split. induction l as [|c l IH]; [reflexivity|]. cbn [drop]. destruct (is_space c) eqn:E; [|reflexivity]. cbn [split_aux]. now rewrite E. Qed.
Lemma split_strip l : split (strip is_space l) = split l.
Proof.
  unfold strip. destruct (drop_spec is_space (rev (drop is_space l))) as [t [E H]].
  rewrite <- (split_drop l). rewrite <- (rev_involutive (drop is_space l)). rewrite E at 2. rewrite rev_app_distr.
  unfold split. rewrite split_aux_trail; [rewrite rev_involutive; reflexivity|].
  clear E. induction t as [|c t IH]; [reflexivity|]. cbn in *. apply andb_prop in H as [H1 H2].
  rewrite forallb_app, IH by exact H2. cbn. now rewrite H1.
Qed.
Lemma drop_last p x c : p c = false -> exists y, drop p (x ++ [c]) = y ++ [c].
Proof. intros H. induction x as [|d x [y E]]; cbn; [rewrite H; exists []; reflexivity|]. destruct (p d); [exists y; exact E|]. exists (d :: x). reflexivity. Qed.
Lemma strip_first p c l : p c = false -> exists t, strip p (c :: l) = c :: t.
Proof.
  intros H. unfold strip. cbn [drop]. rewrite H. cbn [rev]. destruct (drop_last p (rev l) c H) as [y E]. rewrite E, rev_app_distr.
  exists (rev y). reflexivity.
Qed.
Lemma strip_ends p l : (forall c, hd_error l = Some c -> p c = false) -> (forall c, hd_error (rev l) = Some c -> p c = false) -> strip p l = l.
Proof.
  intros A B. unfold strip. assert (drop p l = l) as -> by (destruct l as [|c l]; [reflexivity|]; cbn; rewrite (A c eq_refl); reflexivity).
  assert (drop p (rev l) = rev l) as -> by (destruct (rev l) as [|c r]; [reflexivity|]; cbn; rewrite (B c eq_refl); reflexivity).
  apply rev_involutive.
Qed.
Lemma strip_quoted_space s : strip is_space (quoted s) = quoted s.
Proof.
  apply strip_ends; unfold quoted; cbn [hd_error rev].
  - intros c E. injection E as <-. reflexivity.
  - rewrite rev_app_distr. cbn. intros c E. injection E as <-. reflexivity.
Qed.
(** Field names written between quotes are read back unless they begin or end with a quote. *)
Definition no_outer_quotes (s : pystr) : Prop :=
  (forall c, hd_error s = Some c -> is_quote c = false) /\ (forall c, hd_error (rev s) = Some c -> is_quote c = false).
Lemma strip_quoted s : no_outer_quotes s -> strip is_quote (quoted s) = s.
Proof.
  intros [A B]. unfold strip, quoted. cbn [drop]. replace (is_quote """") with true by reflexivity.
  destruct s as [|c s].
  - reflexivity.
  - cbn [app drop]. rewrite (A c eq_refl). change (c :: s ++ [""""%char]) with ((c :: s) ++ [""""%char]). rewrite rev_app_distr.
    cbn [rev app drop]. replace (is_quote """") with true by reflexivity. cbn [rev] in B.
    destruct (rev s ++ [c]) as [|d r] eqn:E; [destruct (rev s); discriminate|]. cbn [drop]. rewrite (B d eq_refl). rewrite <- E.
    rewrite rev_app_distr, rev_involutive. reflexivity.
Qed.

(** ** Integers *)
Definition digit_or_minus (c : ascii) : bool := let k := nat_of_ascii c in (Nat.leb 48 k && Nat.leb k 57) || Nat.eqb k 45.
Lemma uint_digits d c : In c (str (NilEmpty.string_of_uint d)) -> digit_or_minus c = true.
Proof. unfold str. induction d; cbn; intros H; [destruct H| ..]; destruct H as [<-|H]; auto. Qed.
Lemma uint_nonnil d : d <> Decimal.Nil -> str (NilEmpty.string_of_uint d) <> [].
Proof. destruct d; [congruence| ..]; discriminate. Qed.
Lemma nz_uint_digits d c : In c (str (NilZero.string_of_uint d)) -> digit_or_minus c = true.
Proof. destruct d; [cbn; intros [<-|[]]; reflexivity| ..]; apply uint_digits. Qed.
Lemma show_int_digits z c : In c (show_int z) -> digit_or_minus c = true.
Proof.
  unfold show_int. destruct (Z.to_int z) as [d|d]; cbn.
  - apply nz_uint_digits.
  - intros [<-|H]; [reflexivity|]. apply (nz_uint_digits d c H).
Qed.
Lemma digit_not_space c : digit_or_minus c = true -> is_space c = false /\ Ascii.eqb c "$" = false.
Proof.
  unfold digit_or_minus, is_space. intros H. split.
  - apply orb_prop in H. destruct H as [H|H].
    + apply andb_prop in H as [H1 H2]. apply Nat.leb_le in H1. apply Nat.leb_le in H2.
      repeat (apply orb_false_iff; split); try (apply andb_false_iff; right; apply Nat.leb_gt; lia); apply Nat.eqb_neq; lia.
    + apply Nat.eqb_eq in H. rewrite H. reflexivity.
  - destruct (Ascii.eqb_spec c "$"); [subst; discriminate|reflexivity].
Qed.
Lemma show_int_word z : word (show_int z).
Proof.
  split; [|intros c H; apply (digit_not_space c (show_int_digits z c H))].
  unfold show_int. destruct (Z.to_int z) as [d|d]; [destruct d; discriminate|discriminate].
Qed.
Lemma show_int_head z : exists c t, show_int z = c :: t /\ is_space c = false /\ Ascii.eqb c "$" = false.
Proof.
  destruct (show_int_word z) as [H _]. destruct (show_int z) as [|c t] eqn:E; [congruence|]. exists c, t. split; [reflexivity|].
  apply digit_not_space. apply (show_int_digits z). rewrite E. left; reflexivity.
Qed.
Lemma read_show_int z : read_int (show_int z) = Some z.
Proof.
  unfold read_int, show_int, str. rewrite string_of_list_ascii_of_string. rewrite NilZero.isi.
  - cbn. now rewrite DecimalZ.of_to.
  - destruct z; cbn; try discriminate. intros H. injection H. apply DecimalPos.Unsigned.to_uint_nonnil.
  - destruct z; cbn; try discriminate. intros H. injection H. apply DecimalPos.Unsigned.to_uint_nonnil.
Qed.
Lemma all_some_map {A B} (f : A -> option B) (g : B -> A) l : (forall x, f (g x) = Some x) -> all_some (map f (map g l)) = Some l.
Proof. intros H. induction l as [|x l IH]; [reflexivity|]. cbn. now rewrite H, IH. Qed.

(** ** Dictionaries *)
Lemma zget_zset {A} (d : list (Z * A)) k v k' : zget (zset d k v) k' = if (k' =? k)%Z then Some v else zget d k'.
Proof.
  induction d as [|[n w] d IH]; [reflexivity|]. cbn [zset]. destruct (Z.eqb_spec k n) as [->|Hn].
  - cbn. destruct (k' =? n)%Z; reflexivity.
  - cbn. rewrite IH. destruct (Z.eqb_spec k' n); [subst|reflexivity]. destruct (Z.eqb_spec n k); [congruence|reflexivity].
Qed.
Lemma pget_pset {A} (d : list (pystr * A)) k v k' : pget (pset d k v) k' = if pystr_eq_dec k' k then Some v else pget d k'.
Proof.
  induction d as [|[n w] d IH]; [reflexivity|]. cbn [pset]. destruct (pystr_eq_dec k n) as [->|Hn].
  - cbn. destruct (pystr_eq_dec k' n); reflexivity.
  - cbn. rewrite IH. destruct (pystr_eq_dec k' n); [subst|reflexivity]. destruct (pystr_eq_dec n k); [congruence|reflexivity].
Qed.
Definition zsets {A} (ps : list (Z * A)) (d : list (Z * A)) := fold_left (fun d p => zset d (fst p) (snd p)) ps d.
Definition psets {A} (ps : list (pystr * A)) (d : list (pystr * A)) := fold_left (fun d p => pset d (fst p) (snd p)) ps d.
Lemma zget_none {A} (d : list (Z * A)) k : ~ In k (map fst d) -> zget d k = None.
Proof. induction d as [|[n v] d IH]; intros H; [reflexivity|]. cbn in *. destruct (Z.eqb_spec k n); [exfalso; auto|]. apply IH. auto. Qed.
Lemma pget_none {A} (d : list (pystr * A)) k : ~ In k (map fst d) -> pget d k = None.
Proof. induction d as [|[n v] d IH]; intros H; [reflexivity|]. cbn in *. destruct (pystr_eq_dec k n); [exfalso; auto|]. apply IH. auto. Qed.
Lemma zget_zsets {A} (ps : list (Z * A)) : NoDup (map fst ps) -> forall d k,
  zget (zsets ps d) k = match zget ps k with Some v => Some v | None => zget d k end.
Proof.
  unfold zsets. induction ps as [|[n v] ps IH]; intros H d k; [reflexivity|]. inversion H; subst. cbn. rewrite IH by assumption.
  rewrite zget_zset. destruct (Z.eqb_spec k n); [|reflexivity]. subst. rewrite zget_none by assumption. reflexivity.
Qed.
Lemma pget_psets {A} (ps : list (pystr * A)) : NoDup (map fst ps) -> forall d k,
  pget (psets ps d) k = match pget ps k with Some v => Some v | None => pget d k end.
Proof.
  unfold psets. induction ps as [|[n v] ps IH]; intros H d k; [reflexivity|]. inversion H; subst. cbn. rewrite IH by assumption.
  rewrite pget_pset. destruct (pystr_eq_dec k n); [|reflexivity]. subst. rewrite pget_none by assumption. reflexivity.
Qed.
Lemma insert_perm {A} leb (x : A) l : Permutation (insert_by leb x l) (x :: l).
Proof. induction l as [|y l IH]; [reflexivity|]. cbn. destruct (leb x y); [reflexivity|]. rewrite IH. apply perm_swap. Qed.
Lemma sort_perm {A} leb (l : list A) : Permutation (sort_by leb l) l.
Proof. induction l as [|y l IH]; [reflexivity|]. cbn. rewrite insert_perm. now rewrite IH. Qed.
Lemma zget_perm {A} (a b : list (Z * A)) : Permutation a b -> NoDup (map fst a) -> forall k, zget a k = zget b k.
Proof.
  induction 1 as [|[n v] a b P IH|[n v] [n' v'] a|a b c P1 IH1 P2 IH2]; intros H k; [reflexivity| | |].
  - cbn. inversion H; subst. now rewrite IH.
  - cbn. cbn in H. inversion H as [|x y H1 H2]; subst. destruct (Z.eqb_spec k n'), (Z.eqb_spec k n); subst; try reflexivity.
    exfalso. apply H1. left. congruence.
  - rewrite IH1 by exact H. apply IH2. apply (Permutation_NoDup (Permutation_map fst P1) H).
Qed.
Lemma pget_perm {A} (a b : list (pystr * A)) : Permutation a b -> NoDup (map fst a) -> forall k, pget a k = pget b k.
Proof.
  induction 1 as [|[n v] a b P IH|[n v] [n' v'] a|a b c P1 IH1 P2 IH2]; intros H k; [reflexivity| | |].
  - cbn. inversion H; subst. now rewrite IH.
  - cbn. cbn in H. inversion H as [|x y H1 H2]; subst. destruct (pystr_eq_dec k n'), (pystr_eq_dec k n); subst; try reflexivity.
    exfalso. apply H1. left. congruence.
  - rewrite IH1 by exact H. apply IH2. apply (Permutation_NoDup (Permutation_map fst P1) H).
Qed.
Lemma pset_pset {A} (d : list (pystr * A)) k v w : pset (pset d k v) k w = pset d k w.
Proof.
  induction d as [|[n x] d IH]; cbn; [destruct (pystr_eq_dec k k); [reflexivity|congruence]|].
  destruct (pystr_eq_dec k n) as [->|Hn]; cbn; [destruct (pystr_eq_dec n n); [reflexivity|congruence]|].
  destruct (pystr_eq_dec k n); [congruence|]. now rewrite IH.
Qed.

(** ** Reading written lines *)
Section Reading.
Context {V : Type}.
Variable show : V -> pystr.
Variable rd : pystr -> option V.
Hypothesis show_word : forall x, word (show x).
Hypothesis rd_show : forall x, rd (show x) = Some x.
Variable t0 v0 : V.
Hypothesis rd_zero : rd (show_int 0) = Some t0.
Hypothesis rd_version : rd (str "2.2") = Some v0.
Implicit Types (s : @rstate V) (m : @mesh V).

Definition reads (ls : list pystr) s s' : Prop :=
  exists k, k <= length ls /\ forall fuel rest, read_loop rd (k + fuel) (ls ++ rest) s = read_loop rd fuel rest s'.
Lemma reads_nil s : reads [] s s.
Proof. exists 0. split; [lia|]. reflexivity. Qed.
Lemma reads_app a b s s' s'' : reads a s s' -> reads b s' s'' -> reads (a ++ b) s s''.
Proof.
  intros [k [K A]] [l [L B]]. exists (k + l). rewrite app_length. split; [lia|]. intros fuel rest.
  rewrite <- app_assoc, <- Nat.add_assoc, A. apply B.
Qed.
Lemma reads_step l s s' : strip is_space l <> [] -> (forall rest, step rd (strip is_space l) rest s = Ok (s', rest)) -> reads [l] s s'.
Proof.
  intros Hn H. exists 1. split; [cbn; lia|]. intros fuel rest. cbn [plus app read_loop readline]. rewrite H. cbn [bind].
  destruct (strip is_space l); [congruence|reflexivity].
Qed.
Lemma reads_data c l s s' : is_space c = false -> Ascii.eqb c "$" = false -> mode s <> 0 ->
  data_line rd (c :: l) s = Ok s' -> reads [c :: l] s s'.
Proof.
  intros Hs Hd Hm H. destruct (strip_first is_space c l Hs) as [t E]. apply reads_step; [rewrite E; discriminate|]. intros rest.
  assert (D : data_line rd (strip is_space (c :: l)) s = Ok s') by (unfold data_line in *; rewrite split_strip; exact H).
  revert D. rewrite E. intros D. unfold step, dollar. rewrite Hd. apply Nat.eqb_neq in Hm. rewrite Hm, D. reflexivity.
Qed.
Lemma reads_int_data z x s s' : mode s <> 0 -> data_line rd (show_int z ++ x) s = Ok s' -> reads [show_int z ++ x] s s'.
Proof. intros Hm H. destruct (show_int_head z) as [c [t [E [A B]]]]. rewrite E in *. cbn [app] in *. apply reads_data; auto. Qed.

Lemma reads_format s : reads format_lines s (mkR (msh s) 0 (Some 0%Z) (cur s)).
Proof.
  change format_lines with ([str "$MeshFormat"] ++ [str "2.2 0 8"] ++ [str "$EndMeshFormat"]).
  apply reads_app with (set_mode s 4).
  { apply reads_step; [discriminate|]. intros rest. reflexivity. }
  apply reads_app with (mkR (msh s) 4 (Some 0%Z) (cur s)).
  { apply reads_data; [reflexivity|reflexivity|cbn; lia|]. unfold data_line.
    change (split ("2"%char :: _)) with [str "2.2"; str "0"; str "8"]. cbn [set_mode mode Nat.eqb bind format_row]. rewrite rd_version. reflexivity. }
  apply reads_step; [discriminate|]. intros rest. reflexivity.
Qed.
Lemma reads_count {A} (l : list A) s : (mode s = 1 \/ mode s = 3 \/ mode s = 5) -> ftype s = Some 0%Z -> reads [count l] s s.
Proof.
  intros Hm Hf. unfold count. rewrite <- (app_nil_r (show_int _)). apply reads_int_data; [lia|]. rewrite app_nil_r. unfold data_line.
  rewrite split_one by apply show_int_word. destruct s as [ms mo ft cu]. cbn in Hf, Hm. subst ft. destruct Hm as [-> | [-> | ->]]; reflexivity.
Qed.
Lemma reads_map {A} (f : A -> pystr) (g : A -> rstate -> rstate) (P : rstate -> Prop) (Q : A -> Prop) l :
  (forall a s, Q a -> P s -> reads [f a] s (g a s) /\ P (g a s)) -> Forall Q l ->
  forall s, P s -> reads (map f l) s (fold_left (fun s a => g a s) l s) /\ P (fold_left (fun s a => g a s) l s).
Proof.
  intros H. induction 1 as [|a l Ha _ IH]; intros s Ps; [split; [apply reads_nil|exact Ps]|].
  destruct (H a s Ha Ps) as [H1 H2]. destruct (IH _ H2) as [H3 H4]. cbn [map fold_left]. split; [|exact H4].
  change (f a :: map f l) with ([f a] ++ map f l). eapply reads_app; eassumption.
Qed.

Definition put_physical (p : pystr * (Z * Z)) s := let m := msh s in
  mkR (mkMesh (nodes m) (elements m) (pset (physical m) (quoted (fst p)) (snd p)) (element_data m)) (mode s) (ftype s) (cur s).
Definition put_node (p : Z * list V) s := let m := msh s in
  mkR (mkMesh (zset (nodes m) (fst p) (snd p)) (elements m) (physical m) (element_data m)) (mode s) (ftype s) (cur s).
Definition put_element (p : Z * element) s := let m := msh s in
  mkR (mkMesh (nodes m) (zset (elements m) (fst p) (snd p)) (physical m) (element_data m)) (mode s) (ftype s) (cur s).
Definition at_mode k s := mode s = k /\ ftype s = Some 0%Z.

Lemma words_show l : Forall word (map show l).
Proof. apply Forall_forall. intros x Hx. apply in_map_iff in Hx as [y [<- _]]. apply show_word. Qed.
Lemma words_int l : Forall word (map show_int l).
Proof. apply Forall_forall. intros x Hx. apply in_map_iff in Hx as [y [<- _]]. apply show_int_word. Qed.
Lemma word_quoted n : (forall c, In c n -> is_space c = false) -> word (quoted n).
Proof.
  intros H. split; [discriminate|]. intros c [<-|Hc]; [reflexivity|]. apply in_app_or in Hc as [Hc|[<-|[]]]; [auto|reflexivity].
Qed.
Lemma reads_physical p s : (forall c, In c (fst p) -> is_space c = false) -> at_mode 5 s ->
  reads [physical_line p] s (put_physical p s) /\ at_mode 5 (put_physical p s).
Proof.
  destruct p as [name [id dim]]. cbn [fst]. intros Hn [M Fz]. split; [|split; assumption].
  apply reads_int_data; [lia|]. unfold data_line. rewrite split_cons by apply show_int_word. rewrite split_cons by apply show_int_word.
  rewrite split_one by (apply word_quoted; exact Hn). destruct s as [ms mo ft cu]; cbn [mode ftype] in M, Fz; subst mo ft. cbn [mode Nat.eqb bind physical_row].
  rewrite !read_show_int. reflexivity.
Qed.
Lemma reads_node p s : length (snd p) = 3 -> at_mode 1 s -> reads [node_line show p] s (put_node p s) /\ at_mode 1 (put_node p s).
Proof.
  intros H3 [M Fz]. split; [|split; assumption]. apply reads_int_data; [lia|]. unfold data_line.
  rewrite split_cons by apply show_int_word. rewrite split_join by apply words_show. destruct s as [ms mo ft cu]; cbn [mode ftype] in M, Fz; subst mo ft.
  cbn [mode Nat.eqb bind]. unfold node_row. cbn [ftype length Z.eqb]. rewrite map_length, H3. cbn [Nat.eqb andb].
  rewrite read_show_int. rewrite all_some_map by exact rd_show. reflexivity.
Qed.
Lemma clamp_of n k : k <= n -> clamp n (Z.of_nat k) = k.
Proof. intros H. unfold clamp. destruct (Z.ltb_spec (Z.of_nat k) 0); [lia|]. rewrite Nat2Z.id. lia. Qed.
Lemma reads_element p s : (let '(_, tags, nds) := snd p in 3 <= length tags + length nds) -> at_mode 3 s ->
  reads [element_line p] s (put_element p s) /\ at_mode 3 (put_element p s).
Proof.
  destruct p as [id [[ty tags] nds]]. cbn [snd]. intros H3 [M Fz]. split; [|split; assumption]. apply reads_int_data; [lia|]. unfold data_line.
  rewrite 3!split_cons by apply show_int_word. rewrite split_join_app by apply words_int. rewrite split_join by apply words_int.
  destruct s as [ms mo ft cu]; cbn [mode ftype] in M, Fz; subst mo ft. cbn [mode ftype Nat.eqb bind].
  set (ns := id :: ty :: Z.of_nat (length tags) :: tags ++ nds).
  assert (E : show_int id :: show_int ty :: show_int (Z.of_nat (length tags)) :: map show_int tags ++ map show_int nds = map show_int ns)
    by (unfold ns; cbn [map]; rewrite map_app; reflexivity).
  rewrite E. rewrite map_length. assert (L : length ns = 3 + length tags + length nds) by (unfold ns; cbn [length]; rewrite app_length; lia).
  assert (Nat.ltb 5 (length ns) = true) as -> by (apply Nat.ltb_lt; lia). cbn [Z.eqb andb Nat.ltb Nat.leb].
  unfold element_row. rewrite all_some_map by apply read_show_int. unfold ns at 1. cbn [mode Nat.eqb]. 
  change (nth_error ns 2) with (Some (Z.of_nat (length tags))). cbn iota. cbn [bind]. unfold put_element.
  replace (3 + Z.of_nat (length tags))%Z with (Z.of_nat (3 + length tags)) by lia. unfold slice, slice_from.
  change 3%Z with (Z.of_nat 3). rewrite !clamp_of by lia.
  replace (3 + length tags - 3) with (length tags) by lia. unfold ns. cbn [skipn plus fst snd].
  rewrite firstn_app, firstn_all, Nat.sub_diag, firstn_O, app_nil_r. rewrite skipn_app, skipn_all, Nat.sub_diag. reflexivity.
Qed.

(** ** Element data *)
Definition put_row name (p : Z * list V) s := let m := msh s in
  mkR (mkMesh (nodes m) (elements m) (physical m)
        (match pget (element_data m) name with
         | Some times => match zget times 0%Z with
                         | Some (time, d) => pset (element_data m) name (zset times 0%Z (time, zset d (fst p) (snd p)))
                         | None => element_data m end
         | None => element_data m end)) (mode s) (ftype s) (cur s).
Lemma reads_row name n p s : length (snd p) = n -> n <= 4 -> (at_mode 6 s /\ cur s = (name, 0%Z, Z.of_nat n)) ->
  reads [value_line show p] s (put_row name p s) /\ at_mode 6 (put_row name p s) /\ cur (put_row name p s) = (name, 0%Z, Z.of_nat n).
Proof.
  intros Hn H4 [[M Fz] C]. split; [|repeat split; assumption]. apply reads_int_data; [lia|]. unfold data_line.
  rewrite split_cons by apply show_int_word. rewrite split_join by apply words_show. destruct s as [ms mo ft cu]; cbn [mode ftype] in M, Fz; subst mo ft. cbn [cur] in C; subst cu.
  cbn [mode cur msh Nat.eqb bind data_row].
  rewrite read_show_int. cbn [need bind]. rewrite all_some_map by exact rd_show. cbn [need bind]. rewrite Hn, Z.eqb_refl. cbn [negb bind mode].
  cbn [Nat.eqb bind mode ftype]. cbn [Nat.eqb Z.eqb andb length]. rewrite map_length.
  assert (Nat.ltb 5 (S (length (snd p))) = false) as -> by (apply Nat.ltb_ge; lia). rewrite andb_false_r. reflexivity.
Qed.
Definition with_data s ed k c := let m := msh s in mkR (mkMesh (nodes m) (elements m) (physical m) ed) k (ftype s) c.
Lemma fold_rows name n rows : forall s ed t d, element_data (msh s) = pset ed name [(0%Z, (t, d))] -> mode s = 6 -> cur s = (name, 0%Z, n) ->
  fold_left (fun s p => put_row name p s) rows s = with_data s (pset ed name [(0%Z, (t, zsets rows d))]) 6 (name, 0%Z, n).
Proof.
  induction rows as [|p rows IH]; intros s ed t d E M C.
  - cbn [fold_left zsets]. destruct s as [m mo f c]. destruct m. cbn in *. unfold with_data. cbn. now rewrite E, M, C.
  - cbn [fold_left]. rewrite (IH _ ed t (zset d (fst p) (snd p))).
    + unfold with_data, put_row. cbn. reflexivity.
    + unfold put_row. cbn [msh element_data]. rewrite E, pget_pset. destruct (pystr_eq_dec name name); [|congruence]. cbn [zget Z.eqb zset].
      apply pset_pset.
    + exact M.
    + exact C.
Qed.
Lemma head_int_str z ls : head_int (show_int z :: ls) = Ok (z, ls).
Proof. unfold head_int. cbn [readline]. rewrite split_strip, split_one by apply show_int_word. rewrite read_show_int. reflexivity. Qed.
Lemma head_float_zero ls : head_float rd (show_int 0 :: ls) = Ok (t0, ls).
Proof. unfold head_float. cbn [readline]. rewrite split_strip, split_one by apply show_int_word. rewrite rd_zero. reflexivity. Qed.
Lemma read_head_written name (row : list V) (values : list (list V)) ls : no_outer_quotes name ->
  read_head rd (str "1" :: quoted name :: str "1" :: show_int 0 :: str "3" :: show_int 0 :: count row :: count values :: ls)
  = Ok (name, t0, 0%Z, Z.of_nat (length row), ls).
Proof.
  intros Q. unfold read_head. change (str "1") with (show_int 1). change (str "3") with (show_int 3). rewrite head_int_str. cbn [bind Z.eqb Pos.eqb negb readline].
  rewrite strip_quoted_space, strip_quoted by exact Q. rewrite head_int_str. cbn [bind Z.eqb Pos.eqb negb]. rewrite head_float_zero. cbn [bind].
  rewrite head_int_str. cbn [bind Z.eqb Pos.eqb negb]. rewrite head_int_str. cbn [bind]. unfold count. rewrite head_int_str. cbn [bind]. rewrite head_int_str. reflexivity.
Qed.
Lemma reads_field ids name values n ls s : no_outer_quotes name -> (n <= 4) -> Forall (fun r => length r = n) values ->
  write_element_data show ids name values = Ok ls -> ftype s = Some 0%Z -> pget (element_data (msh s)) name = None ->
  exists c, reads ls s (with_data s (pset (element_data (msh s)) name [(0%Z, (t0, zsets (combine ids values) []))]) 0 c).
Proof.
  intros Q N Fv W Fz Hnone. unfold write_element_data in W. destruct values as [|row values]; [discriminate|].
  apply (f_equal (fun r => match r with Ok x => x | Err _ => [] end)) in W. rewrite <- W. clear W ls.
  set (ed := element_data (msh s)) in *.
  set (vs := row :: values) in *. assert (Ln : length row = n) by (inversion Fv; assumption).
  exists (name, 0%Z, Z.of_nat n).
  set (s1 := with_data s (pset ed name [(0%Z, (t0, []))]) 6 (name, 0%Z, Z.of_nat n)).
  apply reads_app with s1.
  { exists 1. split; [cbn; lia|]. intros fuel rest. cbn [plus app]. cbn [read_loop readline].
    change (strip is_space (str "$ElementData")) with (str "$ElementData").
    change (step rd (str "$ElementData")) with (fun rest => section_line rd (str "$ElementData") rest). cbn beta.
    change (section_line rd (str "$ElementData") ?r s) with (section_line rd (str "$ElementData") r s).
    unfold section_line. 
    repeat match goal with |- context [pystr_eq_dec (str ?a) (str ?b)] => 
       first [ (assert (a = b) by reflexivity; destruct (pystr_eq_dec (str a) (str b)); [|congruence]) 
             | (destruct (pystr_eq_dec (str a) (str b)) as [X|_]; [vm_compute in X; discriminate X|]) ] end.
    cbn [orb]. rewrite read_head_written by exact Q. cbn [bind]. fold ed. rewrite Hnone. cbn [zget zset bind]. rewrite Ln. reflexivity. }
  set (P := fun s => at_mode 6 s /\ cur s = (name, 0%Z, Z.of_nat n)).
  assert (Frows : Forall (fun p => length (snd p) = n) (combine ids vs)).
  { apply Forall_forall. intros [i r] H. apply in_combine_r in H. cbn. rewrite Forall_forall in Fv. auto. }
  destruct (reads_map (value_line show) (put_row name) P (fun p => length (snd p) = n) (combine ids vs)) with (s := s1) as [R1 [R2 R3]].
  { intros a s' Ha Ps. apply (reads_row name n); auto. }
  { exact Frows. }
  { split; [split; [reflexivity|exact Fz]|reflexivity]. }
  eapply reads_app; [exact R1|]. rewrite (fold_rows name (Z.of_nat n) _ s1 ed t0 []) by reflexivity.
  apply reads_step; [discriminate|]. intros rest. reflexivity.
Qed.
Lemma reads_fields ids fields :
  Forall (fun f => no_outer_quotes (fst f) /\ exists n, n <= 4 /\ Forall (fun r => length r = n) (snd f)) fields -> NoDup (map fst fields) ->
  forall ls s, field_lines show ids fields = Ok ls -> ftype s = Some 0%Z -> (forall f, In f fields -> pget (element_data (msh s)) (fst f) = None) ->
  mode s = 0 -> exists c, reads ls s (with_data s (psets (map (fun f => (fst f, [(0%Z, (t0, zsets (combine ids (snd f)) []))])) fields) (element_data (msh s))) 0 c).
Proof.
  induction fields as [|[name values] fields IH]; intros H ND ls s W Fz Hnone M.
  - cbn in W. injection W as <-. exists (cur s). cbn. unfold with_data. destruct s as [[? ? ? ?] ? ? ?]. cbn in *. subst. apply reads_nil.
  - cbn [field_lines] in W. destruct (write_element_data show ids name values) as [a|] eqn:Wa; [|discriminate]. cbn [bind] in W.
    destruct (field_lines show ids fields) as [b|] eqn:Wb; [|discriminate]. cbn [bind] in W. injection W as <-.
    inversion H as [|x y [Q [n [N Fv]]] Hr]; subst. inversion ND as [|x y N1 N2]; subst. cbn in *.
    destruct (reads_field ids name values n a s Q N Fv Wa Fz (Hnone _ (or_introl eq_refl))) as [c R].
    set (s1 := with_data s _ 0 c) in R.
    destruct (IH Hr N2 b s1 eq_refl Fz) as [c' R'].
    + intros [nm vs] Hf. cbn. rewrite pget_pset. destruct (pystr_eq_dec nm name); [|apply (Hnone _ (or_intror Hf))].
      subst. exfalso. apply N1. change name with (fst (name, vs)). apply in_map. exact Hf.
    + reflexivity.
    + exists c'. eapply reads_app; [exact R|]. exact R'.
Qed.

Lemma read_reads m ls s' : Forall clean ls -> reads ls (mkR m 0 None ([], 0%Z, 0%Z)) s' -> mode s' = 0 -> read rd m (unlines ls) = Ok (msh s').
Proof.
  intros C [k [K R]] M. unfold read. rewrite split_unlines by exact C. rewrite app_length. cbn [length].
  replace (S (length ls + 1)) with (k + S (S (length ls - k))) by lia. rewrite R. cbn [read_loop readline]. change (strip is_space []) with (@nil ascii).
  unfold step. cbn [dollar]. rewrite M. reflexivity.
Qed.
End Reading.
