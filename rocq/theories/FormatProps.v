(** The result format in the file: C22, C96. *)
From Verif Require Import Base BaseFacts FormatModel FormatSpec.

Section Proofs.
Context {V : Type}.
Variable veq : forall a b : V, {a = b} + {a <> b}.
Variable rd : pystr -> option V.
Notation qspec := (@qspec V).

Lemma drop_null_hd s : (forall c, hd_error s = Some c -> c <> zero) -> drop_null s = s.
Proof. destruct s as [|c s]; intros H; [reflexivity|]. cbn. unfold is_null. destruct (Ascii.eqb_spec c zero); [exfalso; apply (H c eq_refl); assumption|reflexivity]. Qed.
Lemma s50_plain s : plain_text s -> s50 s = Ok s.
Proof.
  intros [L [A Z]]. unfold s50. replace (forallb _ s) with true.
  - rewrite firstn_all2 by exact L. rewrite drop_null_hd by exact Z. now rewrite rev_involutive.
  - symmetry. apply forallb_forall. intros c H. apply Nat.ltb_lt. auto.
Qed.
Lemma int32_id z : (0 <= z < 2147483648)%Z -> int32 z = z.
Proof. intros H. unfold int32. rewrite Z.mod_small by lia. lia. Qed.
Lemma map_int32 l : (forall z, In z l -> (0 <= z < 2147483648)%Z) -> map int32 l = l.
Proof. intros H. induction l as [|z l IH]; [reflexivity|]. cbn [map]. rewrite int32_id by (apply H; left; reflexivity). rewrite IH; [reflexivity|]. intros y Hy. apply H. right; exact Hy. Qed.
Lemma broadcast_same {A} n (l : list A) : length l = n -> broadcast n l = Ok l.
Proof. intros <-. unfold broadcast. now rewrite Nat.eqb_refl. Qed.
Lemma as_names l : (forall x : loc, In x l -> exists s, x = LName s /\ plain_text s) -> exists ss, map_res (@as_name V) l = Ok ss /\ map LName ss = l.
Proof.
  induction l as [|x l IH]; intros H; [exists []; auto|]. destruct (H x (or_introl eq_refl)) as [s [-> P]].
  destruct IH as [ss [E1 E2]]; [intros y Hy; apply H; right; exact Hy|]. exists (s :: ss). cbn. rewrite s50_plain by exact P. rewrite E1. cbn. now rewrite E2.
Qed.
Lemma pack_plain nt nl (q : qspec) : plain_spec nt nl q -> exists r, pack rd (nt, TNames nl) q = Ok r /\ unpack r = Ok q.
Proof.
  intros [A [B [C [D [E [F G]]]]]]. destruct (as_names _ G) as [ss [H1 H2]].
  exists (mkRow (q_name q) (q_unit q) (q_shape q) (q_times q) (SNames ss)). split.
  - unfold pack. rewrite !s50_plain by assumption. cbn [bind fst snd]. rewrite !broadcast_same by assumption. cbn [bind pack_locs].
    rewrite H1. cbn [bind]. rewrite broadcast_same by (rewrite <- F, <- H2, map_length; reflexivity). cbn [bind]. rewrite map_int32 by exact D. reflexivity.
  - unfold unpack. cbn. rewrite H2. destruct q; reflexivity.
Qed.
Lemma pack_all nt nl (fmt : list qspec) : Forall (plain_spec nt nl) fmt -> exists rows, map_res (pack rd (nt, TNames nl)) fmt = Ok rows /\ map_res unpack rows = Ok fmt /\ length rows = length fmt.
Proof.
  induction 1 as [|q fmt H _ [rows [A [B C]]]]; [exists []; auto|]. destruct (pack_plain nt nl q H) as [r [E1 E2]]. exists (r :: rows).
  cbn. rewrite E1, E2, A, B. cbn. now rewrite C.
Qed.
Lemma first_type (fmt : list qspec) : plain_format fmt -> exists q rest nt nl, fmt = q :: rest /\ Forall (plain_spec nt nl) fmt
  /\ hdf_result_format (q_locs q) (q_times q) = Ok (nt, TNames nl).
Proof.
  intros [[nt [nl F]] [q [s [ls [rest [-> [El H3]]]]]]]. exists q, rest, nt, nl. split; [reflexivity|]. split; [exact F|].
  inversion F as [|x y [_ [_ [_ [_ [T [L _]]]]]] _]; subst. unfold hdf_result_format. rewrite El. apply Nat.eqb_neq in H3. rewrite H3. rewrite <- El. reflexivity.
Qed.
Lemma save_new (fmt : list qspec) f0 : plain_format fmt -> exists f rows nt nl, save_global_data veq rd false f0 fmt = Ok f /\ f = Some ((nt, TNames nl), rows)
  /\ map_res (pack rd (nt, TNames nl)) fmt = Ok rows /\ map_res unpack rows = Ok fmt /\ length rows = length fmt /\ Forall (plain_spec nt nl) fmt.
Proof.
  intros P. destruct (first_type fmt P) as [q [rest [nt [nl [E [F T]]]]]]. destruct (pack_all nt nl fmt F) as [rows [A [B C]]].
  exists (Some ((nt, TNames nl), rows)), rows, nt, nl. split; [|auto]. unfold save_global_data. rewrite E at 1. rewrite T. cbn [bind].
  unfold save_result_format. cbn [load_result_format]. unfold h5_save. rewrite A. cbn [bind]. destruct (dtype_eq_dec _ _) as [_|N]; [|congruence].
  rewrite repeat_length, C, Nat.eqb_refl. reflexivity.
Qed.
Lemma spec_eqb_agree (a b : qspec) : spec_eqb veq a b = true <-> agree a b.
Proof.
  unfold spec_eqb, agree. rewrite !andb_true_iff, forallb_forall.
  destruct (pystr_eq_dec (q_name a) (q_name b)), (pystr_eq_dec (q_unit a) (q_unit b)), (list_eq_dec Z.eq_dec (q_shape a) (q_shape b)), (list_eq_dec veq (q_times a) (q_times b));
  try (split; [intros [[[[X1 X2] X3] X4] _]; congruence|intros [X1 [X2 [X3 [X4 _]]]]; congruence]).
  split.
  - intros [_ H]. repeat split; auto. intros l Hl. apply H in Hl. destruct (in_dec _ l (q_locs b)); [assumption|discriminate].
  - intros [_ [_ [_ [_ H]]]]. repeat split; auto. intros l Hl. destruct (in_dec _ l (q_locs b)); [reflexivity|]. exfalso. auto.
Qed.
Lemma specs_eqb_agree : forall a b : list qspec, specs_eqb veq a b = true <-> Forall2 agree a b.
Proof.
  induction a as [|x a IH]; intros [|y b]; cbn; split; intros H; try discriminate; try (inversion H; fail); auto.
  - apply andb_prop in H as [H1 H2]. constructor; [apply spec_eqb_agree; exact H1|apply IH; exact H2].
  - inversion H; subst. apply andb_true_intro. split; [apply spec_eqb_agree; assumption|apply IH; assumption].
Qed.
Lemma agree_refl (q : qspec) : agree q q.
Proof. repeat split; auto. apply incl_refl. Qed.
Lemma specs_eqb_refl (fmt : list qspec) : specs_eqb veq fmt fmt = true.
Proof. apply specs_eqb_agree. induction fmt; constructor; auto. apply agree_refl. Qed.
End Proofs.

(** C96: a plain format is read back from a new file as it was. *)
Theorem C96_roundtrip {V} veq rd (f0 : @dataset V) fmt : plain_format fmt ->
  exists f, save_global_data veq rd false f0 fmt = Ok f /\ load_result_format f = Ok fmt.
Proof.
  intros P. destruct (save_new veq rd fmt f0 P) as [f [rows [nt [nl [A [-> [_ [B _]]]]]]]]. exists (Some ((nt, TNames nl), rows)). split; [exact A|]. exact B.
Qed.
Print Assumptions C96_roundtrip.
(** C96: a storage with it can be opened again with the same format, which leaves the file as it is; and if opening with any format does not
    raise, that agrees with the stored one in the number of entries, names, units, shapes and times and has all stored locations. *)
Theorem C96_reopen {V} veq rd (f0 : @dataset V) fmt f : plain_format fmt -> save_global_data veq rd false f0 fmt = Ok f ->
  save_global_data veq rd true f fmt = Ok f
  /\ (forall fmt' f', save_global_data veq rd true f fmt' = Ok f' -> Forall2 agree fmt fmt')
  /\ (forall fmt', ~ Forall2 agree fmt fmt' -> exists e, save_global_data veq rd true f fmt' = Err e /\ (e = ValueError \/ e = IndexError)).
Proof.
  intros P S. destruct (save_new veq rd fmt f0 P) as [f1 [rows [nt [nl [A [E [B [C [L F]]]]]]]]]. rewrite A in S. injection S as ->. subst f.
  assert (Ld : load_result_format (Some (nt, TNames nl, rows)) = Ok fmt) by exact C.
  split; [|split].
  - destruct (first_type fmt P) as [q [rest [nt' [nl' [E [F' T]]]]]]. unfold save_global_data. rewrite E at 1. rewrite T. cbn [bind].
    assert ((nt', TNames nl') = (nt, TNames nl)) as ->.
    { subst fmt. inversion F as [|x y [_ [_ [_ [_ [T1 [L1 _]]]]]] _]; subst. inversion F' as [|x y [_ [_ [_ [_ [T2 [L2 _]]]]]] _]; subst. congruence. }
    unfold save_result_format. rewrite Ld, specs_eqb_refl. unfold h5_save. rewrite B. cbn [bind]. destruct (dtype_eq_dec _ _) as [_|N]; [|congruence].
    rewrite Nat.eqb_refl. reflexivity.
  - intros fmt' f' H. unfold save_global_data in H. destruct fmt' as [|q fmt']; [discriminate|]. destruct (hdf_result_format _ _) as [t|]; [|discriminate]. cbn [bind] in H.
    unfold save_result_format in H. rewrite Ld in H. destruct (specs_eqb veq fmt (q :: fmt')) eqn:Q; [|discriminate]. apply specs_eqb_agree in Q. exact Q.
  - intros fmt' H. unfold save_global_data. destruct fmt' as [|q fmt']; [exists IndexError; auto|].
    unfold hdf_result_format. destruct (q_locs q) eqn:Q; [exists IndexError; auto|]. cbn [bind]. unfold save_result_format. rewrite Ld.
    destruct (specs_eqb veq fmt (q :: fmt')) eqn:Q'; [|exists ValueError; auto]. exfalso. apply H. apply (specs_eqb_agree veq). exact Q'.
Qed.
Print Assumptions C96_reopen.

(** C22 in full: every declared format is read back, and opening with another one raises. *)
Definition C22_statement (V : Type) veq rd : Prop := forall (f0 : @dataset V) fmt, fmt <> [] -> Forall declared fmt ->
  (exists f, save_global_data veq rd false f0 fmt = Ok f /\ load_result_format f = Ok fmt)
  /\ (forall f fmt' f', save_global_data veq rd false f0 fmt = Ok f -> save_global_data veq rd true f fmt' = Ok f' -> fmt' = fmt).
(** Part: plain formats with distinct locations; the order of locations may differ. Missing: three-character names, points, long names, entries
    of different lengths, for which it is false. *)
Theorem C22_partial {V} veq rd (f0 : @dataset V) fmt : plain_format fmt -> Forall (fun q => NoDup (q_locs q)) fmt ->
  (exists f, save_global_data veq rd false f0 fmt = Ok f /\ load_result_format f = Ok fmt)
  /\ (forall f fmt' f', plain_format fmt' -> save_global_data veq rd false f0 fmt = Ok f -> save_global_data veq rd true f fmt' = Ok f' ->
      Forall2 (fun q q' => q_name q = q_name q' /\ q_unit q = q_unit q' /\ q_shape q = q_shape q' /\ q_times q = q_times q' /\ Permutation (q_locs q) (q_locs q')) fmt fmt').
Proof.
  intros P ND. split; [apply C96_roundtrip; exact P|]. intros f fmt' f' P' S S'.
  destruct (C96_reopen veq rd f0 fmt f P S) as [_ [Ag _]]. pose proof (Ag fmt' f' S') as A2.
  destruct (save_new veq rd fmt f0 P) as [f1 [rows [nt [nl [A [E [B [C [L F]]]]]]]]]. rewrite A in S. injection S as ->. subst f.
  destruct (first_type fmt' P') as [q [rest [nt' [nl' [E [F' T]]]]]].
  assert (nl' = nl) as ->.
  { unfold save_global_data in S'. rewrite E in S' at 1. rewrite T in S'. cbn [bind] in S'. unfold save_result_format in S'.
    assert (Ld : load_result_format (Some (nt, TNames nl, rows)) = Ok fmt) by exact C. rewrite Ld in S'. destruct (specs_eqb _ _ _); [|discriminate].
    unfold h5_save in S'. destruct (map_res (pack rd _) fmt'); cbn [bind] in S'; [|discriminate]. destruct (dtype_eq_dec _ _) as [D|]; [|discriminate]. congruence. }
  clear - A2 ND F F'. revert ND F F'. induction A2 as [|a b l l' Hab H IH]; intros ND F F'; [constructor|].
  inversion ND; subst. inversion F as [|x y [_ [_ [_ [_ [_ [La _]]]]]] Fa]; subst. inversion F' as [|x y [_ [_ [_ [_ [_ [Lb _]]]]]] Fb]; subst.
  constructor; [|apply IH; assumption]. destruct Hab as [H1 [H4 [H5 [H6 H7]]]]. repeat split; auto. apply NoDup_Permutation_bis; auto. lia.
Qed.
Print Assumptions C22_partial.

Definition qs (name : string) (times : list Z) (locs : list (@loc Z)) : @qspec Z := mkSpec (str name) (str "m") [2%Z; 1%Z] times locs.
Definition nm (s : string) : @loc Z := LName (str s).
(** Witnesses: a name of three characters cannot be saved; a format with points can be saved and not be loaded, and one with other points is
    accepted; names in another order are accepted; times of entries after the first are repeated. *)
Theorem C22_refuted : let sv := save_global_data Z.eq_dec (fun _ => None) in
  sv false None [qs "q" [1%Z] [nm "top"]] = Err ValueError
  /\ (exists f, sv false None [qs "q" [1%Z] [LPoint 0%Z 0%Z 0%Z]] = Ok f /\ load_result_format f = Err AttributeError
      /\ exists f', sv true f [qs "p" [1%Z] [LPoint 5%Z 0%Z 0%Z]] = Ok f')
  /\ (exists f f', sv false None [qs "q" [1%Z] [nm "left"; nm "right"]] = Ok f
      /\ sv true f [qs "q" [1%Z] [nm "right"; nm "left"]] = Ok f' /\ load_result_format f' <> load_result_format f)
  /\ (exists f, sv false None [qs "q" [1%Z; 2%Z] [nm "left"]; qs "p" [3%Z] [nm "left"]] = Ok f
      /\ load_result_format f = Ok [qs "q" [1%Z; 2%Z] [nm "left"]; qs "p" [3%Z; 3%Z] [nm "left"]])
  /\ ~ C22_statement Z Z.eq_dec (fun _ => None).
Proof.
  cbv zeta. split; [reflexivity|]. split; [|split; [|split]].
  - eexists. split; [vm_compute; reflexivity|]. split; [reflexivity|]. eexists. vm_compute. reflexivity.
  - eexists. eexists. split; [vm_compute; reflexivity|]. split; [vm_compute; reflexivity|]. vm_compute. discriminate.
  - eexists. split; vm_compute; reflexivity.
  - intros H. destruct (H None [qs "q" [1%Z] [nm "top"]]) as [[f [A _]] _]; [discriminate| |vm_compute in A; discriminate].
    constructor; [|constructor]. split; [reflexivity|]. split; [discriminate|]. left. intros l [<-|[]]. exists (str "top"). reflexivity.
Qed.
Print Assumptions C22_refuted.

(** The format of the synthetic simulation, two quantities with two locations. *)
Definition ex_format : list (@qspec Z) := [qs "length" [1%Z; 2%Z; 3%Z] [nm "10"; nm "20"]; qs "width" [1%Z; 2%Z; 3%Z] [nm "30"; nm "40"]].
Ltac ptext := split; [cbn; lia|]; split; [intros ? Hc; cbn in Hc; repeat (destruct Hc as [<-|Hc]; [vm_compute; lia|]); destruct Hc|intros ? Hc; vm_compute in Hc; injection Hc as <-; discriminate].
Example C96_example : plain_format ex_format /\ Forall (fun q => NoDup (q_locs q)) ex_format
  /\ bind (save_global_data Z.eq_dec (fun _ => None) false None ex_format) (fun f => save_global_data Z.eq_dec (fun _ => None) true f (rev ex_format)) = Err ValueError.
Proof.
  split; [split|split].
  - exists 3, 2. repeat apply Forall_cons; try apply Forall_nil; (split; [ptext|]; split; [ptext|]; split; [reflexivity|]; split; [intros z Hz; cbn in Hz; intuition lia|];
      split; [reflexivity|]; split; [reflexivity|]; intros l Hl; cbn in Hl; destruct Hl as [<-|[<-|[]]]; eexists; (split; [reflexivity|ptext])).
  - eexists. eexists. eexists. eexists. split; [reflexivity|]. split; [reflexivity|]. discriminate.
  - repeat constructor; cbn; intuition discriminate.
  - vm_compute. reflexivity.
Qed.
