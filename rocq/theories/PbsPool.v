(** Batching, polling and the whole system. *)
From Verif Require Import Base BaseFacts PoolModel PoolProofs PbsModel PbsSpec PbsRead.

(** ** Batching *)
Section Batch.
Context {A : Type}.
Implicit Types f : fs A.

Lemma qsum_app a b : qsum (a ++ b) == qsum a + qsum b.
Proof. induction a as [|x a IH]; cbn; [ring|]. rewrite IH. ring. Qed.
Lemma Qle_bool_eq x y z : x == y -> Qle_bool x z = Qle_bool y z.
Proof.
  intros E. destruct (Qle_bool x z) eqn:H1, (Qle_bool y z) eqn:H2; auto.
  - apply Qle_bool_iff in H1. rewrite E in H1. apply Qle_bool_iff in H1. congruence.
  - apply Qle_bool_iff in H2. rewrite <- E in H2. apply Qle_bool_iff in H2. congruence.
Qed.

Definition bsim (p : pbs) f (b : batch) : Prop :=
  submitted f = b_jobs b /\ scheduled p = map fst (b_pend b) /\ weight p == qsum (map snd (b_pend b))
  /\ n_in_job p = length (b_pend b) /\ qsub_failed p = b_rej b /\ Forall (fun e => fst e < job_count p) (pbs_files f).

Lemma submitted_save f j ss : Forall (fun e => fst e < j) (pbs_files f) -> submitted (add_script (save_job f j ss) j) = submitted f.
Proof.
  intros F. unfold submitted; cbn. apply map_ext_in. intros e He. rewrite Forall_forall in F. specialize (F e He).
  rewrite dget_dset_neq by lia. reflexivity.
Qed.
Lemma execute_sim p f b q : bsim p f b ->
  let '(p', f', e) := execute p f q in let '(b', e') := b_submit b q in bsim p' f' b' /\ e = e'.
Proof.
  intros (S & P & W & N & R & F). unfold execute, b_submit. destruct (b_pend b) as [|x l] eqn:Eb; rewrite ?Eb in *.
  - cbn [map] in P. rewrite P. split; [|reflexivity]. unfold bsim. rewrite Eb. auto 10.
  - cbn [map] in P. rewrite P. rewrite N. cbn [length Nat.eqb]. destruct q as [id|].
    + split; [|reflexivity]. unfold bsim; cbn. ands; auto; try reflexivity.
      * unfold submitted in *; cbn. rewrite map_app; cbn. rewrite dget_dset_eq. cbn. f_equal. rewrite <- S.
        apply map_ext_in. intros e He. rewrite Forall_forall in F. specialize (F e He). now rewrite dget_dset_neq by lia.
      * apply Forall_app. split; [|constructor; [cbn; lia|constructor]]. eapply Forall_impl; [|exact F]. cbn. intros; lia.
    + split.
      * unfold bsim; cbn [scheduled weight n_in_job qsub_failed job_count b_jobs b_pend b_rej]. ands; auto.
        rewrite <- P. rewrite submitted_save; auto.
      * rewrite R. destruct (Nat.ltb_spec 10 (Datatypes.S (b_rej b))), (Nat.leb_spec (b_rej b) 9); auto; lia.
Qed.
Lemma step_sim p f b o : bsim p f b ->
  let '(p', f', e) := p_step p f o in let '(b', e') := b_step b o in bsim p' f' b' /\ e = e'.
Proof.
  intros H. destruct o as [s z q|q]; cbn [p_step b_step]; [|now apply execute_sim].
  unfold schedule_sample. set (b1 := mkB (b_jobs b) (b_pend b ++ [(s, z)]) (b_rej b)).
  set (p1 := mkP (scheduled p ++ [s]) _ _ _ _ _ _ _).
  assert (bsim p1 f b1) as H1.
  { destruct H as (S & P & W & N & R & F). unfold bsim, p1, b1; cbn. rewrite !map_app, app_length. ands; auto.
    - now rewrite P.
    - rewrite qsum_app, <- W. cbn. ring.
    - cbn. lia. }
  destruct H1 as (S & P & W & N & R & F). rewrite (Qle_bool_eq _ _ 1 W). rewrite N.
  destruct (Qle_bool (qsum (map snd (b_pend b1))) 1) eqn:E1; cbn [negb orb andb].
  - destruct (Nat.leb_spec (length (b_pend b1)) 1000), (Nat.ltb_spec 1000 (length (b_pend b1))); try lia.
    + split; [|reflexivity]. unfold bsim. auto 10.
    + apply execute_sim. unfold bsim. auto 10.
  - apply execute_sim. unfold bsim. auto 10.
Qed.
Lemma run_sim ops : forall p f b, bsim p f b ->
  let '(p', f', es) := p_run p f ops in let '(b', es') := b_run b ops in bsim p' f' b' /\ es = es'.
Proof.
  induction ops as [|o ops IH]; intros p f b H; cbn; [auto|].
  pose proof (step_sim p f b o H) as St. destruct (p_step p f o) as [[p1 f1] e]. destruct (b_step b o) as [b1 e1].
  destruct St as [H1 ->]. specialize (IH p1 f1 b1 H1). destruct (p_run p1 f1 ops) as [[p2 f2] es]. destruct (b_run b1 ops) as [b2 es'].
  destruct IH as [H2 ->]. auto.
Qed.
Lemma b_partition ops : forall b,
  concat (b_jobs (fst (b_run b ops))) ++ map fst (b_pend (fst (b_run b ops))) = concat (b_jobs b) ++ map fst (b_pend b) ++ added ops.
Proof.
  assert (forall b q, concat (b_jobs (fst (b_submit b q))) ++ map fst (b_pend (fst (b_submit b q))) = concat (b_jobs b) ++ map fst (b_pend b)) as Sub.
  { intros b q. unfold b_submit. destruct (b_pend b) eqn:E; cbn; [now rewrite E|]. destruct q; cbn; [|reflexivity].
    rewrite concat_app; cbn. now rewrite <- app_assoc, !app_nil_r. }
  induction ops as [|o ops IH]; intros b; cbn; [now rewrite app_nil_r|].
  destruct (b_step b o) as [b1 e] eqn:St. destruct (b_run b1 ops) as [b2 es] eqn:R. cbn.
  specialize (IH b1). rewrite R in IH. cbn in IH. rewrite IH. clear IH R.
  destruct o as [s z q|q]; cbn in St.
  - destruct (_ && _)%bool in St.
    + injection St as <- <-. cbn. rewrite map_app, <- !app_assoc. reflexivity.
    + apply (f_equal fst) in St. cbn in St. rewrite !app_assoc, <- St, Sub. cbn. rewrite map_app, <- !app_assoc. reflexivity.
  - apply (f_equal fst) in St. cbn in St. rewrite !app_assoc, <- St, Sub, app_nil_r. reflexivity.
Qed.
(** After a request that was not rejected nothing over the limits is pending. *)
Lemma b_limits ops : forall b,
  (b_rej b = 0%nat -> qsum (map snd (b_pend b)) <= 1 /\ (length (b_pend b) <= 1000)%nat)%Q ->
  let b' := fst (b_run b ops) in (b_rej b' = 0%nat -> qsum (map snd (b_pend b')) <= 1 /\ (length (b_pend b') <= 1000)%nat)%Q.
Proof.
  assert (forall b q, (b_rej b = 0%nat -> qsum (map snd (b_pend b)) <= 1 /\ (length (b_pend b) <= 1000)%nat)%Q ->
     let b' := fst (b_submit b q) in (b_rej b' = 0%nat -> qsum (map snd (b_pend b')) <= 1 /\ (length (b_pend b') <= 1000)%nat)%Q) as Sub0.
  { intros b q H. unfold b_submit. destruct (b_pend b) eqn:E; cbn; [rewrite E; exact H|].
    destruct q; cbn; [|discriminate]. intros _. split; [discriminate|lia]. }
  assert (forall b q, let b' := fst (b_submit b q) in b_pend b <> [] -> (b_rej b' = 0%nat -> qsum (map snd (b_pend b')) <= 1 /\ (length (b_pend b') <= 1000)%nat)%Q) as Sub.
  { intros b q. unfold b_submit. destruct (b_pend b) eqn:E; cbn; [congruence|]. intros _.
    destruct q; cbn; [|discriminate]. intros _. split; [discriminate|lia]. }
  induction ops as [|o ops IH]; intros b H; cbn; [exact H|].
  destruct (b_step b o) as [b1 e] eqn:St. destruct (b_run b1 ops) as [b2 es] eqn:R. cbn.
  specialize (IH b1). rewrite R in IH. cbn in IH. apply IH. clear IH R.
  destruct o as [s z q|q]; cbn in St.
  - destruct (_ && _)%bool eqn:E in St.
    + injection St as <- <-. cbn. intros _. apply andb_prop in E as [E1 E2]. apply Qle_bool_iff in E1. apply Nat.leb_le in E2. auto.
    + apply (f_equal fst) in St. cbn in St. subst b1. apply Sub. cbn. destruct (b_pend b); discriminate.
  - apply (f_equal fst) in St. cbn in St. subst b1. now apply Sub0.
Qed.
End Batch.

(** ** The status loop *)
Fixpoint scan (n : nat) (fin b : list nat) : list nat * list nat :=
  match n, b with
  | S n', x :: b' =>
      if existsb (Nat.eqb x) fin then
        match b' with [] => ([], []) | y :: b'' => let '(k, u) := scan n' fin b'' in (y :: k, u) end
      else let '(k, u) := scan n' fin b' in (x :: k, x :: u)
  | _, _ => ([], [])
  end.
Lemma remove_first_mid x a b : ~ In x a -> remove_first x (a ++ x :: b) = a ++ b.
Proof.
  induction a as [|y a IH]; cbn; intros H; [now rewrite Nat.eqb_refl|].
  destruct (Nat.eqb_spec x y); [exfalso; auto|]. f_equal. apply IH. auto.
Qed.
Lemma qloop_scan n : forall fin b fuel a unf, length b <= n -> length b <= fuel -> NoDup (a ++ b) ->
  qloop fuel (length a) (a ++ b) fin unf = (a ++ fst (scan n fin b), unf ++ snd (scan n fin b)).
Proof.
  induction n as [|n IH]; intros fin b fuel a unf L1 L2 N.
  - destruct b; [|cbn in L1; lia]. cbn. rewrite !app_nil_r.
    destruct fuel; [reflexivity|]. cbn. replace (nth_error a (length a)) with (@None nat); [reflexivity|].
    symmetry. apply nth_error_None. lia.
  - destruct b as [|x b].
    + cbn. rewrite !app_nil_r. destruct fuel; [reflexivity|]. cbn. replace (nth_error a (length a)) with (@None nat); [reflexivity|].
      symmetry. apply nth_error_None. lia.
    + destruct fuel as [|fuel]; [cbn in L2; lia|]. cbn [qloop scan].
      rewrite nth_error_app2, Nat.sub_diag by lia. cbn [nth_error].
      assert (~ In x a) as Nx. { apply NoDup_remove in N as [_ N]. rewrite in_app_iff in N. tauto. }
      destruct (existsb (Nat.eqb x) fin).
      * rewrite remove_first_mid by exact Nx. apply NoDup_remove in N as [N _].
        destruct b as [|y b].
        -- cbn [fst snd]. rewrite !app_nil_r. destruct fuel; [reflexivity|]. cbn [qloop].
           replace (nth_error a (S (length a))) with (@None nat); [reflexivity|]. symmetry. apply nth_error_None. lia.
        -- specialize (IH fin b fuel (a ++ [y]) unf). rewrite app_length in IH. cbn [length] in *.
           rewrite Nat.add_1_r in IH. rewrite <- app_assoc in IH. cbn [app] in IH.
           rewrite IH; [|lia|lia|exact N]. destruct (scan n fin b) as [k u]. cbn. now rewrite <- app_assoc.
      * specialize (IH fin b fuel (a ++ [x]) (unf ++ [x])). rewrite app_length in IH. cbn [length] in *.
        rewrite Nat.add_1_r in IH. rewrite <- !app_assoc in IH. cbn [app] in IH.
        rewrite IH; [|lia|lia|exact N]. destruct (scan n fin b) as [k u]. reflexivity.
Qed.
Lemma existsb_eqb x l : existsb (Nat.eqb x) l = true <-> In x l.
Proof.
  rewrite existsb_exists. split; [intros (y & H & E); apply Nat.eqb_eq in E; now subst|intros H; exists x; split; [auto|apply Nat.eqb_refl]].
Qed.
Lemma scan_ok n : forall fin b, length b <= n ->
  let k := fst (scan n fin b) in let u := snd (scan n fin b) in
  (forall x, In x k -> In x b) /\ (forall x, In x u -> In x b /\ ~ In x fin)
  /\ (forall x, In x b -> ~ In x fin -> In x k)
  /\ (forall x, In x b -> ~ In x fin -> In x u \/ exists y c d, b = c ++ y :: x :: d /\ In y fin)
  /\ (NoDup b -> NoDup k /\ NoDup u).
Proof.
  induction n as [|n IH]; intros fin b L.
  - destruct b; [|cbn in L; lia]. cbn. ands; try tauto; intros _; split; constructor.
  - destruct b as [|x b]; [cbn; ands; try tauto; intros _; split; constructor|]. cbn [scan].
    destruct (existsb (Nat.eqb x) fin) eqn:E.
    + apply existsb_eqb in E. destruct b as [|y b].
      * cbn. ands; try tauto; try (intros z [->|[]]; tauto). intros _; split; constructor.
      * specialize (IH fin b). cbn [length] in L. destruct IH as (H1 & H2 & H3 & H4 & H5); [lia|].
        destruct (scan n fin b) as [k u]. cbn in *. ands.
        -- intros z [->|Hz]; auto.
        -- intros z Hz. apply H2 in Hz. tauto.
        -- intros z [->|[->|Hz]] Nz; auto; tauto.
        -- intros z [->|[->|Hz]] Nz; [tauto|right; exists x, [], b; auto|]. destruct (H4 z Hz Nz) as [H|(y' & c & d & -> & Hy)]; auto.
           right. exists y', (x :: y :: c), d. auto.
        -- intros N. inversion N as [|? ? _ N1]; subst. inversion N1 as [|? ? Ny N2]; subst. destruct (H5 N2). split; auto.
           constructor; auto.
    + assert (~ In x fin) as Nx by (intros H; apply existsb_eqb in H; congruence).
      specialize (IH fin b). cbn [length] in L. destruct IH as (H1 & H2 & H3 & H4 & H5); [lia|].
      destruct (scan n fin b) as [k u]. cbn in *. ands.
      -- intros z [->|Hz]; auto.
      -- intros z [->|Hz]; [tauto|]. apply H2 in Hz. tauto.
      -- intros z [->|Hz] Nz; auto.
      -- intros z [->|Hz] Nz; auto. destruct (H4 z Hz Nz) as [H|(y' & c & d & -> & Hy)]; auto.
         right. exists y', (x :: c), d. auto.
      -- intros N. inversion N as [|? ? Ny N2]; subst. destruct (H5 N2). split; constructor; auto. intros H'. apply Ny. now apply H2.
Qed.
