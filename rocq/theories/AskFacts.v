From Verif Require Import Base BaseFacts PoolModel HdfModel SamplerModel AskSpec.
From Coq Require Import Lqa.

Section Facts.
Context {P St A : Type}.
Context (getf : P -> P * (A * Z)) (store : A -> St -> St * res unit).
Notation poll := (poll_with getf store).
Notation batches := (batches getf).
Notation polled_pool := (polled_pool getf).

(** Keeps waiting after the answer number i with n running samples. *)
Definition goes_on (elapsed : nat -> Q) (t : Q) (i : nat) (n : Z) : Prop :=
  (0 < n)%Z /\ ((t <= 0)%Q \/ (elapsed i <= t)%Q).

Lemma ask_loop_spec elapsed t : forall fuel i p st w r,
  ask_loop poll elapsed t fuel i (p, st) = (w, r) ->
  exists k, fst w = polled_pool k p /\ snd w = store_all store (map fst (batches k p)) st
  /\ (forall j a n, S j < k -> nth_error (batches k p) j = Some (a, n) -> goes_on elapsed t (i + j) n)
  /\ match r with
     | Some (Ok n) => 0 < k <= fuel /\ accepted store (map fst (batches k p)) st
         /\ (exists a, nth_error (batches k p) (k - 1) = Some (a, n))
         /\ ((n <= 0)%Z \/ ((0 < t)%Q /\ (t < elapsed (i + (k - 1))%nat)%Q))
     | Some (Err e) => 0 < k <= fuel /\ ~ accepted store (map fst (batches k p)) st
     | None => k = fuel /\ accepted store (map fst (batches k p)) st
         /\ (forall j a n, j < k -> nth_error (batches k p) j = Some (a, n) -> goes_on elapsed t (i + j) n)
     end.
Proof.
  induction fuel as [|fuel IH]; intros i p st w r H.
  - cbn in H. injection H as <- <-. exists 0. cbn. ands; auto; intros; lia.
  - cbn [ask_loop] in H. unfold poll_with in H. cbn [fst snd] in H.
    destruct (getf p) as [p1 [a n]] eqn:Eg. destruct (store a st) as [st1 [[]|e]] eqn:Es.
    + assert (Hone : forall q, batches 1 q = [snd (getf q)]) by reflexivity.
      destruct (negb (Qle_bool t 0) && negb (Qle_bool (elapsed i) t))%bool eqn:Et.
      * injection H as <- <-. exists 1. cbn [polled_pool AskSpec.polled_pool batches AskSpec.batches]. rewrite Eg.
        cbn [fst snd map store_all fold_left accepted nth_error Nat.sub]. unfold store_all. cbn [fold_left].
        rewrite Es. cbn [fst snd]. ands; auto; try lia.
        -- eauto.
        -- right. apply andb_prop in Et as [E1 E2]. rewrite Nat.add_0_r. rewrite !negb_true_iff in E1, E2.
           split; apply Qnot_le_lt; intros K; apply Qle_bool_iff in K; congruence.
      * assert (Hgo : (0 < n)%Z -> goes_on elapsed t i n).
        { intros Hn. split; auto. apply andb_false_iff in Et as [E1|E1]; rewrite negb_false_iff in E1;
            apply Qle_bool_iff in E1; auto. }
        destruct (0 <? n)%Z eqn:En.
        -- apply Z.ltb_lt in En. destruct (IH _ _ _ _ _ H) as (k & H1 & H2 & H3 & H4).
           assert (Hsh : forall j, i + S j = S i + j) by lia.
           exists (S k). cbn [AskSpec.polled_pool AskSpec.batches]. rewrite Eg. cbn [fst snd map].
           unfold store_all in *. cbn [fold_left]. rewrite Es. cbn [fst].
           ands; auto.
           ++ intros [|j] a' n' Hj Hb; cbn [nth_error] in Hb.
              ** injection Hb as <- <-. rewrite Nat.add_0_r. auto.
              ** rewrite Hsh. eapply H3; eauto. lia.
           ++ destruct r as [[n'|e']|].
              ** destruct H4 as (A1 & A2 & (a' & A3) & A4). ands; try lia.
                 --- cbn [accepted]. rewrite Es. auto.
                 --- exists a'. replace (S k - 1) with (S (k - 1)) by lia. exact A3.
                 --- replace (S k - 1) with (S (k - 1)) by lia. rewrite Hsh. exact A4.
              ** destruct H4 as (A1 & A2). split; [lia|]. cbn [accepted]. rewrite Es. cbn [fst snd]. intros [_ K]. auto.
              ** destruct H4 as (-> & A2 & A3). ands; auto.
                 --- cbn [accepted]. rewrite Es. auto.
                 --- intros [|j] a' n' Hj Hb; cbn [nth_error] in Hb.
                     +++ injection Hb as <- <-. rewrite Nat.add_0_r. auto.
                     +++ rewrite Hsh. eapply A3; eauto. lia.
        -- apply Z.ltb_ge in En. injection H as <- <-. exists 1. cbn [AskSpec.polled_pool AskSpec.batches]. rewrite Eg.
           unfold store_all. cbn [fst snd map fold_left accepted nth_error Nat.sub]. rewrite Es. cbn [fst snd].
           ands; auto; try lia; eauto.
    + injection H as <- <-. exists 1. cbn [AskSpec.polled_pool AskSpec.batches]. rewrite Eg.
      unfold store_all. cbn [fst snd map fold_left accepted]. rewrite Es. cbn [fst snd].
      ands; auto; try lia; try (intros [K _]; discriminate).
Qed.

Lemma ask_nonpositive elapsed t fuel w : (t <= 0)%Q -> ask poll elapsed (Some t) fuel w = (w, Some (Ok 1%Z)).
Proof. intros H. unfold ask. apply Qle_bool_iff in H. now rewrite H. Qed.

Lemma ask_no_timeout elapsed fuel p st w r : ask poll elapsed None fuel (p, st) = (w, r) ->
  exists k, fst w = polled_pool k p /\ snd w = store_all store (map fst (batches k p)) st
  /\ match r with
     | Some (Ok n) => (n <= 0)%Z /\ (exists a, nth_error (batches k p) (k - 1) = Some (a, n)) /\ k = length (batches k p)
         /\ (forall j a m, S j < k -> nth_error (batches k p) j = Some (a, m) -> (0 < m)%Z)
         /\ accepted store (map fst (batches k p)) st
     | Some (Err e) => 0 < k /\ ~ accepted store (map fst (batches k p)) st
     | None => k = fuel /\ (forall j a m, nth_error (batches k p) j = Some (a, m) -> (0 < m)%Z)
     end.
Proof.
  intros H. unfold ask in H. apply ask_loop_spec in H as (k & H1 & H2 & H3 & H4). exists k. ands; auto.
  assert (Hl : forall k q, length (batches k q) = k).
  { clear. induction k; intros q; cbn [AskSpec.batches length]; auto. }
  destruct r as [[n|e]|].
  - destruct H4 as (A1 & A2 & A3 & A4). ands; auto.
    + destruct A4 as [A4|[A4 _]]; auto. exfalso. lra.
    + intros j a m Hj Hb. apply (H3 j a m Hj Hb).
  - tauto.
  - destruct H4 as (-> & _ & H4). split; auto. intros j a m Hb.
    assert (Hj : j < fuel). { rewrite <- (Hl fuel p). apply nth_error_Some. congruence. }
    apply (H4 j a m Hj Hb).
Qed.

Lemma ask_timeout elapsed t fuel p st w r : (0 < t)%Q -> ask poll elapsed (Some t) fuel (p, st) = (w, r) ->
  exists k, fst w = polled_pool k p /\ snd w = store_all store (map fst (batches k p)) st
  /\ match r with
     | Some (Ok n) => 0 < k /\ (exists a, nth_error (batches k p) (k - 1) = Some (a, n))
         /\ ((n <= 0)%Z \/ (t < elapsed (k - 1)%nat)%Q)
         /\ (forall j a m, S j < k -> nth_error (batches k p) j = Some (a, m) -> (0 < m)%Z /\ (elapsed j <= t)%Q)
         /\ accepted store (map fst (batches k p)) st
     | Some (Err e) => 0 < k /\ ~ accepted store (map fst (batches k p)) st
     | None => k = fuel
     end.
Proof.
  intros Ht H. unfold ask in H. destruct (Qle_bool t 0) eqn:E0; [apply Qle_bool_iff in E0; lra|].
  apply ask_loop_spec in H as (k & H1 & H2 & H3 & H4). exists k. ands; auto.
  destruct r as [[n|e]|].
  - destruct H4 as (A1 & A2 & A3 & A4). ands; auto; [lia|tauto|].
    intros j a m Hj Hb. destruct (H3 j a m Hj Hb) as [B1 [B2|B2]]; [lra|auto].
  - tauto.
  - tauto.
Qed.

(** The loop ends as soon as one answer reports no running sample. *)
Lemma ask_ends elapsed timeout p st k fuel a n : nth_error (batches (S k) p) k = Some (a, n) -> (n <= 0)%Z ->
  k < fuel -> snd (ask poll elapsed timeout fuel (p, st)) <> None.
Proof.
  intros Hb Hn Hf.
  assert (Hb' : forall m, k < m -> nth_error (batches m p) k = Some (a, n)).
  { clear - Hb. revert p Hb. induction k as [|k IH]; intros p Hb m Hm; destruct m as [|m]; try lia.
    - exact Hb.
    - cbn [AskSpec.batches nth_error] in *. apply IH; auto. lia. }
  assert (HL : forall t i st, snd (ask_loop poll elapsed t fuel i (p, st)) <> None).
  { intros t i st0 K. destruct (ask_loop poll elapsed t fuel i (p, st0)) as [w r] eqn:E. cbn in K. subst r.
    apply ask_loop_spec in E as (k' & _ & _ & _ & -> & _ & H4). destruct (H4 k a n Hf (Hb' _ Hf)) as [H _]. lia. }
  unfold ask. destruct timeout as [t|]; [destruct (Qle_bool t 0); [discriminate|]|]; apply HL.
Qed.

End Facts.

(** The sampler's own loop is this loop with its pool and its file. *)
Definition sampler_store {E} (s : sampler E) (a : dict (list (pystr * (arr (value E) * arr (value E)))) * dict (list (pystr * pystr)) * dict (Q * nat))
    (f : hfile (arr (value E) * arr (value E))) : hfile (arr (value E) * arr (value E)) * res unit :=
  match save_samples (s_obj s) (fst (fst a)) (snd (fst a)) f with
  | (f1, Err e) => (f1, Err e)
  | (f1, Ok _) => save_n_ops (s_obj s) (snd a) f1
  end.
Definition sampler_getf {E} (p : pool E) :
    pool E * (dict (list (pystr * (arr (value E) * arr (value E)))) * dict (list (pystr * pystr)) * dict (Q * nat) * Z) :=
  let (p', fin) := get_finished p in (p', ((fin_ok fin, fin_failed fin, fin_times fin), fin_running fin)).

Lemma poll_store_is {E} (s : sampler E) (w : pool E * hfile (arr (value E) * arr (value E))) :
  let s0 := set_pool E (set_file E s (snd w)) (fst w) in
  let (w', r) := poll_with sampler_getf (sampler_store s) w in
  poll_store E s0 = (set_pool E (set_file E s (snd w')) (fst w'), r).
Proof.
  destruct w as [p f]. unfold poll_store, poll_with, sampler_getf, sampler_store. cbn [fst snd s_pool s_obj s_file set_pool set_file].
  destruct (get_finished p) as [p' fin]. cbn [fst snd].
  destruct (save_samples (s_obj s) (fin_ok fin) (fin_failed fin) f) as [f1 [u|e]]; [|reflexivity].
  destruct (save_n_ops (s_obj s) (fin_times fin) f1) as [f2 [u'|e]]; reflexivity.
Qed.

Lemma ask_pool_is {E} (s : sampler E) clk t fuel :
  let (w', r) := ask (poll_with sampler_getf (sampler_store s)) clk t fuel (s_pool s, s_file s) in
  ask_pool E clk t fuel s = (set_pool E (set_file E s (snd w')) (fst w'), r).
Proof.
  assert (HL : forall tt' fuel i w, let (w', r) := ask_loop (poll_with sampler_getf (sampler_store s)) clk tt' fuel i w in
    ask_loop (poll_store E) clk tt' fuel i (set_pool E (set_file E s (snd w)) (fst w))
    = (set_pool E (set_file E s (snd w')) (fst w'), r)).
  { intros t' f. induction f as [|f IH]; intros i w; cbn [ask_loop]; auto.
    pose proof (poll_store_is s w) as Hp. cbv zeta in Hp.
    destruct (poll_with sampler_getf (sampler_store s) w) as [w1 [n|e]]; rewrite Hp; auto.
    destruct (_ && _)%bool; auto. destruct (0 <? n)%Z; auto. apply IH. }
  unfold ask_pool, ask. assert (Hs : s = set_pool E (set_file E s (s_file s)) (s_pool s)) by now destruct s.
  destruct t as [q|].
  - destruct (Qle_bool q 0); [exact (f_equal (fun x => (x, Some (Ok 1%Z))) Hs)|].
    specialize (HL q fuel 0 (s_pool s, s_file s)). cbn [fst snd] in HL. rewrite <- Hs in HL. exact HL.
  - specialize (HL 0%Q fuel 0 (s_pool s, s_file s)). cbn [fst snd] in HL. rewrite <- Hs in HL. exact HL.
Qed.
