From Verif Require Import Base BaseFacts TagModel TagSpec.

Definition val (l : list N) : N := fold_left (fun acc d => 10 * acc + d)%N l 0%N.

Lemma val_app_aux l a : (fold_left (fun acc d => 10 * acc + d) l a = a * 10 ^ N.of_nat (length l) + val l)%N.
Proof.
  unfold val. revert a. induction l as [|d l IH]; intros a.
  - cbn [fold_left length]. rewrite N.pow_0_r. lia.
  - cbn [fold_left length]. rewrite IH, (IH (10 * 0 + d)%N), Nat2N.inj_succ, N.pow_succ_r'. nia.
Qed.

Lemma val_app a b : (val (a ++ b) = val a * 10 ^ N.of_nat (length b) + val b)%N.
Proof. unfold val at 1. rewrite fold_left_app, val_app_aux. reflexivity. Qed.

Lemma val_zeros k : val (repeat 0%N k) = 0%N.
Proof. induction k as [|k IH]; auto. Qed.


Lemma dec_fuel_ok f : forall n, (n < 2 ^ N.of_nat f)%N ->
  val (dec_fuel (S f) n) = n /\ Forall (fun d => d < 10)%N (dec_fuel (S f) n) /\ dec_fuel (S f) n <> [].
Proof.
  induction f as [|f IH]; intros n Hn; cbn [dec_fuel].
  - change (2 ^ N.of_nat 0)%N with 1%N in Hn. assert (n = 0)%N by lia. subst.
    change (0 <? 10)%N with true. cbn iota. repeat split; [repeat constructor|discriminate].
  - destruct (N.ltb_spec n 10) as [H|H].
    + unfold val; cbn [fold_left]. split; [lia|split; [constructor; [lia|constructor]|discriminate]].
    + rewrite Nat2N.inj_succ, N.pow_succ_r' in Hn.
      assert (Hd : (n / 10 < 2 ^ N.of_nat f)%N).
      { apply N.div_lt_upper_bound; lia. }
      destruct (IH _ Hd) as (H1 & H2 & H3). cbn [dec_fuel] in H1, H2, H3.
      repeat split.
      * rewrite val_app, H1. change (10 ^ N.of_nat (length [(n mod 10)%N]))%N with 10%N.
        unfold val; cbn [fold_left]. pose proof (N.div_mod n 10). lia.
      * apply Forall_app; split; auto. repeat constructor. apply N.mod_lt; lia.
      * intros E. apply app_eq_nil in E. destruct E; discriminate.
Qed.


Lemma size_nat_pos p : Pos.to_nat (Pos.size p) = Pos.size_nat p.
Proof. induction p as [p IH|p IH|]; cbn [Pos.size Pos.size_nat]; rewrite ?Pos2Nat.inj_succ; auto. Qed.

Lemma size_nat_bound n : (n < 2 ^ N.of_nat (N.size_nat n))%N.
Proof.
  destruct n as [|p]; [cbn; lia|].
  replace (N.of_nat (N.size_nat (N.pos p))) with (N.size (N.pos p)).
  - apply N.size_gt.
  - cbn [N.size N.size_nat]. rewrite <- size_nat_pos. now rewrite positive_nat_N.
Qed.

Lemma dec_ok n : val (dec n) = n /\ Forall (fun d => d < 10)%N (dec n) /\ dec n <> [].
Proof. apply dec_fuel_ok, size_nat_bound. Qed.

Lemma pad_dec_ok w n : val (pad_dec w n) = n /\ Forall (fun d => d < 10)%N (pad_dec w n)
  /\ pad_dec w n <> [] /\ w <= length (pad_dec w n).
Proof.
  unfold pad_dec. destruct (dec_ok n) as (H1 & H2 & H3). repeat split.
  - rewrite val_app, val_zeros, H1. lia.
  - apply Forall_app; split; auto. apply Forall_forall. intros x Hx.
    apply repeat_spec in Hx. subst; lia.
  - intros E. apply app_eq_nil in E. tauto.
  - rewrite app_length, repeat_length. lia.
Qed.

Lemma digit_lt10 (P : N -> Prop) :
  P 0%N -> P 1%N -> P 2%N -> P 3%N -> P 4%N -> P 5%N -> P 6%N -> P 7%N -> P 8%N -> P 9%N ->
  forall d, (d < 10)%N -> P d.
Proof.
  intros. assert (E : (d = 0 \/ d = 1 \/ d = 2 \/ d = 3 \/ d = 4 \/ d = 5 \/ d = 6 \/ d = 7 \/ d = 8 \/ d = 9)%N) by lia.
  repeat destruct E as [E|E]; subst; auto.
Qed.

Lemma is_digit_char d : (d < 10)%N -> is_digit (digit_char d) = true.
Proof. revert d. apply digit_lt10; reflexivity. Qed.
Lemma char_digit_char d : (d < 10)%N -> char_digit (digit_char d) = Some d.
Proof. revert d. apply digit_lt10; reflexivity. Qed.
Lemma N_of_digit_char d : (d < 10)%N -> (N_of_ascii (digit_char d) - 48 = d)%N.
Proof. revert d. apply digit_lt10; reflexivity. Qed.

Lemma span_digits_app ds rest : Forall (fun d => d < 10)%N ds ->
  match rest with c :: _ => is_digit c = false | [] => True end ->
  span_digits (map digit_char ds ++ rest) = (map digit_char ds, rest).
Proof.
  intros Hd Hr. induction Hd as [|d ds H Hd IH]; cbn.
  - destruct rest as [|c r]; auto. cbn. now rewrite Hr.
  - rewrite is_digit_char, IH by auto. reflexivity.
Qed.

Lemma numeral_map ds : Forall (fun d => d < 10)%N ds -> numeral (map digit_char ds) = val ds.
Proof.
  unfold numeral, val. generalize 0%N as a. intros a Hd; revert a.
  induction Hd as [|d ds H Hd IH]; intros a; cbn [map fold_left]; auto.
  rewrite N_of_digit_char by auto. apply IH.
Qed.

Lemma read_sample_tag l n : read_tag (sample_tag l n) = Some (l, n).
Proof.
  destruct (pad_dec_ok 2 l) as (L1 & L2 & L3 & _).
  destruct (pad_dec_ok 7 n) as (N1 & N2 & N3 & _).
  unfold sample_tag.
  change (str "L") with ["L"%char]. change (str "_S") with ["_"%char; "S"%char].
  cbn [app read_tag].
  rewrite span_digits_app by (auto; reflexivity).
  rewrite <- (app_nil_r (map digit_char (pad_dec 7 n))).
  rewrite span_digits_app by auto.
  rewrite !numeral_map, L1, N1 by auto.
  destruct (pad_dec 2 l); [congruence|]. destruct (pad_dec 7 n); [congruence|]. reflexivity.
Qed.

Lemma sample_tag_inj l1 n1 l2 n2 :
  sample_tag l1 n1 = sample_tag l2 n2 -> l1 = l2 /\ n1 = n2.
Proof.
  intros E. pose proof (read_sample_tag l1 n1) as H. rewrite E, read_sample_tag in H.
  injection H; auto.
Qed.

(** Last digits *)
Lemma val_lt ds : Forall (fun d => d < 10)%N ds -> (val ds < 10 ^ N.of_nat (length ds))%N.
Proof.
  induction ds as [|d ds IH] using rev_ind; intros H; [cbn; lia|].
  apply Forall_app in H; destruct H as [H1 H2]. inversion H2; subst.
  rewrite val_app, app_length. cbn [length]. unfold val at 2; cbn [fold_left].
  change (10 ^ N.of_nat 1)%N with 10%N.
  replace (N.of_nat (length ds + 1)) with (N.succ (N.of_nat (length ds))) by lia.
  rewrite N.pow_succ_r'. specialize (IH H1). lia.
Qed.

Lemma int_aux_map ds a : Forall (fun d => d < 10)%N ds ->
  int_aux a (map digit_char ds) = Ok (fold_left (fun acc d => 10 * acc + d)%N ds a).
Proof.
  intros H; revert a; induction H as [|d ds Hd H IH]; intros a; cbn [map int_aux fold_left]; auto.
  rewrite char_digit_char by auto. apply IH.
Qed.

Lemma keep_dir_tag l n : keep_dir (sample_tag l n) = Ok (n mod 10000000 <? 5)%N.
Proof.
  destruct (pad_dec_ok 7 n) as (N1 & N2 & N3 & N4).
  unfold keep_dir, last_chars.
  set (pre := str "L" ++ map digit_char (pad_dec 2 l) ++ str "_S").
  assert (E : sample_tag l n = pre ++ map digit_char (pad_dec 7 n)).
  { unfold sample_tag, pre. now rewrite <- !app_assoc. }
  rewrite E. set (ds := pad_dec 7 n) in *.
  set (k := length ds - 7).
  replace (length (pre ++ map digit_char ds) - 7) with (length pre + k)
    by (rewrite app_length, map_length; unfold k; lia).
  rewrite skipn_app, skipn_all2 by lia. cbn [app].
  replace (length pre + k - length pre) with k by lia.
  rewrite <- (firstn_skipn k ds) in N1, N2.
  rewrite val_app in N1. apply Forall_app in N2. destruct N2 as [_ N2].
  assert (Hl : length (skipn k ds) = 7) by (rewrite skipn_length; unfold k; lia).
  rewrite Hl in N1.
  rewrite skipn_map.
  unfold py_int. destruct (skipn k ds) as [|d0 ds0] eqn:Es; [discriminate|].
  rewrite <- Es in *. 
  replace (map digit_char (skipn k ds)) with (map digit_char (d0 :: ds0)) by (now rewrite Es).
  cbn [map]. rewrite <- map_cons, <- Es, int_aux_map by auto. cbn [bind].
  fold (val (skipn k ds)).
  replace (n mod 10000000)%N with (val (skipn k ds)); auto.
  pose proof (val_lt _ N2) as Hv. rewrite Hl in Hv.
  change (10 ^ N.of_nat 7)%N with 10000000%N in *.
  apply N.mod_unique with (q := val (firstn k ds)); lia.
Qed.

Lemma keep_dir_iff l n : (n < 10000000)%N ->
  (keep_dir (sample_tag l n) = Ok true <-> (n < 5)%N).
Proof.
  intros H. rewrite keep_dir_tag, N.mod_small by auto.
  destruct (N.ltb_spec n 5); split; intros; try congruence; try lia.
Qed.

Lemma keep_dir_false_iff l n : (n < 10000000)%N ->
  (keep_dir (sample_tag l n) = Ok false <-> (5 <= n)%N).
Proof.
  intros H. rewrite keep_dir_tag, N.mod_small by auto.
  destruct (N.ltb_spec n 5); split; intros; try congruence; try lia.
Qed.

Lemma keep_dir_wraps : exists level n : N,
  (5 <= n)%N /\ keep_dir (sample_tag level n) = Ok true.
Proof. exists 1%N, 10000003%N. split; [lia|vm_compute; reflexivity]. Qed.
