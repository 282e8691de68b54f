(** Facts about the sizes of the continuation. *)
From Coq Require Import Reals Qround Lqa Sorted.
From Verif Require Import Base ContModel.
Local Open Scope Q_scope.

Lemma floor_bounds x : inject_Z (Qfloor x) <= x /\ x < inject_Z (Qfloor x) + 1.
Proof. split; [apply Qfloor_le|]. pose proof (Qlt_floor x) as H. rewrite inject_Z_plus in H. exact H. Qed.
Lemma inj_le a b : (a <= b)%Z -> inject_Z a <= inject_Z b. Proof. intros H. rewrite <- Zle_Qle. exact H. Qed.
Lemma Qle_bool_false a b : Qle_bool a b = false -> b < a.
Proof. intros H. apply Qnot_le_lt. intros C. apply Qle_bool_iff in C. congruence. Qed.
Lemma Qle_bool_true a b : Qle_bool a b = true -> a <= b. Proof. apply Qle_bool_iff. Qed.

Lemma round_cases x : let f := Qfloor x in
  (py_round x = f /\ x <= inject_Z f + (1 # 2)) \/ (py_round x = (f + 1)%Z /\ inject_Z f + (1 # 2) <= x).
Proof.
  cbv zeta. unfold py_round. cbv zeta. destruct (Qle_bool (1 # 2) (x - inject_Z (Qfloor x))) eqn:A; cbn [negb].
  - apply Qle_bool_true in A. destruct (Qle_bool (x - inject_Z (Qfloor x)) (1 # 2)) eqn:B; cbn [negb].
    + apply Qle_bool_true in B. destruct (Z.even (Qfloor x)); [left|right]; (split; [reflexivity|lra]).
    + right. split; [reflexivity|lra].
  - apply Qle_bool_false in A. left. split; [reflexivity|lra].
Qed.
Lemma round_near x : x - (1 # 2) <= inject_Z (py_round x) <= x + (1 # 2).
Proof. destruct (floor_bounds x) as [L U]. destruct (round_cases x) as [[-> H]|[-> H]]; cbv zeta in *; try rewrite inject_Z_plus; change (inject_Z 1) with 1; split; lra. Qed.
Lemma round_mono x y : x <= y -> (py_round x <= py_round y)%Z.
Proof.
  intros H. pose proof (Qfloor_resp_le x y H) as F. destruct (Z.eq_dec (Qfloor x) (Qfloor y)) as [E|N].
  - unfold py_round. cbv zeta. rewrite <- E. set (f := Qfloor x) in *.
    destruct (Qle_bool (1 # 2) (x - inject_Z f)) eqn:A; destruct (Qle_bool (1 # 2) (y - inject_Z f)) eqn:B; cbn [negb].
    + destruct (Qle_bool (x - inject_Z f) (1 # 2)) eqn:C; destruct (Qle_bool (y - inject_Z f) (1 # 2)) eqn:D; cbn [negb]; destruct (Z.even f); try lia.
      apply Qle_bool_false in C. apply Qle_bool_true in D. lra.
    + apply Qle_bool_true in A. apply Qle_bool_false in B. lra.
    + destruct (Qle_bool (y - inject_Z f) (1 # 2)); destruct (Z.even f); cbn [negb]; lia.
    + lia.
  - destruct (round_cases x) as [[-> _]|[-> _]]; destruct (round_cases y) as [[-> _]|[-> _]]; cbv zeta in *; lia.
Qed.
Lemma odd_near s : s - 1 <= inject_Z (odd_size s) <= s + 1.
Proof.
  unfold odd_size. rewrite inject_Z_plus, inject_Z_mult. change (inject_Z 1) with 1. change (inject_Z 2) with 2.
  destruct (round_near ((s - 1) / 2)) as [A B]. unfold Qdiv in *. change (/ 2) with (1 # 2) in *. split; lra.
Qed.
Lemma odd_mono s t : s <= t -> (odd_size s <= odd_size t)%Z.
Proof. intros H. unfold odd_size. assert (py_round ((s - 1) / 2) <= py_round ((t - 1) / 2))%Z; [|lia]. apply round_mono. unfold Qdiv. change (/ 2) with (1 # 2). lra. Qed.
Lemma odd_odd s : Z.odd (odd_size s) = true.
Proof. unfold odd_size. rewrite Z.odd_add, Z.odd_mul. reflexivity. Qed.
Lemma odd_three s : 10 # 3 < s -> s < 4 -> odd_size s = 3%Z.
Proof.
  intros A B. unfold odd_size. enough (py_round ((s - 1) / 2) = 1%Z) as -> by reflexivity.
  assert (X : 1 < (s - 1) / 2 /\ (s - 1) / 2 < 3 # 2) by (unfold Qdiv; change (/ 2) with (1 # 2); split; lra).
  set (x := (s - 1) / 2) in *. destruct X as [X1 X2]. destruct (floor_bounds x) as [L U].
  assert (F : Qfloor x = 1%Z).
  { assert (inject_Z (Qfloor x) < inject_Z 2) by (change (inject_Z 2) with 2; lra). assert (inject_Z 1 < inject_Z (Qfloor x + 1)) by (rewrite inject_Z_plus; change (inject_Z 1) with 1; lra).
    rewrite <- Zlt_Qlt in H, H0. lia. }
  destruct (round_cases x) as [[-> _]|[_ H]]; cbv zeta in *; rewrite F in *; [reflexivity|]. change (inject_Z 1) with 1 in H. lra.
Qed.

(** Relation of neighbours: growing, by at most the factor 1.2 and the rounding. *)
Definition grows (x y : Z) : Prop := (x < y)%Z /\ inject_Z y <= (6 # 5) * inject_Z x + (11 # 5).
(** Sizes after k divisions of n. *)
Definition inv (n : nat) (k : nat) (size : Q) (sizes : list Z) : Prop :=
  inject_Z (6 ^ Z.of_nat k) * size == inject_Z (Z.of_nat n * 5 ^ Z.of_nat k) /\ 10 # 3 < size
  /\ Sorted grows (rev sizes) /\ last (rev sizes) 0%Z = Z.of_nat n /\ Forall (fun s => Z.odd s = true) (removelast (rev sizes))
  /\ match k with O => sizes = [Z.of_nat n] | _ => last sizes 0%Z = odd_size size end.
Lemma last_rev (l : list Z) d : last l d = hd d (rev l).
Proof. destruct l using rev_ind; [reflexivity|]. now rewrite last_last, rev_app_distr. Qed.
Lemma div65 s : s / (6 # 5) == (5 # 6) * s. Proof. unfold Qdiv. change (/ (6 # 5)) with (5 # 6). ring. Qed.
Lemma inv_step n k size sizes : (6 <= n)%nat -> inv n k size sizes -> 4 < size ->
  inv n (S k) (size / (6 # 5)) (if Z.eqb (odd_size (size / (6 # 5))) (last sizes 0%Z) then sizes else sizes ++ [odd_size (size / (6 # 5))]).
Proof.
  intros Hn (Es & Lo & So & La & Od & Hk) H. pose proof (div65 size) as D. set (s := size / (6 # 5)) in *.
  assert (Hs : (5 # 6) * size == s) by (symmetry; exact D).
  assert (E1 : inject_Z (6 ^ Z.of_nat (S k)) * s == inject_Z (Z.of_nat n * 5 ^ Z.of_nat (S k))).
  { rewrite Nat2Z.inj_succ, !Z.pow_succ_r by lia. rewrite D. rewrite inject_Z_mult. rewrite (Z.mul_comm 5), Z.mul_assoc, inject_Z_mult. rewrite <- Es. change (inject_Z 6) with 6. change (inject_Z 5) with 5. ring. }
  assert (L1 : 10 # 3 < s) by lra.
  assert (Rl : exists x r, rev sizes = x :: r /\ last sizes 0%Z = x).
  { rewrite last_rev. destruct (rev sizes) as [|x r] eqn:E; [cbn in La; lia|]. exists x, r. split; reflexivity. }
  destruct Rl as (x & r & Er & Ex).
  assert (Step : odd_size s <> x -> grows (odd_size s) x).
  { intros Ne. destruct k as [|k].
    - assert (size == inject_Z (Z.of_nat n)) by (revert Es; change (Z.of_nat 0) with 0%Z; rewrite !Z.pow_0_r, Z.mul_1_r; change (inject_Z 1) with 1; intros Es; lra).
      assert (x = Z.of_nat n) by (rewrite <- Ex, Hk; reflexivity). clear Ex. subst x. destruct (odd_near s) as [N1 N2].
      assert (Lx : (odd_size s < Z.of_nat n)%Z).
      { destruct (Nat.eq_dec n 6) as [E6|N6].
        - subst n. assert (S5 : s == 5) by (rewrite D, H0; reflexivity). assert (O5 : (odd_size s <= 5)%Z) by (change 5%Z with (odd_size 5); apply odd_mono; lra). change (Z.of_nat 6) with 6%Z. clear - O5. lia.
        - assert (7 <= n)%nat by lia. assert (inject_Z 7 <= inject_Z (Z.of_nat n)) by (apply inj_le; lia). change (inject_Z 7) with 7 in H2.
          rewrite Zlt_Qlt. lra. }
      split; [exact Lx|]. lra.
    - assert (x = odd_size size) by congruence. clear Ex. subst x. assert (odd_size s <= odd_size size)%Z by (apply odd_mono; lra). destruct (odd_near s) as [N1 N2], (odd_near size) as [M1 M2].
      split; [lia|]. lra. }
  destruct (Z.eqb_spec (odd_size s) (last sizes 0%Z)) as [E|N].
  - split; [exact E1|]. split; [exact L1|]. split; [exact So|]. split; [exact La|]. split; [exact Od|]. now symmetry.
  - split; [exact E1|]. split; [exact L1|]. rewrite rev_app_distr. cbn [rev app]. rewrite Er in *.
    split; [constructor; [exact So|constructor; apply Step; congruence]|].
    split; [exact La|]. split; [|now rewrite last_last]. cbn [removelast] in *. constructor; [apply odd_odd|exact Od].
Qed.
Lemma loop_inv n fuel : (6 <= n)%nat -> forall k size sizes, inv n k size sizes -> size <= 4 + (2 # 3) * inject_Z (Z.of_nat fuel) ->
  exists l k' size', size_loop (S fuel) size sizes = Some l /\ inv n k' size' l /\ size' <= 4.
Proof.
  intros Hn. induction fuel as [|fuel IH]; intros k size sizes I F.
  - exists sizes, k, size. cbn [size_loop]. assert (size <= 4) by (revert F; cbn [Z.of_nat]; change (inject_Z 0) with 0; lra).
    rewrite (proj2 (Qle_bool_iff size 4) H). cbn [negb]. auto.
  - change (size_loop (S (S fuel)) size sizes) with (if negb (Qle_bool size 4) then size_loop (S fuel) (size / (6 # 5)) (if Z.eqb (odd_size (size / (6 # 5))) (last sizes 0%Z) then sizes else sizes ++ [odd_size (size / (6 # 5))]) else Some sizes).
    destruct (Qle_bool size 4) eqn:E; cbn [negb].
    + exists sizes, k, size. apply Qle_bool_true in E. auto.
    + apply Qle_bool_false in E. apply (IH (S k)); [now apply inv_step|]. rewrite div65. rewrite Nat2Z.inj_succ in F. unfold Z.succ in F. rewrite inject_Z_plus in F. change (inject_Z 1) with 1 in F. lra.
Qed.
Lemma not_four n k size : inject_Z (6 ^ Z.of_nat (S k)) * size == inject_Z (Z.of_nat n * 5 ^ Z.of_nat (S k)) -> ~ size == 4.
Proof.
  intros E H. rewrite H in E. change 4 with (inject_Z 4) in E. rewrite <- inject_Z_mult in E. apply (proj1 (inject_Z_injective _ _)) in E.
  rewrite !Nat2Z.inj_succ, (Z.pow_succ_r 5) in E by lia. assert (M : (6 ^ Z.succ (Z.of_nat k) mod 5 = 1)%Z).
  { rewrite <- Nat2Z.inj_succ. clear E. induction (S k) as [|j IHj]; [reflexivity|]. rewrite Nat2Z.inj_succ, Z.pow_succ_r by lia. rewrite Z.mul_mod, IHj by lia. reflexivity. }
  assert (X : ((6 ^ Z.succ (Z.of_nat k) * 4) mod 5 = (Z.of_nat n * (5 * 5 ^ Z.of_nat k)) mod 5)%Z) by now rewrite E.
  rewrite Z.mul_mod, M in X by lia. replace (Z.of_nat n * (5 * 5 ^ Z.of_nat k))%Z with (Z.of_nat n * 5 ^ Z.of_nat k * 5)%Z in X by ring. rewrite Z_mod_mult in X. discriminate.
Qed.
Lemma sizes_large fuel n : (6 <= n)%nat -> (2 * n < fuel)%nat -> exists l, fit_sizes fuel n = Some l /\ (2 <= length l)%nat /\ Sorted grows l /\ hd 0%Z l = 3%Z /\ last l 0%Z = Z.of_nat n
  /\ Forall (fun s => Z.odd s = true) (removelast l).
Proof.
  intros Hn Hf. destruct fuel as [|fuel]; [lia|]. unfold fit_sizes. destruct (Nat.leb_spec n 5); [lia|].
  destruct (loop_inv n fuel Hn 0 (inject_Z (Z.of_nat n)) [Z.of_nat n]) as (l & k & size & E & (Es & Lo & So & La & Od & Hk) & S4).
  - split; [change (Z.of_nat 0) with 0%Z; rewrite !Z.pow_0_r, Z.mul_1_r; change (inject_Z 1) with 1; ring|]. assert (inject_Z 6 <= inject_Z (Z.of_nat n)) by (apply inj_le; lia). change (inject_Z 6) with 6 in H0.
    split; [lra|]. split; [repeat constructor|]. split; [reflexivity|]. split; [constructor|reflexivity].
  - assert (inject_Z (Z.of_nat (2 * n)) <= inject_Z (Z.of_nat fuel)) by (apply inj_le; lia). rewrite Nat2Z.inj_mul, inject_Z_mult in H0. change (inject_Z (Z.of_nat 2)) with 2 in H0.
    assert (0 <= inject_Z (Z.of_nat n)) by (change 0 with (inject_Z 0); apply inj_le; lia). lra.
  - rewrite E. exists (rev l). split; [reflexivity|]. destruct k as [|k].
    { exfalso. assert (inject_Z 6 <= inject_Z (Z.of_nat n)) by (apply inj_le; lia). change (inject_Z 6) with 6 in H0. revert Es. change (Z.of_nat 0) with 0%Z. rewrite !Z.pow_0_r, Z.mul_1_r. change (inject_Z 1) with 1. intros Es. lra. }
    assert (H3 : hd 0%Z (rev l) = 3%Z).
    { rewrite <- last_rev, Hk. apply odd_three; [exact Lo|]. pose proof (not_four n k size Es). apply Qle_lteq in S4 as [S4|S4]; [exact S4|contradiction]. }
    split; [|repeat split; auto]. destruct (rev l) as [|x [|y r]]; cbn in *; lia.
Qed.
Lemma grows_Z x y : grows x y -> (5 * y <= 6 * x + 11)%Z.
Proof.
  intros [_ H]. rewrite Zle_Qle, inject_Z_plus, !inject_Z_mult. change (inject_Z 5) with 5. change (inject_Z 6) with 6. change (inject_Z 11) with 11. lra.
Qed.
