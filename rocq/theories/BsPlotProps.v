(** C224, C225: plots of the bootstrap. *)
From Coq Require Import Reals Lra Lia.
From Verif Require Import Base BsPlotModel HistProps.
Open Scope R_scope.

(** The drawn values of a moment, from the first tick on. *)
Definition series (d : drawn) (m : nat) : option (list R) :=
  match find (fun q => (fst q =? m)%nat) (points d) with Some q => Some (map snd (snd q)) | None => None end.
(** Point of a moment at a tick. *)
Definition point (d : drawn) (m l : nat) : option (R * R) :=
  match find (fun q => (fst q =? m)%nat) (points d) with Some q => nth_error (snd q) l | None => None end.
(** An object with its data: [v] for the total, [L] for the levels. *)
Definition with_data (b : bs) (v : list R) (L : array2) : Prop :=
  (2 <= n_moments b)%nat /\ L <> [] /\ var_variance b = Some v /\ level_var_variance b = Some L /\ length v = n_moments b /\
  (forall row, In row L -> length row = n_moments b) /\ (forall row, In row (ref_level_var b) -> length row = n_moments b) /\
  length L = length (bs_n_samples b) /\ length (ref_level_var b) = length (bs_n_samples b).
(** Column of an array and sum of a list. *)
Definition col (L : array2) (m : nat) : list R := map (fun row => nth m row 0) L.
Definition total (l : list R) : R := fold_right Rplus 0 l.

Lemma find_seq (f : nat -> list (R * R)) m : forall n a, (a <= m < a + n)%nat ->
  find (fun q => (fst q =? S m)%nat) (map (fun i => (S i, f i)) (seq a n)) = Some (S m, f m).
Proof.
  induction n as [|n IH]; intros a H; [lia|]. cbn [seq map find fst].
  destruct (Nat.eqb_spec (S a) (S m)) as [E|E]; [replace a with m by lia; reflexivity|]. apply IH. lia.
Qed.
Lemma scatter_ok K values : (2 <= K)%nat -> (forall row, In row values -> length row = K) ->
  exists p, scatter K values = Ok p /\ forall m, (m < K - 1)%nat ->
    find (fun q => (fst q =? S m)%nat) p = Some (S m, combine (map (fun l => INR l + 5 / 10 / INR (K - 1) * INR m) (seq 0 (length values))) (col values (S m))).
Proof.
  intros HK HR. unfold scatter.
  replace (existsb _ values) with false.
  2:{ symmetry. apply not_true_is_false. intros E. apply existsb_exists in E. destruct E as (row & I & E). rewrite (HR row I) in E. apply Nat.ltb_lt in E. lia. }
  cbn zeta. destruct (Nat.eqb_spec (K - 1) 0) as [E|_]; [lia|]. eexists. split; [reflexivity|].
  intros m Hm. exact (find_seq (fun m => combine (map (fun l => INR l + 5 / 10 / INR (K - 1) * INR m) (seq 0 (length values))) (col values (S m))) m (K - 1) 0 ltac:(lia)).
Qed.
Lemma snd_combine {A B} : forall (l : list A) (k : list B), length l = length k -> map snd (combine l k) = k.
Proof. induction l as [|x l IH]; intros [|y k] E; try discriminate; [reflexivity|]. cbn. f_equal. apply IH. now injection E. Qed.
Lemma plot_ok b values : (2 <= n_moments b)%nat -> values <> [] -> (forall row, In row values -> length row = n_moments b) ->
  exists d, plot_bs_variances b values = Ok d /\
    (forall m, (m < n_moments b - 1)%nat -> find (fun q => (fst q =? S m)%nat) (points d) =
      Some (S m, combine (map (fun l => INR l + 5 / 10 / INR (n_moments b - 1) * INR m) (seq 0 (length values))) (col values (S m)))) /\
    labels d = Total :: map (fun q => Level (S (fst q)) (fst (snd q)) (snd (snd q)))
                            (combine (seq 0 (length (combine (bs_n_samples b) (n_samples b)))) (combine (bs_n_samples b) (n_samples b))) /\
    (forall y, In y (concat (map (@tl R) values)) -> fst (y_lim d) <= y <= snd (y_lim d)).
Proof.
  intros HK HN HR. destruct (scatter_ok _ values HK HR) as (p & E & F). unfold plot_bs_variances.
  destruct (concat (map (@tl R) values)) as [|x r] eqn:C.
  - exfalso. destruct values as [|row values]; [now apply HN|]. specialize (HR row (or_introl eq_refl)). destruct row as [|a [|c row]]; cbn in HR, C; try lia. discriminate.
  - rewrite E. eexists. split; [reflexivity|]. cbn. split; [exact F|]. split; [reflexivity|].
    destruct (fold_min r x) as (A1 & A2 & _). destruct (fold_max r x) as (B1 & B2). intros y [<-|I]; split; auto.
Qed.
Lemma series_ok d m n values K : find (fun q => (fst q =? S m)%nat) (points d) = Some (S m, combine (map (fun l => INR l + 5 / 10 / INR K * INR m) (seq 0 n)) (col values (S m))) ->
  n = length values -> series d (S m) = Some (col values (S m)).
Proof. intros E ->. unfold series. rewrite E. cbn [snd]. rewrite snd_combine; [reflexivity|]. unfold col. now rewrite !map_length, seq_length. Qed.

Lemma div_tail_length row d : length (tl row) = length d -> length (div_tail row d) = length row.
Proof. destruct row as [|x r]; [reflexivity|]. cbn. intros E. rewrite map_length, combine_length. lia. Qed.
Lemma nth_div : forall (r d : list R) m, length r = length d -> (m < length d)%nat -> nth m (map (fun p => fst p / snd p) (combine r d)) 0 = nth m r 0 / nth m d 0.
Proof.
  induction r as [|x r IH]; intros [|y d] m E Hm; try discriminate; cbn in Hm; [lia|]. destruct m as [|m]; [reflexivity|]. cbn. apply IH; [now injection E|lia].
Qed.
Lemma nth_div_tail row d m : length (tl row) = length d -> (m < length d)%nat -> nth (S m) (div_tail row d) 0 = nth (S m) row 0 / nth m d 0.
Proof. destruct row as [|x r]; cbn [tl div_tail nth]; intros E Hm; [cbn in E; lia|]. now apply nth_div. Qed.
Lemma tl_length {A} (l : list A) : length (tl l) = (length l - 1)%nat.
Proof. destruct l; cbn; lia. Qed.
Lemma div_tails_ok rows ds : length rows = length ds -> (forall p, In p (combine rows ds) -> length (tl (fst p)) = length (snd p)) ->
  div_tails rows ds = Ok (map (fun p => div_tail (fst p) (snd p)) (combine rows ds)).
Proof.
  intros E H. unfold div_tails. rewrite E, Nat.eqb_refl. replace (forallb _ _) with true; [reflexivity|]. symmetry. apply forallb_forall. intros p I. apply Nat.eqb_eq. now apply H.
Qed.
Lemma stack_ok v L K : length v = K -> (forall row, In row L -> length row = K) -> stack v L = Ok (v :: L).
Proof. intros <- H. unfold stack. replace (forallb _ _) with true; [reflexivity|]. symmetry. apply forallb_forall. intros r I. apply Nat.eqb_eq. now apply H. Qed.
(** Pairing each row with something computed from it. *)
Lemma combine_map_r {A B C} (f : A * B -> C) : forall (L : list A) (N : list B), combine L (map f (combine L N)) = map (fun p => (fst p, f p)) (combine L N).
Proof. induction L as [|x L IH]; intros [|n N]; cbn; [reflexivity..|]. f_equal. apply IH. Qed.
Lemma fold_total : forall l a, fold_left Rplus l a = a + total l.
Proof. induction l as [|x l IH]; intros a; cbn; [unfold total; cbn; ring|]. rewrite IH. unfold total. cbn. ring. Qed.

(** C224. Every error plot shows its quantity when it is the first one drawn with the data: the contributions V / n^2, the errors relative
    to 2 V^2 / (n - 1) and the scaled square roots; the last one leaves the object unchanged. *)
Theorem C224_error_plots_partial : forall b v L, with_data b v L ->
  (exists d, fst (error_contributions b) = Ok d /\ forall m, (1 <= m < n_moments b)%nat ->
     series d m = Some (nth m v 0 :: map (fun p => nth m (fst p) 0 / INR (snd p) ^ 2) (combine L (bs_n_samples b)))) /\
  (exists d, fst (level_variances_error b) = Ok d /\ forall m, (1 <= m < n_moments b)%nat ->
     series d m = Some (nth m v 0 / total (map (fun p => nth m (fst p) 0 ^ 2 * 2 / (INR (snd p) - 1) / INR (snd p) ^ 2) (combine (ref_level_var b) (bs_n_samples b)))
                        :: map (fun p => nth m (fst p) 0 / (nth m (fst (snd p)) 0 ^ 2 * 2 / (INR (snd (snd p)) - 1)))
                               (combine L (combine (ref_level_var b) (bs_n_samples b))))) /\
  (exists d, var_log_var b = (Ok d, b) /\ forall m, (1 <= m < n_moments b)%nat ->
     series d m = Some (nth m v 0 :: map (fun p => sqrt (nth m (fst p) 0 * INR (snd p))) (combine L (bs_n_samples b)))).
Proof.
  intros b v L (HK & HL & Ev & EL & Lv & RL & RR & NL & NR). split; [|split].
  - unfold error_contributions. rewrite Ev, EL.
    assert (HC : forall p, In p (combine L (bs_n_samples b)) -> length (fst p) = n_moments b) by (intros [r n] I; apply RL; now apply in_combine_l in I).
    rewrite div_tails_ok.
    2:{ rewrite map_length, combine_length. lia. }
    2:{ rewrite combine_map_r. intros p I. apply in_map_iff in I. destruct I as (q & <- & I). cbn. now rewrite repeat_length. }
    rewrite combine_map_r, map_map. cbn [fst snd]. set (L' := map _ _).
    assert (RL' : forall row, In row L' -> length row = n_moments b).
    { intros row I. apply in_map_iff in I. destruct I as (q & <- & I). rewrite div_tail_length by now rewrite repeat_length. now apply HC. }
    rewrite (stack_ok v L' (n_moments b) Lv RL'). cbn [bind fst].
    destruct (plot_ok (set_level_var b L') (v :: L') HK ltac:(discriminate)) as (d & E & F & _).
    { intros row [<-|I]; [exact Lv|now apply RL']. }
    exists d. split; [exact E|]. intros [|m] Hm; [lia|]. rewrite (series_ok _ _ _ _ _ (F m ltac:(cbn; lia)) eq_refl). f_equal. cbn [col map]. f_equal.
    unfold L'. rewrite map_map. apply map_ext_in. intros q I. cbn. specialize (HC q I).
    rewrite nth_div_tail; rewrite ?repeat_length, ?tl_length; try lia. f_equal.
    apply (repeat_spec (length (fst q) - 1)). apply nth_In. rewrite repeat_length. lia.
  - unfold level_variances_error. rewrite NR, Nat.eqb_refl. cbn [negb]. rewrite Ev.
    assert (HC : forall p, In p (combine (ref_level_var b) (bs_n_samples b)) -> length (fst p) = n_moments b) by (intros [r n] I; apply RR; now apply in_combine_l in I).
    assert (HS : forall row, In row (level_scale b) -> length row = (n_moments b - 1)%nat).
    { intros row I. apply in_map_iff in I. destruct I as (q & <- & I). now rewrite map_length, tl_length, (HC q I). }
    assert (LS : length (level_scale b) = length L) by (unfold level_scale; rewrite map_length, combine_length; lia).
    assert (H0 : length (hd [] (level_scale b)) = (n_moments b - 1)%nat).
    { destruct (level_scale b) as [|r l] eqn:E; [destruct L; [now destruct HL|cbn in LS; lia]|]. apply HS. now left. }
    rewrite H0. assert (TS : length (total_scale b (n_moments b - 1)) = (n_moments b - 1)%nat) by (unfold total_scale; now rewrite map_length, seq_length).
    rewrite div_tails_ok; [|reflexivity|].
    2:{ intros p [<-|[]]. cbn [fst snd]. now rewrite tl_length, TS, Lv. }
    cbn [combine map hd fst snd]. rewrite EL.
    assert (HP : forall p, In p (combine L (level_scale b)) -> length (fst p) = n_moments b /\ length (snd p) = (n_moments b - 1)%nat).
    { intros [r s] I. split; [apply RL; now apply in_combine_l in I|apply HS; now apply in_combine_r in I]. }
    rewrite div_tails_ok; [|now rewrite LS|].
    2:{ intros p I. destruct (HP p I) as (A & B). rewrite tl_length. lia. }
    set (v' := div_tail v _). set (L' := map _ _).
    assert (Lv' : length v' = n_moments b) by (unfold v'; rewrite div_tail_length; [exact Lv|rewrite tl_length, TS, Lv; reflexivity]).
    assert (RL' : forall row, In row L' -> length row = n_moments b).
    { intros row I. apply in_map_iff in I. destruct I as (q & <- & I). destruct (HP q I) as (A & B). rewrite div_tail_length; [exact A|rewrite tl_length; lia]. }
    rewrite (stack_ok v' L' (n_moments b) Lv' RL'). cbn [bind fst].
    destruct (plot_ok (set_level_var (set_var b v') L') (v' :: L') HK ltac:(discriminate)) as (d & E & F & _).
    { intros row [<-|I]; [exact Lv'|now apply RL']. }
    exists d. split; [exact E|]. intros [|m] Hm; [lia|]. rewrite (series_ok _ _ _ _ _ (F m ltac:(cbn; lia)) eq_refl). f_equal. cbn [col map]. 
    assert (NS : forall q, In q (combine (ref_level_var b) (bs_n_samples b)) -> nth m (map (fun V => V ^ 2 * 2 / (INR (snd q) - 1)) (tl (fst q))) 0 = nth (S m) (fst q) 0 ^ 2 * 2 / (INR (snd q) - 1)).
    { intros q I. specialize (HC q I). destruct (fst q) as [|x r]; cbn in HC; [lia|]. cbn [tl nth].
      rewrite (nth_indep _ 0 (0 ^ 2 * 2 / (INR (snd q) - 1))) by (rewrite map_length; lia). apply (map_nth (fun V => V ^ 2 * 2 / (INR (snd q) - 1))). }
    f_equal.
    + unfold v'. rewrite nth_div_tail; rewrite ?tl_length, ?TS; try lia. f_equal. unfold total_scale.
      set (g := fun m0 => fold_left Rplus _ 0). rewrite (nth_indep _ 0 (g 0%nat)) by (rewrite map_length, seq_length; lia). rewrite map_nth, seq_nth by lia. unfold g. cbn [Nat.add].
      rewrite fold_total, Rplus_0_l. f_equal. unfold level_scale.
      assert (CC : forall (f : list R * nat -> list R) A B, combine (map f (combine A B)) B = map (fun p => (f p, snd p)) (combine A B)).
      { intros f. induction A as [|x A IH]; intros [|y B]; cbn; [reflexivity..|]. f_equal. apply IH. }
      rewrite CC, map_map. apply map_ext_in. intros q I. cbn [fst snd]. now rewrite NS.
    + unfold L'. rewrite map_map. unfold level_scale.
      assert (CR : forall (f : list R * nat -> list R) (A : array2) B, combine A (map f B) = map (fun p => (fst p, f (snd p))) (combine A B)).
      { intros f. induction A as [|x A IH]; intros [|y B]; cbn; [reflexivity..|]. f_equal. apply IH. }
      rewrite CR, map_map. apply map_ext_in. intros [r q] I. cbn [fst snd].
      assert (Ir : In r L) by (now apply in_combine_l in I). assert (Iq : In q (combine (ref_level_var b) (bs_n_samples b))) by (now apply in_combine_r in I).
      rewrite nth_div_tail; rewrite ?map_length, ?tl_length, ?(RL r Ir), ?(HC q Iq); try lia. now rewrite NS.
  - unfold var_log_var. rewrite EL, Ev, NL, Nat.eqb_refl. cbn [negb]. set (L' := map _ _).
    assert (RL' : forall row, In row L' -> length row = n_moments b).
    { intros row I. apply in_map_iff in I. destruct I as ([r n] & <- & I). rewrite map_length. apply RL. now apply in_combine_l in I. }
    rewrite (stack_ok v L' (n_moments b) Lv RL'). cbn [bind].
    destruct (plot_ok b (v :: L') HK ltac:(discriminate)) as (d & E & F & _).
    { intros row [<-|I]; [exact Lv|now apply RL']. }
    exists d. split; [now rewrite E|]. intros [|m] Hm; [lia|]. rewrite (series_ok _ _ _ _ _ (F m ltac:(lia)) eq_refl). f_equal. cbn [col map]. f_equal.
    unfold L'. rewrite map_map. apply map_ext_in. intros [r n] I. cbn [fst snd].
    rewrite (nth_indep _ 0 (sqrt (0 * INR n))). { apply (map_nth (fun V => sqrt (V * INR n))). }
    rewrite map_length, (RL r); [lia|now apply in_combine_l in I].
Qed.

(** Two levels, two moments. *)
Definition demo : bs := set_level_var (set_var (init [8; 4]%nat [2; 2]%nat 2 [[0; 1]; [0; 2]]) [1; 3]) [[1; 4]; [1; 8]].
Example demo_data : with_data demo [1; 3] [[1; 4]; [1; 8]].
Proof.
  unfold with_data, demo. cbn. repeat split; try lia; try discriminate; intros row [<-|[<-|[]]]; reflexivity.
Qed.
(** Drawn a second time, the contributions are divided once more. *)
Theorem C224_error_plots_refuted :
  (forall n bs_n moments, (length n = length bs_n)%nat -> let b := init n bs_n moments (map (fun _ => [0; 1]) bs_n) in
     error_contributions b = (Err AttributeError, b) /\ level_variances_error b = (Err AttributeError, b)) /\
  exists b v L, with_data b v L /\ exists d1 d2, fst (error_contributions b) = Ok d1 /\ fst (error_contributions (snd (error_contributions b))) = Ok d2 /\
    series d1 1 = Some [3; 1; 2] /\ series d2 1 = Some [3; 1 / 4; 1 / 2].
Proof.
  split.
  - intros n bs_n moments _ b. split; [reflexivity|]. unfold level_variances_error. cbn [ref_level_var bs_n_samples b init]. now rewrite map_length, Nat.eqb_refl.
  - exists demo, [1; 3], [[1; 4]; [1; 8]]. split; [apply demo_data|]. 
    eexists; eexists. split; [cbn; reflexivity|]. split; [cbn; reflexivity|]. unfold series. cbn. split; f_equal; repeat (f_equal; try field).
Qed.

Lemma nth_combine_points (f : nat -> R) : forall values n m l a, n = length values -> (l < n)%nat ->
  nth_error (combine (map f (seq a n)) (col values m)) l = Some (f (a + l)%nat, nth m (nth l values []) 0).
Proof.
  induction values as [|row values IH]; intros n m l a E Hl; cbn in E; subst n; [lia|]. cbn [seq map col combine]. destruct l as [|l]; cbn [nth_error nth].
  - now rewrite Nat.add_0_r.
  - specialize (IH (length values) m l (S a) eq_refl ltac:(lia)). unfold col in IH. rewrite IH. now rewrite Nat.add_succ_r.
Qed.
Lemma nth_labels : forall (pairs : list (nat * nat)) a l nsbs ns, nth_error pairs l = Some (nsbs, ns) ->
  nth_error (map (fun q => Level (S (fst q)) (fst (snd q)) (snd (snd q))) (combine (seq a (length pairs)) pairs)) l = Some (Level (S (a + l)) nsbs ns).
Proof.
  induction pairs as [|p pairs IH]; intros a [|l] nsbs ns E; cbn in E; try discriminate.
  - injection E as ->. cbn. now rewrite Nat.add_0_r.
  - cbn. rewrite (IH (S a) l nsbs ns E). do 2 f_equal. lia.
Qed.
Lemma nth_combine2 {A B} : forall (l : list A) (k : list B) i x y, nth_error l i = Some x -> nth_error k i = Some y -> nth_error (combine l k) i = Some (x, y).
Proof. induction l as [|a l IH]; intros [|c k] [|i] x y E F; cbn in *; try discriminate; [congruence|now apply IH]. Qed.

(** C225. A table with a row for the total and a row for each level: every moment above the zeroth has a point for each row, at most half
    a tick right of the tick of the row, no two points above each other, inside the limits; the ticks have the labels of the rows. *)
Theorem C225_scatter_partial : forall b t levels, (2 <= n_moments b)%nat -> (forall row, In row (t :: levels) -> length row = n_moments b) ->
  exists d, plot_bs_variances b (t :: levels) = Ok d /\
    (forall m l row, (1 <= m < n_moments b)%nat -> nth_error (t :: levels) l = Some row ->
       exists x, point d m l = Some (x, nth m row 0) /\ INR l <= x < INR l + 5 / 10 /\ fst (y_lim d) <= nth m row 0 <= snd (y_lim d)) /\
    (forall m l m' l' x y y', (1 <= m < n_moments b)%nat -> (1 <= m' < n_moments b)%nat -> (l <= length levels)%nat -> (l' <= length levels)%nat ->
       point d m l = Some (x, y) -> point d m' l' = Some (x, y') -> m = m' /\ l = l') /\
    nth_error (labels d) 0 = Some Total /\
    (forall l nsbs ns, nth_error (bs_n_samples b) l = Some nsbs -> nth_error (n_samples b) l = Some ns -> nth_error (labels d) (S l) = Some (Level (S l) nsbs ns)).
Proof.
  intros b t levels HK HR. destruct (plot_ok b (t :: levels) HK ltac:(discriminate) HR) as (d & E & F & LB & Y).
  set (K := (n_moments b - 1)%nat) in *. set (f := fun m l => INR l + 5 / 10 / INR K * INR m).
  assert (KP : 0 < INR K) by (apply lt_0_INR; unfold K; lia).
  assert (P : forall m l, (m < K)%nat -> (l <= length levels)%nat -> point d (S m) l = Some (f m l, nth (S m) (nth l (t :: levels) []) 0)).
  { intros m l Hm Hl. unfold point. rewrite (F m Hm). cbn [snd]. now rewrite (nth_combine_points (f m)) by (cbn [length]; lia). }
  assert (B : forall m, (m < K)%nat -> 0 <= 5 / 10 / INR K * INR m < 5 / 10).
  { intros m Hm. assert (0 <= INR m) by apply pos_INR. assert (INR m < INR K) by now apply lt_INR. 
    replace (5 / 10 / INR K * INR m) with (5 / 10 * (INR m / INR K)) by (field; lra).
    assert (0 <= INR m / INR K) by (apply Rmult_le_pos; [lra|left; now apply Rinv_0_lt_compat]).
    assert (INR m / INR K < 1) by (apply (Rmult_lt_reg_r (INR K)); [lra|]; unfold Rdiv; rewrite Rmult_assoc, Rinv_l by lra; lra). lra. }
  exists d. split; [exact E|]. split; [|split; [|split]].
  - intros [|m] l row Hm El; [lia|]. assert (Hl : (l < length (t :: levels))%nat) by (apply nth_error_Some; congruence). cbn in Hl.
    rewrite (P m l) by (unfold K; lia). rewrite (nth_error_nth _ _ [] El). exists (f m l). split; [reflexivity|]. destruct (B m ltac:(unfold K; lia)). unfold f. split; [lra|].
    apply Y. apply in_concat. apply nth_error_In in El. exists (tl row). split; [now apply in_map|]. specialize (HR row El).
    destruct row as [|a row]; cbn in HR; [lia|]. cbn. apply nth_In. lia.
  - intros [|m] l [|m'] l' x y y' Hm Hm' Hl Hl'; try lia. rewrite (P m l), (P m' l') by (unfold K; lia). intros E1 E2. injection E1 as E1 _. injection E2 as E2 _.
    assert (Q : f m l = f m' l') by congruence. unfold f in Q. destruct (B m ltac:(unfold K; lia)). destruct (B m' ltac:(unfold K; lia)).
    assert (EL : l = l').
    { destruct (Nat.lt_trichotomy l l') as [H3|[H3|H3]]; [|exact H3|]; apply lt_le_S in H3; apply le_INR in H3; rewrite S_INR in H3; lra. }
    split; [|exact EL]. subst l'. f_equal. apply INR_eq. apply (Rmult_eq_reg_l (5 / 10 / INR K)); [lra|]. 
    apply Rgt_not_eq. apply Rmult_lt_0_compat; [lra|now apply Rinv_0_lt_compat].
  - now rewrite LB.
  - intros l nsbs ns A1 A2. rewrite LB. cbn [nth_error]. rewrite (nth_labels _ 0 l nsbs ns); [reflexivity|]. now apply nth_combine2.
Qed.
Example C225_demo : exists d, plot_bs_variances demo [[1; 3]; [1; 4]; [1; 8]] = Ok d /\ point d 1 2 = Some (2 + 5 / 10 / 1 * 0, 8) /\ nth_error (labels d) 2 = Some (Level 2 2 4).
Proof. eexists. split; [cbn; reflexivity|]. split; reflexivity. Qed.
(** The plot of the estimator has no row for the total: each level stands above the label of the level before, the first one above the total. *)
Lemma no_total n : forall bs_n moments l_vars rows d, plot_bs_var_log n bs_n moments l_vars rows = Ok d -> rows <> [] ->
  length rows = length bs_n -> length rows = length n ->
  nth_error (labels d) 0 = Some Total /\ forall l nsbs ns, nth_error (labels d) l <> Some (Level (S l) nsbs ns).
Proof.
  intros bs_n moments l_vars rows d E HN E1 E2. unfold plot_bs_var_log, plot_bs_variances in E. destruct (concat (map (@tl R) rows)) as [|x r]; [discriminate|].
  destruct (scatter _ rows) as [p|]; [|discriminate]. cbn in E. injection E as <-. cbn [labels]. split; [reflexivity|]. intros [|l] nsbs ns; cbn [nth_error]; [discriminate|].
  intros E. destruct (nth_error (combine bs_n n) l) as [[u w]|] eqn:Q.
  - rewrite (nth_labels _ 0 l u w Q) in E. injection E as E _ _. lia.
  - apply nth_error_None in Q. rewrite (proj2 (nth_error_None _ l)) in E; [discriminate|]. rewrite map_length, combine_length, seq_length. lia.
Qed.
Theorem C225_scatter_refuted : exists n bs_n moments l_vars rows d, length rows = length bs_n /\ length rows = length n /\
  plot_bs_var_log n bs_n moments l_vars rows = Ok d /\ nth_error (labels d) 0 = Some Total /\ point d 1 0 = Some (0 + 5 / 10 / 1 * 0, nth 1 (nth 0 rows []) 0) /\
  forall l nsbs ns, nth_error (labels d) l <> Some (Level (S l) nsbs ns).
Proof.
  exists [8; 4]%nat, [8; 4]%nat, 2%nat, [[0; 1]; [0; 2]], [[0; 1]; [0; 2]]. eexists. split; [reflexivity|]. split; [reflexivity|].
  split; [cbn; reflexivity|]. split; [reflexivity|]. split; [reflexivity|].
  refine (proj2 (no_total [8; 4]%nat [8; 4]%nat 2 [[0; 1]; [0; 2]] [[0; 1]; [0; 2]] _ _ _ eq_refl eq_refl)); [cbn; reflexivity|discriminate].
Qed.
