(** Facts about polynomials and composite rules. *)
From Coq Require Import Reals Lra.
From Coquelicot Require Import Coquelicot.
From Verif Require Import Base BaseFacts QuadModel QuadSpec.
Local Open Scope R_scope.

(** * Polynomials *)
Lemma poly_le n m f : (n <= m)%nat -> poly n f -> poly m f.
Proof. intros H (c & L & E). exists c. split; [lia|exact E]. Qed.
Lemma poly_ext n f g : (forall x, f x = g x) -> poly n f -> poly n g.
Proof. intros H (c & L & E). exists c. split; [exact L|]. intros x. now rewrite <- H. Qed.
Lemma poly_const c : poly 1 (fun _ => c).
Proof. exists [c]. split; [cbn; lia|]. intros x. cbn. ring. Qed.
Lemma poly_zero n : poly n (fun _ => 0).
Proof. exists []. split; [cbn; lia|reflexivity]. Qed.
Fixpoint padd (c d : list R) : list R :=
  match c, d with [], _ => d | _, [] => c | a :: c, b :: d => (a + b) :: padd c d end.
Lemma padd_eval c d x : peval (padd c d) x = peval c x + peval d x.
Proof. revert d. induction c as [|a c IH]; intros [|b d]; cbn [padd peval]; try ring. rewrite IH. ring. Qed.
Lemma padd_length c d : length (padd c d) = Nat.max (length c) (length d).
Proof. revert d. induction c as [|a c IH]; intros [|b d]; cbn [padd length]; try lia. rewrite IH. lia. Qed.
Lemma poly_add n f g : poly n f -> poly n g -> poly n (fun x => f x + g x).
Proof. intros (c & L & E) (d & M & F). exists (padd c d). split; [rewrite padd_length; lia|]. intros x. now rewrite padd_eval, E, F. Qed.
Lemma poly_scal n k f : poly n f -> poly n (fun x => k * f x).
Proof.
  intros (c & L & E). exists (map (Rmult k) c). split; [now rewrite map_length|]. intros x. rewrite E. clear.
  induction c as [|a c IH]; cbn [map peval]; [ring|]. rewrite <- IH. ring.
Qed.
Lemma poly_shift n f : poly n f -> poly (S n) (fun x => x * f x).
Proof. intros (c & L & E). exists (0 :: c). split; [cbn; lia|]. intros x. cbn [peval]. rewrite E. ring. Qed.
Lemma poly_S n f : poly (S n) f -> exists a g, poly n g /\ forall x, f x = a + x * g x.
Proof.
  intros ([|a c] & L & E).
  - exists 0, (fun _ => 0). split; [apply poly_zero|]. intros x. rewrite E. cbn. ring.
  - exists a, (peval c). split; [exists c; split; [cbn in L; lia|reflexivity]|]. intros x. now rewrite E.
Qed.
Lemma poly_0 f : poly 0 f -> forall x, f x = 0.
Proof. intros ([|a c] & L & E) x; [now rewrite E|cbn in L; lia]. Qed.
Lemma poly_mul n f : poly n f -> forall m g, poly m g -> poly (pred (n + m)) (fun x => f x * g x).
Proof.
  intros Hf m g Hg. revert f Hf. induction n as [|n IH]; intros f Hf.
  - apply (poly_ext _ (fun _ => 0)); [|apply poly_zero]. intros x. rewrite (poly_0 f Hf). ring.
  - destruct (poly_S n f Hf) as (a & h & Hh & E). apply (poly_ext _ (fun x => a * g x + x * (h x * g x))); [intros x; rewrite E; ring|].
    cbn [Nat.add Nat.pred]. apply poly_add; [apply (poly_le m); [lia|now apply poly_scal]|].
    destruct (Nat.eq_dec (n + m) 0) as [Z|Z].
    + apply (poly_ext _ (fun _ => 0)); [|apply poly_zero]. intros x. replace n with O in Hh by lia. rewrite (poly_0 h Hh). ring.
    + replace (n + m)%nat with (S (pred (n + m))) by lia. apply poly_shift. now apply IH.
Qed.
Lemma poly_affine n f u v : poly n f -> poly n (fun x => f (u * x + v)).
Proof.
  revert f. induction n as [|n IH]; intros f Hf.
  - apply (poly_ext _ (fun _ => 0)); [|apply poly_zero]. intros x. now rewrite (poly_0 f Hf).
  - destruct (poly_S n f Hf) as (a & g & Hg & E). apply (poly_ext _ (fun x => a + (u * (x * g (u * x + v)) + v * g (u * x + v)))).
    + intros x. rewrite E. ring.
    + apply poly_add; [apply (poly_le 1); [lia|apply poly_const]|]. apply poly_add.
      * apply poly_scal, (poly_shift n (fun x => g (u * x + v))). now apply IH.
      * apply poly_scal. apply (poly_le n); [lia|]. now apply IH.
Qed.
Lemma poly_pow i : poly (S i) (fun x => x ^ i).
Proof. induction i as [|i IH]; [exact (poly_const 1)|]. exact (poly_shift _ _ IH). Qed.
Lemma poly_continuous n f x : poly n f -> continuous f x.
Proof.
  intros (c & _ & E). apply continuous_ext with (peval c); [intros y; now rewrite E|]. clear E. induction c as [|a c IH].
  - apply (continuous_const (0 : R)).
  - apply (continuous_plus (fun _ => a) (fun y : R => y * peval c y)); [apply continuous_const|].
    apply (continuous_mult (fun y : R => y) (peval c)); [apply continuous_id|exact IH].
Qed.
Lemma poly_integrable n f a b : poly n f -> ex_RInt f a b.
Proof. intros Hf. apply (@ex_RInt_continuous R_CompleteNormedModule). intros z _. now apply (poly_continuous n). Qed.

(** * Sums *)
Lemma total_cons x l : total (x :: l) = x + total l. Proof. reflexivity. Qed.
Lemma total_app a b : total (a ++ b) = total a + total b.
Proof. induction a as [|x a IH]; cbn [app]; [cbn; ring|]. rewrite !total_cons, IH. ring. Qed.
Lemma total_ext {A} (f g : A -> R) l : (forall x, In x l -> f x = g x) -> total (map f l) = total (map g l).
Proof. intros H. f_equal. now apply map_ext_in. Qed.
Lemma total_add {A} (f g : A -> R) l : total (map (fun x => f x + g x) l) = total (map f l) + total (map g l).
Proof. induction l as [|x l IH]; cbn [map]; [cbn; ring|]. rewrite !total_cons, IH. ring. Qed.
Lemma total_scal {A} k (f : A -> R) l : total (map (fun x => k * f x) l) = k * total (map f l).
Proof. induction l as [|x l IH]; cbn [map]; [cbn; ring|]. rewrite !total_cons, IH. ring. Qed.
Lemma total_perm a b : Permutation a b -> total a = total b.
Proof. induction 1; rewrite ?total_cons; lra. Qed.

Lemma applied_ext f g xs ws : (forall x, In x xs -> f x = g x) -> applied f xs ws = applied g xs ws.
Proof. intros H. apply total_ext. intros [x v] Hx. cbn [fst snd]. rewrite H; [reflexivity|]. now apply in_combine_l in Hx. Qed.
Lemma applied_add f g xs ws : applied (fun x => f x + g x) xs ws = applied f xs ws + applied g xs ws.
Proof. unfold applied. rewrite <- total_add. apply total_ext. intros p _. ring. Qed.
Lemma applied_scal k f xs ws : applied (fun x => k * f x) xs ws = k * applied f xs ws.
Proof. unfold applied. rewrite <- total_scal. apply total_ext. intros p _. ring. Qed.

Lemma RInt_eq (f g : R -> R) (a b : R) : (forall x, f x = g x) -> RInt f a b = RInt g a b.
Proof. intros H. apply RInt_ext. intros x _. apply H. Qed.
(** * Exactness of the base rule *)
Lemma base_exact D pt w : exact_rule D pt w -> forall f, poly D f -> applied f pt w = RInt f (-1) 1.
Proof.
  intros [_ H].
  assert (G : forall n k f, (n + k <= D)%nat -> poly n f -> applied (fun x => x ^ k * f x) pt w = RInt (fun x => x ^ k * f x) (-1) 1).
  { induction n as [|n IH]; intros k f Hk Hf.
    - rewrite (applied_ext _ (fun x => 0 * 1)) by (intros x _; rewrite (poly_0 f Hf); ring). rewrite (applied_scal 0 (fun _ => 1)).
      rewrite (RInt_eq _ (fun _ => 0)) by (intros x; rewrite (poly_0 f Hf); ring). rewrite RInt_const. unfold scal. cbn. unfold mult. cbn. ring.
    - destruct (poly_S n f Hf) as (a & g & Hg & E).
      rewrite (applied_ext _ (fun x => a * x ^ k + x ^ (S k) * g x)) by (intros x _; rewrite E; cbn [pow]; ring).
      rewrite (RInt_eq _ (fun x => plus (scal a (x ^ k)) (x ^ (S k) * g x))) by (intros x; rewrite E; unfold plus, scal; cbn; unfold mult; cbn; ring).
      assert (I1 : ex_RInt (fun x => x ^ k) (-1) 1) by (apply (poly_integrable (S k)), poly_pow).
      assert (I2 : ex_RInt (fun x => x ^ (S k) * g x) (-1) 1) by (apply (poly_integrable _ _ _ _ (poly_mul _ _ (poly_pow (S k)) _ _ Hg))).
      rewrite (RInt_plus (fun x => scal a (x ^ k)) (fun x => x ^ S k * g x)); [|now apply (ex_RInt_scal (fun x => x ^ k))|exact I2].
      rewrite (RInt_scal (fun x => x ^ k)) by exact I1. rewrite applied_add, applied_scal, H, IH by (auto; lia). reflexivity. }
  intros f Hf. specialize (G D O f ltac:(lia) Hf). rewrite (applied_ext _ f) in G by (intros x _; cbn; ring).
  rewrite (RInt_eq _ f) in G by (intros x; cbn; ring). exact G.
Qed.

(** * The composite rule *)
Section Composite.
Variables (D : nat) (pt w : list R).
Hypothesis Hr : exact_rule D pt w.
Definition panel (f : R -> R) (ab : R * R) : R :=
  applied (fun t => (snd ab - fst ab) / 2 * f ((snd ab - fst ab) / 2 * t + (fst ab + snd ab) / 2)) pt w.
Lemma combine_app {A B} (a1 a2 : list A) (b1 b2 : list B) : length a1 = length b1 -> combine (a1 ++ a2) (b1 ++ b2) = combine a1 b1 ++ combine a2 b2.
Proof. revert b1. induction a1 as [|x a1 IH]; intros [|y b1] H; try discriminate; [reflexivity|]. cbn. f_equal. apply IH. now injection H. Qed.
Lemma combine_map {A B C D'} (f : A -> C) (g : B -> D') (a : list A) (b : list B) : combine (map f a) (map g b) = map (fun p => (f (fst p), g (snd p))) (combine a b).
Proof. revert b. induction a as [|x a IH]; intros [|y b]; cbn; try reflexivity. now rewrite IH. Qed.
Lemma composite_panels f ps : applied f (points pt ps) (weights w ps) = total (map (panel f) ps).
Proof.
  induction ps as [|[a b] ps IH]; [reflexivity|]. unfold points, weights. cbn [flat_map fst snd map]. fold (points pt ps) (weights w ps).
  unfold applied. rewrite combine_app by (rewrite !map_length; apply Hr). rewrite map_app, total_app. fold (applied f (points pt ps) (weights w ps)). rewrite IH.
  cbn [total fold_right]. fold (total (map (panel f) ps)). f_equal. rewrite combine_map, map_map. unfold panel, applied. cbn [fst snd]. apply total_ext.
  intros [t v] _. cbn [fst snd]. replace ((t + 1) / 2 * (b - a) + a) with ((b - a) / 2 * t + (a + b) / 2) by field. field.
Qed.
Lemma panel_exact f a b : poly D f -> panel f (a, b) = RInt f a b.
Proof.
  intros Hf. unfold panel. cbn [fst snd]. rewrite (base_exact D pt w Hr).
  - rewrite (RInt_ext _ (fun t => scal ((b - a) / 2) (f ((b - a) / 2 * t + (a + b) / 2)))) by (intros; reflexivity).
    etransitivity; [apply (RInt_comp_lin f ((b - a) / 2) ((a + b) / 2) (-1) 1)|].
    + apply (poly_integrable D). exact Hf. + f_equal; field.
  - apply poly_scal. apply (poly_affine D f ((b - a) / 2) ((a + b) / 2)). exact Hf.
Qed.
Lemma chain_exact f a b qs : poly D f -> chain a b qs -> total (map (panel f) qs) = RInt f a b.
Proof.
  intros Hf. revert a. induction qs as [|[x y] qs IH]; intros a H.
  - cbn in H. subst b. rewrite RInt_point. reflexivity.
  - destruct H as (-> & _ & H). cbn [map total fold_right]. fold (total (map (panel f) qs)). rewrite panel_exact by exact Hf. rewrite (IH y H).
    rewrite <- (RInt_Chasles f a y b) by (eapply poly_integrable; eauto). reflexivity.
Qed.
Lemma composite_exact f a b ps : poly D f -> tiles a b ps -> applied f (points pt ps) (weights w ps) = RInt f a b.
Proof.
  intros Hf (qs & Hp & Hc). rewrite composite_panels. rewrite (total_perm _ (map (panel f) qs)) by now apply Permutation_map. now apply chain_exact.
Qed.
End Composite.

Lemma chain_inside a b qs : chain a b qs -> a <= b /\ forall x y, In (x, y) qs -> a <= x /\ x < y /\ y <= b.
Proof.
  revert a. induction qs as [|[x y] qs IH]; intros a H.
  - cbn in H. split; [lra|intros ? ? []].
  - destruct H as (-> & Hl & H). destruct (IH y H) as [L G]. split; [lra|]. intros u v [E|E].
    + injection E as <- <-. lra. + destruct (G u v E). lra.
Qed.
Lemma tiles_inside a b ps : tiles a b ps -> a <= b /\ forall x y, In (x, y) ps -> a <= x /\ x < y /\ y <= b.
Proof.
  intros (qs & Hp & Hc). destruct (chain_inside a b qs Hc) as [L G]. split; [exact L|]. intros x y H. apply G. eapply Permutation_in; eauto.
Qed.
Lemma points_inside pt w a b ps x : sound_rule pt w -> tiles a b ps -> In x (points pt ps) -> a <= x <= b.
Proof.
  intros [Hp _] Ht Hx. unfold points in Hx. apply in_flat_map in Hx as ([u v] & Hi & Hx). apply in_map_iff in Hx as (t & <- & Hx). cbn [fst snd].
  destruct (proj2 (tiles_inside a b ps Ht) u v Hi) as (A & B & C). specialize (Hp t Hx).
  assert (0 <= (t + 1) / 2 * (v - u)) by (apply Rmult_le_pos; lra).
  assert ((t + 1) / 2 * (v - u) <= 1 * (v - u)) by (apply Rmult_le_compat_r; lra). lra.
Qed.
Lemma weights_positive pt w a b ps v : sound_rule pt w -> tiles a b ps -> In v (weights w ps) -> 0 < v.
Proof.
  intros [_ Hw] Ht Hx. unfold weights in Hx. apply in_flat_map in Hx as ([x y] & Hi & Hx). apply in_map_iff in Hx as (t & <- & Hx). cbn [fst snd].
  destruct (proj2 (tiles_inside a b ps Ht) x y Hi) as (A & B & C). specialize (Hw t Hx). apply Rmult_lt_0_compat; [|lra]. apply Rmult_lt_0_compat; lra.
Qed.
Lemma applied_one xs ws : length xs = length ws -> applied (fun _ => 1) xs ws = total ws.
Proof.
  revert ws. induction xs as [|x xs IH]; intros [|v ws] H; try discriminate; [reflexivity|]. injection H as H. unfold applied. cbn [combine map total fold_right fst snd].
  fold (total (map (fun p : R * R => 1 * snd p) (combine xs ws))) (total ws). unfold applied in IH. rewrite (IH ws H). ring.
Qed.
Lemma lengths pt w ps : length pt = length w -> length (points pt ps) = length (weights w ps).
Proof. intros H. induction ps as [|p ps IH]; [reflexivity|]. unfold points, weights in *. cbn [flat_map]. rewrite !app_length, !map_length, IH, H. reflexivity. Qed.
