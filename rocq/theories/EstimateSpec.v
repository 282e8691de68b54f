(** What the mean estimate is meant to be: sample means and variances of level differences. *)
From Verif Require Import Base QTypeModel QuantityModel QuantitySpec NumModel NumFacts.

(** Data of a chunk by samples: entry [i][m][k]. *)
Definition samples_of (x : arr num) : list (list (list num)) :=
  match x with
  | [] => []
  | r :: _ => map (fun i => map (fun row => nth i row []) x) (seq 0 (length r))
  end.
(** All samples of a level, in the order of the chunks. *)
Definition level_samples (cs : list (nat * arr num)) (l : nat) : list (list (list num)) :=
  flat_map (fun c => if fst c =? l then samples_of (snd c) else []) cs.
(** No component of the fine or coarse part is NaN. *)
Definition usable (s : list (list num)) : bool := forallb (forallb (fun w => negb (is_nan w))) s.
(** The level difference of component m: fine minus coarse, fine alone on level 0. *)
Definition difference (l m : nat) (s : list (list num)) : num :=
  let v := nth m s [] in if l =? 0 then nth 0 v NaN else nsub (nth 0 v NaN) (nth 1 v NaN).
Definition used (cs : list (nat * arr num)) (l : nat) : list (list (list num)) := filter usable (level_samples cs l).
Definition differences (cs : list (nat * arr num)) (l m : nat) : list num := map (difference l m) (used cs l).

(** Chunks of data of M components for a storage with L levels: fine values on level 0, fine and coarse on the others. *)
Definition parts (l : nat) : nat := if l =? 0 then 1 else 2.
Definition chunks_ok (M L : nat) (cs : list (nat * arr num)) : Prop :=
  forall l x, In (l, x) cs -> l < L /\ exists N, shaped M N (parts l) x.
(** The chunk list as read without errors. *)
Definition read (cs : list (nat * arr num)) : list (nat * res (arr num)) := map (fun c => (fst c, Ok (snd c))) cs.

(** Sample mean and unbiased sample variance of real numbers. *)
Definition rmean (d : list R) : R := (rsum d / INR (length d))%R.
Definition rvar (d : list R) : R := (rsum (map (fun x => (x - rmean d) ^ 2) d) / (INR (length d) - 1))%R.

(** Entry of a table by level and component. *)
Definition cell (x : list (list num)) (l m : nat) : num := nth m (nth l x []) NaN.
Definition finite (x : num) : Prop := exists r, x = Fin r.

(** ** Linear combinations and telescoping *)
Definition comb {A B C} (f : A -> B -> C) (x : list A) (y : list B) : list C := map (fun p => f (fst p) (snd p)) (combine x y).
Definition lin (a b : R) (u v : num) : num := nadd (nmul (Fin a) u) (nmul (Fin b) v).
(** a X + b Y, number by number, chunk by chunk. *)
Definition lin_chunks (a b : R) (cs1 cs2 : list (nat * arr num)) : list (nat * arr num) :=
  comb (fun c1 c2 => (fst c1, comb (comb (comb (lin a b))) (snd c1) (snd c2))) cs1 cs2.
(** The same chunk layout. *)
Definition aligned (M : nat) (cs1 cs2 : list (nat * arr num)) : Prop :=
  Forall2 (fun c1 c2 => fst c1 = fst c2 /\ exists N, shaped M N (parts (fst c1)) (snd c1) /\ shaped M N (parts (fst c1)) (snd c2)) cs1 cs2.
(** The same samples contain NaN. *)
Definition same_mask (L : nat) (cs1 cs2 : list (nat * arr num)) : Prop :=
  forall l, l < L -> map usable (level_samples cs1 l) = map usable (level_samples cs2 l).
(** No infinite values. *)
Definition no_inf (cs : list (nat * arr num)) : Prop :=
  forall l x row s w, In (l, x) cs -> In row x -> In s row -> In w s -> w = NaN \/ finite w.
(** No NaN. *)
Definition no_nan (cs : list (nat * arr num)) : Prop :=
  forall l x row s w, In (l, x) cs -> In row x -> In s row -> In w s -> w <> NaN.
(** Fine (j = 0) or coarse (j = 1) values of component m over the samples used at level l. *)
Definition values (cs : list (nat * arr num)) (j l m : nat) : list num := map (fun s => nth j (nth m s []) NaN) (used cs l).
