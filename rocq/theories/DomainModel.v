(** Estimates of the domain of a quantity: mlmc/estimator.py:275-302 and 344-363. Floats are rational numbers, NaN is None.
    Simplified: the fine values of a (scalar) quantity are given sample by sample, as for quantities without selections, and the
    sample cache is empty. *)
From Verif Require Import Base.
Local Open Scope Q_scope.

(** Increasing order, as np.percentile arranges its values. *)
Fixpoint insert (x : Q) (l : list Q) : list Q :=
  match l with [] => [x] | y :: l' => if Qle_bool x y then x :: l else y :: insert x l' end.
Fixpoint sort (l : list Q) : list Q := match l with [] => [] | x :: l => insert x (sort l) end.
(** np.percentile(l, 100 * p), linear interpolation. No value: IndexError (numpy before 1.22 returns NaN). *)
Definition percentile (p : Q) (l : list Q) : res Q :=
  if negb (Qle_bool 0 p && Qle_bool p 1) then Err ValueError
  else match sort l with
  | [] => Err IndexError
  | s => let h := p * inject_Z (Z.of_nat (length s - 1)) in
         let k := Z.to_nat (Qfloor h) in
         let a := nth k s 0 in
         let b := nth (Nat.min (S k) (length s - 1)) s 0 in
         Ok (a + (b - a) * (h - inject_Z (Qfloor h)))
  end.
(** x[~np.isnan(x)]. *)
Fixpoint finite (l : list (option Q)) : list Q := match l with [] => [] | Some x :: l => x :: finite l | None :: l => finite l end.

(** One range, line 299. *)
Definition range_of (q : Q) (values : list (option Q)) : res (Q * Q) :=
  bind (percentile q (finite values)) (fun lo => bind (percentile (1 - q) (finite values)) (fun hi => Ok (lo, hi))).
Definition qmin (a b : Q) : Q := if Qle_bool a b then a else b.
Definition qmax (a b : Q) : Q := if Qle_bool a b then b else a.
(** np.min(ranges[:, 0]), np.max(ranges[:, 1]), lines 301-302; without ranges the indexing raises IndexError. *)
Definition hull (l : list (Q * Q)) : res (Q * Q) :=
  match l with [] => Err IndexError | r :: l => Ok (fold_left qmin (map fst l) (fst r), fold_left qmax (map snd l) (snd r)) end.
Fixpoint each {A B} (f : A -> res B) (l : list A) : res (list B) :=
  match l with [] => Ok [] | x :: l => bind (f x) (fun y => bind (each f l) (fun ys => Ok (y :: ys))) end.
Definition the_quantile (q : option Q) : Q := match q with None => 1 # 100 | Some q => q end.

(** ** Memory storage: the dictionary of results in the order of insertion. *)
(** sample_storage.py:320-328 [get_n_collected]: n_collected[level_id] is assigned for every level of the dictionary. *)
Fixpoint set_all (r : list (nat * list (option Q))) (n : list nat) : res (list nat) :=
  match r with
  | [] => Ok n
  | (l, v) :: r => if Nat.ltb l (length n) then set_all r (upd n l (fun _ => length v)) else Err IndexError
  end.
Definition n_collected (r : list (nat * list (option Q))) : res (list nat) := set_all r (repeat 0%nat (length r)).
(** Values of next(chunks(n_samples=n)): the first n samples of the first level of the dictionary, sample_storage.py:66-69 and 258-259. *)
Definition first_values {A} (r : list (nat * list A)) (n : nat) : res (list A) :=
  match r with [] => Err PyException | (_, v) :: _ => Ok (firstn n v) end.
(** [Estimate.estimate_domain], lines 275-302, with a memory storage. *)
Definition domain_mem (quantile : option Q) (r : list (nat * list (option Q))) : res (Q * Q) :=
  bind (each (fun l => bind (n_collected r) (fun n => bind (first_values r (nth l n 0%nat)) (range_of (the_quantile quantile)))) (seq 0 (length r))) hull.

(** ** File storage: one group per level, None without the dataset collected_values. *)
(** [Estimate.estimate_domain] with a file storage. collected_n_items (hdf5.py:378-388) returns (not raises) an AttributeError for a level
    without dataset; nothing is caught, and chunks (sample_storage.py:65) raises AssertionError for it. A slice beyond the dataset is cut. *)
Definition domain_hdf (quantile : option Q) (groups : list (option (list (option Q)))) : res (Q * Q) :=
  bind (each (fun l =>
    match nth l groups None with
    | None => Err AssertionError
    | Some v => match nth 0 groups None with None => Err AttributeError | Some v0 => range_of (the_quantile quantile) (firstn (length v) v0) end
    end) (seq 0 (length groups))) hull.

(** ** The function of the module, lines 344-363. *)
(** quantity_spec.py:24-28: the attributes of ChunkSpec; another keyword raises TypeError. *)
Definition chunk_spec_fields : list pystr := [str "chunk_id"; str "chunk_slice"; str "level_id"].
Definition make_chunk_spec (keywords : list pystr) : res unit :=
  if forallb (fun k => if in_dec pystr_eq_dec k chunk_spec_fields then true else false) keywords then Ok tt else Err TypeError.
(** The values of a level, read with all samples (no slice). *)
Definition domain_module (quantile : option Q) (r : list (nat * list (option Q))) : res (Q * Q) :=
  bind (each (fun l =>
     bind (n_collected r) (fun n => bind (match n with [] => Err IndexError | n0 :: _ => Ok n0 end) (fun _ =>
     bind (make_chunk_spec [str "level_id"; str "n_samples"]) (fun _ =>
     match dget r l with None => Err KeyError | Some v => range_of (the_quantile quantile) v end)))) (seq 0 (length r))) hull.
