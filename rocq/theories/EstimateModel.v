(** The mean estimate. Models mlmc/quantity/quantity_estimate.py:6-80 and QuantityMean, mlmc/quantity/quantity.py:568-651. *)
From Verif Require Import Base QTypeModel QuantityModel NumModel.

(** Number of samples in a chunk; a chunk without components is left out (the model then sees no samples). *)
Definition width {A} (x : list (list A)) : nat := match x with [] => 0 | r :: _ => length r end.

(** quantity_estimate.py:6-14 [mask_nan_samples]: np.any(np.isnan(chunk), axis=0).any(axis=1). *)
Definition nan_mask (x : arr num) : list bool :=
  map (fun i => existsb (fun row => existsb is_nan (nth i row [])) x) (seq 0 (width x)).
Definition mask_nan_samples (x : arr num) : arr num * nat :=
  (map (keep (map negb (nan_mask x))) x, length (filter (fun b => b) (nan_mask x))).

(** Variables of the loop, 36-44. *)
Record est := mkEst { e_sums : option (list (list num) * list (list num)); e_n : list nat; e_rm : list nat }.
Definition est0 (L : nat) : est := mkEst None (repeat 0 L) (repeat 0 L).

(** 63-66. *)
Definition sample_diff (level : nat) (s : list num) : num :=
  match level with O => nth 0 s NaN | S _ => nsub (nth 0 s NaN) (nth 1 s NaN) end.
(** chunk[:, :, 0] and chunk[:, :, 1] exist. *)
Definition has_parts (level : nat) (x : arr num) : bool :=
  let k := length (nth 0 (nth 0 x []) []) in match level with O => 1 <=? k | S _ => 2 <=? k end.
Definition vadd (x y : list num) : list num := map (fun p => nadd (fst p) (snd p)) (combine x y).

(** One pass of the loop 46-69; the chunk is given as what quantity.samples(chunk_spec) does. *)
Definition est_step (qsize L : nat) (s : est) (c : nat * res (arr num)) : res est :=
  let level := fst c in
  bind (snd c) (fun x =>
    let (chunk, n_mask) := mask_nan_samples x in
    if negb (level <? L) then Err IndexError else
    let n := upd (e_n s) level (fun v => v + width chunk) in
    let rm := upd (e_rm s) level (fun v => v + n_mask) in
    if width chunk =? 0 then Ok (mkEst (e_sums s) n rm) else
    if negb (length chunk =? qsize) then Err AssertionError else
    let zeros := repeat (repeat (Fin 0) (length chunk)) L in
    let (ss, sq) := match e_sums s with Some p => p | None => (zeros, zeros) end in
    if negb (has_parts level chunk) then Err IndexError else
    let diff := map (map (sample_diff level)) chunk in
    Ok (mkEst (Some (upd ss level (fun v => vadd v (map nsum diff)),
                     upd sq level (fun v => vadd v (map (fun row => nsum (map nsq row)) diff)))) n rm)).
Fixpoint est_loop (qsize L : nat) (s : est) (cs : list (nat * res (arr num))) : res est :=
  match cs with [] => Ok s | c :: cs' => bind (est_step qsize L s c) (fun s' => est_loop qsize L s' cs') end.

(** 74-81. *)
Definition level_mean (s : list num) (n : nat) : list num := map (fun x => ndivn x n) s.
Definition level_var (s sp : list num) (n : nat) : list num :=
  if 1 <? n then map (fun p => ndivn (nsub (snd p) (ndivn (nsq (fst p)) n)) (n - 1)) (combine s sp)
  else map (fun _ => PInf) s.

(** QuantityMean.__init__, quantity.py:570-586. *)
Record qmean (K : Type) := mkMean { q_type : qtype K; q_means : list (list num); q_vars : list (list num);
                                    q_n : list nat; q_rm : list nat }.
Arguments mkMean {K}. Arguments q_type {K}. Arguments q_means {K}. Arguments q_vars {K}. Arguments q_n {K}. Arguments q_rm {K}.

(** quantity_estimate.py:22-80 [estimate_mean] of a quantity of type t over a storage of L levels. *)
Definition estimate_mean {K} (t : qtype K) (L : nat) (cs : list (nat * res (arr num))) : res (qmean K) :=
  bind (est_loop (size t) L (est0 L) cs) (fun s =>
    match e_sums s with
    | None => Err PyException
    | Some (ss, sq) =>
        Ok (mkMean t (map (fun p => level_mean (fst p) (snd p)) (combine ss (e_n s)))
                   (map (fun p => level_var (fst (fst p)) (snd (fst p)) (snd p)) (combine (combine ss sq) (e_n s)))
                   (e_n s) (e_rm s))
    end).

(** np.sum(x, axis=0) of an array of shape [L, M]. *)
Definition sum_levels (M : nat) (x : list (list num)) : list num := fold_right vadd (repeat (Fin 0) M) x.
(** quantity.py:588-605 [mean], [var]; the reshaping to the shape of an array type is left out. *)
Definition mean {K} (q : qmean K) : list num := sum_levels (size (q_type q)) (q_means q).
Definition var {K} (q : qmean K) : list num :=
  sum_levels (size (q_type q)) (map (fun p => map (fun v => ndivn v (snd p)) (fst p)) (combine (q_vars q) (q_n q))).

(** The estimate of an object of an expression graph, read chunk by chunk: chunk spec (level, chunk id) and the
    stored data of that chunk. *)
Definition estimate_quantity {K} (K_eq : forall a b : K, {a = b} + {a <> b}) (g : graph K num) (a L : nat)
    (cs : list (nat * nat * (nat -> arr num))) : res (qmean K) :=
  estimate_mean (nth a (map n_type g) QScalar) L
    (map (fun c => (fst (fst c), num_of (samples K_eq (snd c) (fst (fst c)) (snd (fst c)) g a))) cs).

(** ** QuantityMean.__getitem__, quantity.py:632-651 *)
(** A key as written: a name, one integer or slice, or a tuple. *)
Inductive mkey (K : Type) := MKey (k : K) | MOne (s : asel) | MTuple (ix : list asel).
Arguments MKey {K}. Arguments MOne {K}. Arguments MTuple {K}.
Definition as_key {K} (k : mkey K) : key K :=
  match k with MKey k => Key k | MOne s => Index [s] | MTuple ix => Index ix end.
(** Rows p, p+1, ... of the first axis of an array whose first axis has length n. *)
Definition block_rows {A} (n : nat) (l : list A) (p : nat) : list A :=
  let b := length l / n in firstn b (skipn (p * b) l).
(** l_means[:, key] for one level of an array type. A tuple selects, as a list of integers does, items of the
    first axis; a tuple with a slice raises IndexError. *)
Definition mean_item {A} (n : nat) (k : list asel) (tuple : bool) (l : list A) : res (list A) :=
  if tuple then
    bind (mapM (fun s => match s with
                         | At i => match norm_at n i with Some p => Ok p | None => Err IndexError end
                         | Range _ _ => Err IndexError end) k) (fun ps =>
      Ok (flat_map (block_rows n l) ps))
  else match k with
       | [s] => match positions n s with Some ps => Ok (flat_map (block_rows n l) ps) | None => Err IndexError end
       | _ => Err IndexError
       end.
Definition mean_getitem {K} (K_eq : forall a b : K, {a = b} + {a <> b}) (q : qmean K) (k : mkey K) : res (qmean K) :=
  bind (get_key K_eq (q_type q) (as_key k)) (fun qs =>
    let sel := fun l : list num =>
      match q_type q, k with
      | QArray (n :: _) _, MOne s => mean_item n [s] false l
      | QArray (n :: _) _, MTuple ix => mean_item n ix true l
      | QArray _ _, _ => Err IndexError
      | _, _ => Ok (firstn (size (fst qs)) (skipn (snd qs) l))
      end in
    bind (mapM sel (q_means q)) (fun ms => bind (mapM sel (q_vars q)) (fun vs =>
      Ok (mkMean (fst qs) ms vs (q_n q) (q_rm q))))).
