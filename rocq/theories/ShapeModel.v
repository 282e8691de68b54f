(** Arrays of results with their shapes: sample_storage.py:261-285, sample_storage_hdf.py:169-184 with hdf5.py:365-376, and
    quantity_types.py:34-49. *)
From Verif Require Import Base.

(** A numpy array: shape and values in row-major order. *)
Record nd (X : Type) := mkNd { sh : list nat; dat : list X }.
Arguments mkNd {X}. Arguments sh {X}. Arguments dat {X}.
Definition prod (s : list nat) : nat := fold_right Nat.mul 1 s.

Section Shape.
Context {X : Type} (d : X).   (* d: never read inside the range of an array *)
Implicit Types a : nd X.

(** a[start:stop]; a 0-dimensional array is refused. *)
Definition row_slice a (start stop : nat) : res (nd X) :=
  match sh a with
  | [] => Err IndexError
  | n :: s => let stop' := Nat.min stop n in
      Ok (mkNd ((stop' - start) :: s) (firstn ((stop' - start) * prod s) (skipn (start * prod s) (dat a))))
  end.
(** a.reshape(s). *)
Definition reshape a (s : list nat) : res (nd X) := if Nat.eqb (prod s) (prod (sh a)) then Ok (mkNd s (dat a)) else Err ValueError.
(** a[:, :1, :]: at least three axes. *)
Definition first_of_axis1 a : res (nd X) :=
  match sh a with
  | n :: p :: M :: r =>
      let w := prod (M :: r) in
      Ok (mkNd (n :: Nat.min 1 p :: M :: r) (flat_map (fun i => firstn (Nat.min 1 p * w) (skipn (i * (p * w)) (dat a))) (seq 0 n)))
  | _ => Err IndexError
  end.
(** a.transpose((2, 0, 1)): exactly three axes. *)
Definition transpose201 a : res (nd X) :=
  match sh a with
  | [n; p; M] => Ok (mkNd [M; n; p] (flat_map (fun m => flat_map (fun i => map (fun j => nth ((i * p + j) * M + m) (dat a) d) (seq 0 p)) (seq 0 n)) (seq 0 M)))
  | _ => Err ValueError
  end.

(** Memory.[sample_pairs_level], sample_storage.py:261-285, from the array self._results[level_id]; [slice]: chunk_slice. The new last axis is
    prod / shape[0] * shape[1], evaluated from the left. *)
Definition mem_read (level : nat) (results : nd X) (slice : option (nat * nat)) : res (nd X) :=
  bind (match slice with Some (a, b) => row_slice results a b | None => Ok results end) (fun chunk =>
  bind (if Nat.eqb (length (sh chunk)) 3 then Ok chunk
        else match sh chunk with
             | n :: p :: _ => reshape chunk [n; p; if Nat.eqb (prod (sh chunk)) (n * p) then 1 else prod (sh chunk) / n * p]
             | _ => Err IndexError
             end) (fun chunk =>
  bind (if Nat.eqb level 0 then first_of_axis1 chunk else Ok chunk) transpose201)).

(** SampleStorageHDF.[sample_pairs_level], sample_storage_hdf.py:169-184, from the dataset collected_values. *)
Definition hdf_read (level : nat) (dataset : nd X) (slice : nat * nat) : res (nd X) :=
  bind (row_slice dataset (fst slice) (snd slice)) (fun chunk =>
  bind (if Nat.eqb level 0 then first_of_axis1 chunk else Ok chunk) transpose201).

(** [keep_dims], quantity_types.py:34-49. *)
Definition keep_dims a : res (nd X) :=
  match rev (sh a) with
  | [q; n] => Ok (mkNd (1 :: sh a) (dat a))
  | q :: n :: _ => reshape a [prod (rev (tl (tl (rev (sh a))))); n; q]
  | _ => Err ValueError
  end.
End Shape.
