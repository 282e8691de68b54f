(** Paths into structured types and the declared order of results. *)
From Verif Require Import Base QTypeModel.

Section Spec.
Context {K : Type} (K_eq : forall a b : K, {a = b} + {a <> b}).

(** Access by several keys, one after the other. *)
Fixpoint path_type (t : qtype K) (p : list (key K)) : res (qtype K) :=
  match p with
  | [] => Ok t
  | k :: p' => bind (get_key K_eq t k) (fun qs => path_type (fst qs) p')
  end.
Fixpoint path_rows {R} (t : qtype K) (p : list (key K)) (rows : list R) : res (list R) :=
  match p with
  | [] => Ok rows
  | k :: p' => bind (get_key K_eq t k) (fun qs =>
                 bind (getitem_rows K_eq t k rows) (fun rows' => path_rows (fst qs) p' rows'))
  end.

(** All index tuples of an array in row-major (lexicographic) order. *)
Fixpoint indices (shape : list nat) : list (list nat) :=
  match shape with
  | [] => [[]]
  | n :: sh => flat_map (fun i => map (cons i) (indices sh)) (seq 0 n)
  end.
Definition at_index (ix : list nat) : key K := Index (map (fun i => At (Z.of_nat i)) ix).

(** All keys of a type. *)
Definition keys_of (t : qtype K) : list (key K) :=
  match t with
  | QScalar | QBool => []
  | QArray shape _ => map at_index (indices shape)
  | QTimes times _ => map Key times
  | QField ks _ => map Key ks
  | QDict items => map (fun x => Key (fst x)) items
  end.

(** All full paths, down to single numbers, in declared order. *)
Fixpoint leaves (t : qtype K) : list (list (key K)) :=
  match t with
  | QScalar | QBool => [[]]
  | QArray shape q => flat_map (fun ix => map (cons (at_index ix)) (leaves q)) (indices shape)
  | QTimes times q => flat_map (fun k => map (cons (Key k)) (leaves q)) times
  | QField ks q => flat_map (fun k => map (cons (Key k)) (leaves q)) ks
  | QDict items => flat_map (fun x => map (cons (Key (fst x))) (leaves (snd x))) items
  end.

(** Types without repeated keys whose arrays hold parts of size one. *)
Fixpoint wf (t : qtype K) : Prop :=
  match t with
  | QScalar | QBool => True
  | QArray _ q => size q = 1 /\ wf q
  | QTimes times q => NoDup times /\ wf q
  | QField ks q => NoDup ks /\ wf q
  | QDict items => NoDup (map fst items) /\ fold_right (fun x P => wf (snd x) /\ P) True items
  end.

(** The order in which a simulation writes its numbers. *)
Definition declared (fmt : list (spec K)) : list (K * K * K * list nat) :=
  flat_map (fun s => flat_map (fun t => flat_map (fun l => map (fun ix => (sp_name s, t, l, ix))
    (indices (sp_shape s))) (sp_locs s)) (sp_times s)) fmt.
Definition good_format (fmt : list (spec K)) : Prop :=
  fmt <> [] /\ NoDup (map (@sp_name K) fmt) /\ Forall (fun s => NoDup (sp_times s) /\ NoDup (sp_locs s) /\ sp_locs s <> []) fmt.

(** Consecutive pieces of given lengths. *)
Fixpoint cut {R} (ns : list nat) (rows : list R) : list (list R) :=
  match ns with
  | [] => []
  | n :: r => firstn n rows :: cut r (skipn n rows)
  end.

(** Paths that use names only. *)
Fixpoint named (p : list (key K)) : Prop :=
  match p with [] => True | Key _ :: p' => named p' | Index _ :: _ => False end.

(** One level of structure with distinct keys; an array holds parts of size one. *)
Definition top_ok (t : qtype K) : Prop :=
  match t with
  | QScalar | QBool => False
  | QArray _ q => size q = 1
  | QTimes ks _ | QField ks _ => NoDup ks
  | QDict items => NoDup (map fst items)
  end.

(** Access to one declared number: root[name][time][location][i, j]. *)
Definition declared_path (d : K * K * K * list nat) : list (key K) :=
  let '(n, tm, l, ix) := d in [Key n; Key tm; Key l; at_index ix].

(** Parts given as quantities: one type object has one type, and each part has the rows of its type. *)
Definition coherent {R} (parts : list (part K R)) : Prop :=
  forall x y, In x parts -> In y parts -> p_oid x = p_oid y -> p_type x = p_type y.
Definition sized {R} (parts : list (part K R)) : Prop := Forall (fun x => length (p_rows x) = size (p_type x)) parts.
End Spec.
