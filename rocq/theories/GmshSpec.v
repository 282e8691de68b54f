(** What C60 and C95 say. *)
From Verif Require Import Base FieldModel GmshModel.

Section Spec.
Context {V : Type}.
Variable show : V -> pystr.
Variable rd : pystr -> option V.
(** Numbers are written without white space and are read back; the version number and time written are numbers. *)
Definition float_text (t0 : V) : Prop :=
  (forall x, show x <> [] /\ (forall c, In c (show x) -> is_space c = false) /\ rd (show x) = Some x)
  /\ rd (str "0") = Some t0 /\ rd (str "2.2") <> None.
(** Dictionaries have one entry for a key. *)
Definition is_dict {A B} (d : list (A * B)) : Prop := NoDup (map fst d).
Definition is_mesh (m : @mesh V) : Prop := is_dict (nodes m) /\ is_dict (elements m) /\ is_dict (physical m).
(** Nodes have three coordinates; elements have three tags and nodes at least; names have no white space. *)
Definition plain_nodes (m : @mesh V) : Prop := Forall (fun p => length (snd p) = 3) (nodes m).
Definition plain_elements (m : @mesh V) : Prop :=
  Forall (fun p => let '(_, tags, nds) := snd p in 3 <= length tags + length nds) (elements m).
Definition plain_names (m : @mesh V) : Prop := Forall (fun p => forall c, In c (fst p) -> is_space c = false) (physical m).
Definition same_nodes (m m' : @mesh V) : Prop := forall k, zget (nodes m') k = zget (nodes m) k.
Definition same_elements (m m' : @mesh V) : Prop := forall k, zget (elements m') k = zget (elements m) k.
Definition same_physical (m m' : @mesh V) : Prop := forall n, pget (physical m') n = pget (physical m) n.
(** A name between quotes. *)
Definition in_quotes (n : pystr) : pystr := [""""%char] ++ n ++ [""""%char].
Definition quoted_physical (m m' : @mesh V) : Prop :=
  (forall n, pget (physical m') (in_quotes n) = pget (physical m) n)
  /\ (forall n, pget (physical m') n <> None -> exists n0, n = in_quotes n0).
(** Fields are arrays with a row for each of the elements. *)
Definition is_fields (ids : list Z) (fields : list (pystr * list (list V))) : Prop :=
  NoDup ids /\ ids <> [] /\ is_dict fields
  /\ Forall (fun f => length (snd f) = length ids /\ exists n, Forall (fun r => length r = n) (snd f)) fields.
(** At most four components; names without line ends and without quotes at their ends. *)
Definition plain_field (f : pystr * list (list V)) : Prop :=
  Forall (fun r => length r <= 4) (snd f)
  /\ (forall c, In c (fst f) -> c <> ascii_of_nat 10 /\ c <> ascii_of_nat 13)
  /\ (forall c, hd_error (fst f) = Some c -> c <> """"%char) /\ (forall c, hd_error (rev (fst f)) = Some c -> c <> """"%char).
(** The values of every field at time index 0: those of the row of the element, and none for other numbers. *)
Definition same_fields (t0 : V) (ids : list Z) (fields : list (pystr * list (list V))) (m' : @mesh V) : Prop :=
  (forall n values, pget fields n = Some values ->
     exists d, pget (element_data m') n = Some [(0%Z, (t0, d))]
       /\ (forall i id, nth_error ids i = Some id -> zget d id = nth_error values i)
       /\ (forall id, ~ In id ids -> zget d id = None))
  /\ (forall n, pget fields n = None -> pget (element_data m') n = None).
(** C60. *)
Definition mesh_files : Prop := forall m, is_mesh m ->
  exists m', read rd empty_mesh (write_ascii show m) = Ok m' /\ same_nodes m m' /\ same_elements m m' /\ same_physical m m'.
Definition field_files (t0 : V) : Prop := forall ids fields, is_fields ids fields ->
  exists text m', write_fields show ids fields = Ok text /\ read rd empty_mesh text = Ok m' /\ same_fields t0 ids fields m'.
End Spec.
