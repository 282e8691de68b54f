(** Mesh and field files: class GmshIO of mlmc/tool/gmsh_io.py. *)
From Coq Require Import DecimalString.
From Verif Require Import Base FieldModel.

(** ** Text *)
Definition nl : ascii := ascii_of_nat 10.
Definition cr : ascii := ascii_of_nat 13.
(** Characters removed by strip() and separating words in split(). *)
Definition is_space (c : ascii) : bool :=
  let k := nat_of_ascii c in (Nat.leb 9 k && Nat.leb k 13) || (Nat.leb 28 k && Nat.leb k 32) || Nat.eqb k 133 || Nat.eqb k 160.
Definition is_quote (c : ascii) : bool := Ascii.eqb c """"%char.
Fixpoint drop (p : ascii -> bool) (s : pystr) : pystr :=
  match s with [] => [] | c :: s' => if p c then drop p s' else s end.
Definition strip (p : ascii -> bool) (s : pystr) : pystr := rev (drop p (rev (drop p s))).
Fixpoint split_aux (cur : pystr) (s : pystr) : list pystr :=
  match s with
  | [] => match cur with [] => [] | _ => [rev cur] end
  | c :: s' =>
      if is_space c then match cur with [] => split_aux [] s' | _ => rev cur :: split_aux [] s' end
      else split_aux (c :: cur) s'
  end.
Definition split (s : pystr) : list pystr := split_aux [] s.
(** Lines of a file opened as text: line feed, carriage return or both end a line. *)
Fixpoint split_lines (s : pystr) : list pystr :=
  match s with
  | [] => [[]]
  | c :: s' =>
      if Ascii.eqb c nl then [] :: split_lines s'
      else if Ascii.eqb c cr then
        match s' with
        | d :: s'' => if Ascii.eqb d nl then [] :: split_lines s'' else [] :: split_lines s'
        | [] => [] :: split_lines s'
        end
      else match split_lines s' with l :: ls => (c :: l) :: ls | [] => [[c]] end
  end.
Definition unlines (ls : list pystr) : pystr := flat_map (fun l => l ++ [nl]) ls.
Fixpoint join (sep : pystr) (ws : list pystr) : pystr :=
  match ws with [] => [] | [w] => w | w :: ws' => w ++ sep ++ join sep ws' end.

(** str(z) or '%d' % z, and int(text) for decimal digits with an optional minus; other texts accepted by python (plus sign,
    underscores) give None here. *)
Definition show_int (z : Z) : pystr := str (NilZero.string_of_int (Z.to_int z)).
Definition read_int (s : pystr) : option Z := option_map Z.of_int (NilZero.int_of_string (string_of_list_ascii s)).
Fixpoint all_some {A} (l : list (option A)) : option (list A) :=
  match l with
  | [] => Some []
  | None :: _ => None
  | Some a :: l' => match all_some l' with Some r => Some (a :: r) | None => None end
  end.

(** Dictionaries with integer keys in insertion order. *)
Fixpoint zget {A} (d : list (Z * A)) (k : Z) : option A :=
  match d with [] => None | (n, v) :: d' => if Z.eqb k n then Some v else zget d' k end.
Fixpoint zset {A} (d : list (Z * A)) (k : Z) (v : A) : list (Z * A) :=
  match d with [] => [(k, v)] | (n, w) :: d' => if Z.eqb k n then (n, v) :: d' else (n, w) :: zset d' k v end.

(** l[a:b] and l[a:] of python. *)
Definition clamp (n : nat) (z : Z) : nat :=
  if (z <? 0)%Z then Z.to_nat (Z.max 0 (Z.of_nat n + z)) else Nat.min (Z.to_nat z) n.
Definition slice {A} (l : list A) (a b : Z) : list A :=
  let i := clamp (length l) a in firstn (clamp (length l) b - i) (skipn i l).
Definition slice_from {A} (l : list A) (a : Z) : list A := skipn (clamp (length l) a) l.

(** sorted() of dictionary items by key. *)
Fixpoint insert_by {A} (leb : A -> A -> bool) (x : A) (l : list A) : list A :=
  match l with [] => [x] | y :: l' => if leb x y then x :: l else y :: insert_by leb x l' end.
Definition sort_by {A} (leb : A -> A -> bool) (l : list A) : list A := fold_right (insert_by leb) [] l.
Fixpoint str_leb (a b : pystr) : bool :=
  match a, b with
  | [], _ => true
  | _ :: _, [] => false
  | c :: a', d :: b' =>
      if Nat.ltb (nat_of_ascii c) (nat_of_ascii d) then true
      else if Nat.eqb (nat_of_ascii c) (nat_of_ascii d) then str_leb a' b' else false
  end.

Section Gmsh.
(** Floating point numbers, str(x) and float(text) (None: ValueError). *)
Context {V : Type}.
Variable show : V -> pystr.
Variable rd : pystr -> option V.

(** Members of GmshIO, gmsh_io.py:41-46. Keys of the inner dictionary of element_data are time indices; the code reads them, the
    number of components and the number of elements with float(), here as integers. *)
Definition element := (Z * list Z * list Z)%type.
Record mesh := mkMesh {
  nodes : list (Z * list V);
  elements : list (Z * element);
  physical : list (pystr * (Z * Z));
  element_data : list (pystr * list (Z * (V * list (Z * list V)))) }.
Definition empty_mesh : mesh := mkMesh [] [] [] [].

(** ** Reading *)
Definition readline (ls : list pystr) : pystr * list pystr := match ls with [] => ([], []) | l :: r => (l, r) end.
Definition need {A} (o : option A) (e : exn) : res A := match o with Some a => Ok a | None => Err e end.
(** columns[0] of the next line, as an integer. *)
Definition head_int (ls : list pystr) : res (Z * list pystr) :=
  let '(l, r) := readline ls in
  match split (strip is_space l) with [] => Err IndexError | c :: _ => bind (need (read_int c) ValueError) (fun z => Ok (z, r)) end.
Definition head_float (ls : list pystr) : res (V * list pystr) :=
  let '(l, r) := readline ls in
  match split (strip is_space l) with [] => Err IndexError | c :: _ => bind (need (rd c) ValueError) (fun z => Ok (z, r)) end.
(** [read_element_data_head], gmsh_io.py:48-70: field, time, t_idx, n_comp and the remaining lines; the number of elements is not
    used. *)
Definition read_head (ls : list pystr) : res (pystr * V * Z * Z * list pystr) :=
  bind (head_int ls) (fun '(n_str, ls) =>
  if negb (n_str =? 1)%Z then Err AssertionError else
  let '(l, ls) := readline ls in
  let field := strip is_quote (strip is_space l) in
  bind (head_int ls) (fun '(n_real, ls) =>
  if negb (n_real =? 1)%Z then Err AssertionError else
  bind (head_float ls) (fun '(time, ls) =>
  bind (head_int ls) (fun '(n_int, ls) =>
  if negb (n_int =? 3)%Z then Err AssertionError else
  bind (head_int ls) (fun '(t_idx, ls) =>
  bind (head_int ls) (fun '(n_comp, ls) =>
  bind (head_int ls) (fun '(_, ls) => Ok (field, time, t_idx, n_comp, ls)))))))).

(** Local variables of read: readmode, ftype (None: not yet assigned), and field, time index and number of components of
    self.current_elem_data. *)
Record rstate := mkR { msh : mesh; mode : nat; ftype : option Z; cur : pystr * Z * Z }.
Definition set_mode (s : rstate) (k : nat) : rstate := mkR (msh s) k (ftype s) (cur s).

(** Lines 90-109: a line starting with a dollar; [ls] the lines after it. *)
Definition section_line (line : pystr) (ls : list pystr) (s : rstate) : res (rstate * list pystr) :=
  let is t := if pystr_eq_dec line (str t) then true else false in
  if is "$NOD"%string || is "$Nodes"%string then Ok (set_mode s 1, ls)
  else if is "$ELM"%string then Ok (set_mode s 2, ls)
  else if is "$Elements"%string then Ok (set_mode s 3, ls)
  else if is "$MeshFormat"%string then Ok (set_mode s 4, ls)
  else if is "$PhysicalNames"%string then Ok (set_mode s 5, ls)
  else if is "$ElementData"%string then
    bind (read_head ls) (fun '(field, time, t_idx, n_comp, ls) =>
    let m := msh s in
    let times := match pget (element_data m) field with Some t => t | None => [] end in
    match zget times t_idx with
    | Some _ => Err AssertionError
    | None =>
        Ok (mkR (mkMesh (nodes m) (elements m) (physical m) (pset (element_data m) field (zset times t_idx (time, [])))) 6 (ftype s)
              (field, t_idx, n_comp), ls)
    end)
  else Ok (set_mode s 0, ls).

(** Lines 112-116. *)
Definition data_row (cols : list pystr) (s : rstate) : res rstate :=
  match cols with
  | [] => Err IndexError
  | c :: vs =>
      bind (need (read_int c) ValueError) (fun id =>
      bind (need (all_some (map rd vs)) ValueError) (fun row =>
      let '(field, t_idx, n_comp) := cur s in
      if negb (Z.of_nat (length row) =? n_comp)%Z then Err AssertionError else
      let m := msh s in
      let ed := match pget (element_data m) field with
                | Some times => match zget times t_idx with
                                | Some (time, d) => pset (element_data m) field (zset times t_idx (time, zset d id row))
                                | None => element_data m end
                | None => element_data m end in
      Ok (mkR (mkMesh (nodes m) (elements m) (physical m) ed) (mode s) (ftype s) (cur s))))
  end.
(** Lines 118-120. *)
Definition physical_row (cols : list pystr) (s : rstate) : res rstate :=
  match cols with
  | [dim; id; name] =>
      bind (need (read_int id) ValueError) (fun id =>
      bind (need (read_int dim) ValueError) (fun dim =>
      let m := msh s in
      Ok (mkR (mkMesh (nodes m) (elements m) (pset (physical m) name (id, dim)) (element_data m)) (mode s) (ftype s) (cur s))))
  | _ => Ok s
  end.
(** Lines 122-129; struct.unpack of a text raises. *)
Definition format_row (cols : list pystr) (s : rstate) : res rstate :=
  match cols with
  | [vno; ft; dsize] =>
      bind (need (rd vno) ValueError) (fun _ =>
      bind (need (read_int ft) ValueError) (fun ft =>
      bind (need (read_int dsize) ValueError) (fun _ =>
      if ((-2 <=? ft) && (ft <=? 1))%Z%bool then Ok (mkR (msh s) (mode s) (Some ft) (cur s)) else Err IndexError)))
  | [] => Err IndexError
  | _ => Err TypeError
  end.
(** Lines 130-144. Errors in numbers are caught and the handler refers to an undefined name. Binary files: struct.unpack of data read
    from a file opened as text raises (a count of zero, where it is not reached, is not distinguished). *)
Definition node_row (cols : list pystr) (s : rstate) : res rstate :=
  match ftype s with
  | None => Err UnboundLocalError
  | Some ft =>
      if (ft =? 0)%Z && Nat.eqb (length cols) 4 then
        match cols with
        | [] => Err IndexError
        | c :: vs =>
            match read_int c, all_some (map rd vs) with
            | Some id, Some xs =>
                let m := msh s in
                Ok (mkR (mkMesh (zset (nodes m) id xs) (elements m) (physical m) (element_data m)) (mode s) (ftype s) (cur s))
            | _, _ => Err NameError
            end
        end
      else if (ft =? 1)%Z then Err TypeError
      else Ok s
  end.
(** Lines 145-164. *)
Definition element_row (cols : list pystr) (s : rstate) : res rstate :=
  match all_some (map read_int cols) with
  | None => Err NameError
  | Some ns =>
      match ns with
      | id :: ty :: _ =>
          bind (if Nat.eqb (mode s) 2 then Ok (slice ns 2 4, slice_from ns 5)
                else match nth_error ns 2 with
                     | Some ntags => Ok (slice ns 3 (3 + ntags), slice_from ns (3 + ntags))
                     | None => Err IndexError end) (fun '(tags, nds) =>
          let m := msh s in
          Ok (mkR (mkMesh (nodes m) (zset (elements m) id (ty, tags, nds)) (physical m) (element_data m)) (mode s) (ftype s) (cur s)))
      | _ => Err ValueError
      end
  end.
(** Lines 110-183: a line in a section. Binary elements as binary nodes. *)
Definition data_line (line : pystr) (s : rstate) : res rstate :=
  let cols := split line in
  bind (if Nat.eqb (mode s) 6 then data_row cols s else Ok s) (fun s =>
  bind (if Nat.eqb (mode s) 5 then physical_row cols s else Ok s) (fun s =>
  bind (if Nat.eqb (mode s) 4 then format_row cols s else Ok s) (fun s =>
  if Nat.eqb (mode s) 1 then node_row cols s
  else match ftype s with
       | None => Err UnboundLocalError
       | Some ft =>
           if (ft =? 0)%Z && Nat.ltb 1 (mode s) && Nat.ltb 5 (length cols) then element_row cols s
           else if Nat.eqb (mode s) 3 && (ft =? 1)%Z then Err TypeError
           else Ok s
       end))).

(** [read], gmsh_io.py:73-189: lines are read until an empty one, that one included. [fuel] is a number of lines larger than that of
    the file. *)
Definition dollar (line : pystr) : bool := match line with c :: _ => Ascii.eqb c "$"%char | [] => false end.
Definition step (line : pystr) (rest : list pystr) (s : rstate) : res (rstate * list pystr) :=
  if dollar line then section_line line rest s
  else if Nat.eqb (mode s) 0 then Ok (s, rest)
  else bind (data_line line s) (fun s => Ok (s, rest)).
Fixpoint read_loop (fuel : nat) (ls : list pystr) (s : rstate) : res rstate :=
  match fuel with
  | 0 => Err PyException
  | S fuel' =>
      let '(l, rest) := readline ls in
      let line := strip is_space l in
      bind (step line rest s) (fun '(s, rest) =>
      match line with [] => Ok s | _ => read_loop fuel' rest s end)
  end.
Definition read (m : mesh) (text : pystr) : res mesh :=
  let ls := split_lines text in
  bind (read_loop (S (length ls)) ls (mkR m 0 None ([], 0%Z, 0%Z))) (fun s => Ok (msh s)).

(** ** Writing *)
Definition sp : pystr := [" "%char].
Definition quoted (s : pystr) : pystr := """"%char :: s ++ [""""%char].
Definition format_lines : list pystr := [str "$MeshFormat"; str "2.2 0 8"; str "$EndMeshFormat"].
Definition physical_line (p : pystr * (Z * Z)) : pystr :=
  let '(name, (id, dim)) := p in show_int dim ++ sp ++ show_int id ++ sp ++ quoted name.
Definition node_line (p : Z * list V) : pystr := show_int (fst p) ++ sp ++ join sp (map show (snd p)).
Definition element_line (p : Z * element) : pystr :=
  let '(id, (ty, tags, nds)) := p in
  show_int id ++ sp ++ show_int ty ++ sp ++ show_int (Z.of_nat (length tags)) ++ sp ++ join sp (map show_int tags) ++ sp ++ join sp (map show_int nds).
(** [write_ascii], gmsh_io.py:191-217: the text written. *)
Definition count {A} (l : list A) : pystr := show_int (Z.of_nat (length l)).
Definition write_ascii (m : mesh) : pystr :=
  unlines (format_lines
    ++ [str "$PhysicalNames"; count (physical m)]
    ++ map physical_line (sort_by (fun a b => str_leb (fst a) (fst b)) (physical m))
    ++ [str "$EndPhysicalNames"; str "$Nodes"; count (nodes m)]
    ++ map node_line (sort_by (fun a b => (fst a <=? fst b)%Z) (nodes m))
    ++ [str "$EndNodes"; str "$Elements"; count (elements m)]
    ++ map element_line (sort_by (fun a b => (fst a <=? fst b)%Z) (elements m))
    ++ [str "$EndElements"]).
(** [write_element_data], gmsh_io.py:250-287: [values] has rows of one length, as an array has. *)
Definition value_line (p : Z * list V) : pystr := show_int (fst p) ++ sp ++ join sp (map show (snd p)).
Definition write_element_data (ids : list Z) (name : pystr) (values : list (list V)) : res (list pystr) :=
  match values with
  | [] => Err IndexError
  | row :: _ =>
      Ok ([str "$ElementData"; str "1"; quoted name; str "1"; show_int 0; str "3"; show_int 0; count row; count values]
          ++ map value_line (combine ids values) ++ [str "$EndElementData"])
  end.
(** [write_fields], gmsh_io.py:289-302, for a given file name. *)
Fixpoint field_lines (ids : list Z) (fields : list (pystr * list (list V))) : res (list pystr) :=
  match fields with
  | [] => Ok []
  | (name, values) :: fs => bind (write_element_data ids name values) (fun a => bind (field_lines ids fs) (fun b => Ok (a ++ b)))
  end.
Definition write_fields (ids : list Z) (fields : list (pystr * list (list V))) : res pystr :=
  bind (field_lines ids fields) (fun ls => Ok (unlines (format_lines ++ ls))).
End Gmsh.
