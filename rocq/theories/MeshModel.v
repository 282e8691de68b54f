(** Field values of a fine and a coarse mesh: FlowSim.extract_mesh, make_fields, generate_random_sample and the field
    files of calculate, mlmc/tool/flow_mc.py. *)
From Verif Require Import Base FieldModel.

(** Attributes of GmshIO after reading, gmsh_io.py:22-46: names of regions with their numbers (dimension left out),
    elements with tags and nodes (type left out), coordinates of nodes. Coordinates are rational numbers. *)
Definition coord := (Q * Q * Q)%type.
Record gmsh := mkGm { g_physical : list (pystr * nat); g_elements : list (nat * (list nat * list nat)); g_nodes : dict coord }.
(** What extract_mesh returns. *)
Record mesh_data := mkMD { md_points : list (list Q); md_regions : list nat; md_ids : list nat; md_map : list (pystr * nat) }.

(** str.strip of quotes. *)
Definition is_quote (c : ascii) : bool := (Ascii.eqb c """" || Ascii.eqb c "'")%bool.
Fixpoint lstrip (s : pystr) : pystr := match s with c :: s' => if is_quote c then lstrip s' else s | [] => [] end.
Definition strip_quotes (s : pystr) : pystr := rev (lstrip (rev (lstrip s))).

(** Lines 357-363: numbers of boundary regions and names of regions. *)
Fixpoint read_regions (ph : list (pystr * nat)) (is_bc : dict bool) (rmap : list (pystr * nat)) : res (dict bool * list (pystr * nat)) :=
  match ph with
  | [] => Ok (is_bc, rmap)
  | (name, id) :: ph' =>
      match strip_quotes name with
      | [] => Err IndexError
      | c :: _ => read_regions ph' (dset is_bc id (Ascii.eqb c ".")) (pset rmap (strip_quotes name) id)
      end
  end.
(** Lines 365-370. *)
Fixpoint bulk_elements (is_bc : dict bool) (els : list (nat * (list nat * list nat))) : res (list (nat * (list nat * list nat))) :=
  match els with
  | [] => Ok []
  | (id, (tags, nds)) :: els' =>
      match tags with
      | [] => Err IndexError
      | r :: _ => match dget is_bc r with
                  | None => Err KeyError
                  | Some b => bind (bulk_elements is_bc els') (fun l => Ok (if b then l else (id, (tags, nds)) :: l))
                  end
      end
  end.
(** np.average of the nodes, line 380; elements have nodes. *)
Fixpoint get_nodes (nodes : dict coord) (nds : list nat) : res (list coord) :=
  match nds with
  | [] => Ok []
  | k :: nds' => match dget nodes k with None => Err KeyError | Some c => bind (get_nodes nodes nds') (fun l => Ok (c :: l)) end
  end.
Definition average (l : list Q) : Q := (fold_right Qplus 0 l / inject_Z (Z.of_nat (length l)))%Q.
Definition center (l : list coord) : coord :=
  (average (map (fun c => fst (fst c)) l), average (map (fun c => snd (fst c)) l), average (map snd l)).
Fixpoint centers (nodes : dict coord) (els : list (nat * (list nat * list nat))) : res (list coord) :=
  match els with
  | [] => Ok []
  | (_, (_, nds)) :: els' =>
      bind (get_nodes nodes nds) (fun l => bind (centers nodes els') (fun cs => Ok (center l :: cs)))
  end.
(** Lines 384-392: the axis of least extent (the first one) is dropped if the extent is below the tolerance; np.min of
    no elements is a ValueError. *)
Definition qmin (x : Q) (l : list Q) : Q := fold_right (fun a b => if Qle_bool a b then a else b) x l.
Definition qmax (x : Q) (l : list Q) : Q := fold_right (fun a b => if Qle_bool a b then b else a) x l.
Definition extent (l : list Q) : Q := match l with [] => 0 | x :: l' => (qmax x l' - qmin x l')%Q end.
Definition axis (i : nat) (c : coord) : Q := match i with 0 => fst (fst c) | 1 => snd (fst c) | _ => snd c end.
Definition drop_axis (cs : list coord) : option nat :=
  let d i := extent (map (axis i) cs) in
  let j := if Qle_bool (d 0) (d 1) then 0 else 1 in
  let k := if Qle_bool (d j) (d 2) then j else 2 in
  if Qle_bool (1 # 10000000000) (d k) then None else Some k.
Definition project (a : option nat) (c : coord) : list Q :=
  match a with
  | None => [axis 0 c; axis 1 c; axis 2 c]
  | Some 0 => [axis 1 c; axis 2 c]
  | Some 1 => [axis 0 c; axis 2 c]
  | Some _ => [axis 0 c; axis 1 c]
  end.
(** [extract_mesh], flow_mc.py:350-394. *)
Definition extract_mesh (g : gmsh) : res mesh_data :=
  bind (read_regions (g_physical g) [] []) (fun r =>
  bind (bulk_elements (fst r) (g_elements g)) (fun els =>
  bind (centers (g_nodes g) els) (fun cs =>
    match cs with
    | [] => Err ValueError
    | _ => Ok (mkMD (map (project (drop_axis cs)) cs)
                    (map (fun e => hd 0 (fst (snd e))) els) (map fst els) (snd r))
    end))).

(** Equality of dictionaries does not depend on the order. *)
Definition dict_eqb (a b : list (pystr * nat)) : bool :=
  (Nat.eqb (length a) (length b)
   && forallb (fun kv => match pget b (fst kv) with Some v => Nat.eqb v (snd kv) | None => false end) a)%bool.

Section Run.
Context {V : Type}.
Variable zero : V.
Variable rf_ok : nat -> list (list Q) -> bool.
Variable rf_draw : nat -> nat -> list (list Q) -> list V.

(** [make_fields], flow_mc.py:279-300; np.concatenate refuses points with different numbers of coordinates. *)
Definition make_fields (fs : @fset V) (m : mstate) (fine : mesh_data) (coarse : option mesh_data) : res mstate :=
  match coarse with
  | None => set_points zero rf_ok fs m (md_points fine) (md_regions fine) (md_map fine)
  | Some c =>
      if Nat.eqb (length (hd [] (md_points fine))) (length (hd [] (md_points c))) then
        if dict_eqb (md_map fine) (md_map c) then
          set_points zero rf_ok fs m (md_points fine ++ md_points c) (md_regions fine ++ md_regions c) (md_map fine)
        else Err AssertionError
      else Err ValueError
  end.
(** [generate_random_sample], flow_mc.py:321-335; [coarse]: coarse_step is not zero. *)
Definition generate_random_sample (fs : @fset V) (m : mstate) (coarse : bool) (n_fine : nat)
  : res (list (pystr * list V) * list (pystr * list V)) :=
  bind (sample zero rf_draw fs m) (fun r =>
    Ok (map (fun nv => (fst nv, firstn n_fine (snd nv))) (snd r),
        if coarse then map (fun nv => (fst nv, skipn n_fine (snd nv))) (snd r) else [])).
(** Rows of one field in the field file, write_element_data, gmsh_io.py:279-282. *)
Definition field_file (ids : list nat) (smp : list (pystr * list V)) : list (pystr * list (nat * V)) :=
  map (fun nv => (fst nv, combine ids (snd nv))) smp.
(** Field files of [calculate], flow_mc.py:235-275: meshes, field values, the fine and the coarse field file. None: the
    coarse simulation is not run. *)
Definition field_files (fs : @fset V) (m : mstate) (fine : gmsh) (coarse : option gmsh)
  : res (list (pystr * list (nat * V)) * option (list (pystr * list (nat * V)))) :=
  bind (extract_mesh fine) (fun fd =>
  bind (match coarse with None => Ok None | Some g => bind (extract_mesh g) (fun d => Ok (Some d)) end) (fun cd =>
  bind (make_fields fs m fd cd) (fun m1 =>
  bind (generate_random_sample fs m1 (match cd with Some _ => true | None => false end) (length (md_points fd))) (fun s =>
    Ok (field_file (md_ids fd) (fst s),
        match cd, snd s with Some d, _ :: _ => Some (field_file (md_ids d) (snd s)) | _, _ => None end))))).
End Run.
