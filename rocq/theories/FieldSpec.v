(** What a set of fields is meant to give. *)
From Verif Require Import Base FieldModel.

Section Spec.
Context {V P : Type}.
Variable zero : V.
Notation fset := (@fset V).
Notation obj := (obj zero).

(** Every field is computed from fields that come before it. *)
Definition evaluated_before (fs : fset) : Prop :=
  forall l1 id l2, order fs = l1 ++ id :: l2 -> forall q, In q (f_params (obj fs id)) -> In q l1.

(** [val id p]: value of field [id] at point [p]; [G]: realisations of the random fields. *)
Definition is_values (fs : fset) (G val : nat -> P -> V) : Prop :=
  forall id, In id (order fs) -> forall p,
    match f_kind (obj fs id) with
    | KConst c => val id p = c
    | KRandom _ => val id p = G id p
    | KFunc _ h => val id p = h (map (fun q => val q p) (f_params (obj fs id)))
    end.

(** A point of region [r] belongs to a field restricted to [regs], none: everywhere. *)
Definition inside (rmap : list (pystr * nat)) (regs : list pystr) (r : nat) : bool :=
  match regs with
  | [] => true
  | _ => existsb (fun reg => match pget rmap reg with Some k => Nat.eqb k r | None => false end) regs
  end.
(** The field on the mesh: its value on its regions, zero elsewhere. *)
Definition on_mesh (rmap : list (pystr * nat)) (regs : list pystr) (v : P -> V) (mesh : list (P * nat)) : list V :=
  map (fun pr => if inside rmap regs (snd pr) then v (fst pr) else zero) mesh.

(** Points of a field, region by region. *)
Definition points_of (rmap : list (pystr * nat)) (regs : list pystr) (mesh : list (P * nat)) : list P :=
  match regs with
  | [] => map fst mesh
  | _ => flat_map (fun reg => map fst (filter (fun pr => match pget rmap reg with Some k => Nat.eqb (snd pr) k | None => false end) mesh)) regs
  end.

(** Number of random fields before [id]. *)
Definition is_random (fs : fset) (id : nat) : bool := match f_kind (obj fs id) with KRandom _ => true | _ => false end.
Fixpoint draw_no (fs : fset) (l : list nat) (id : nat) : nat :=
  match l with
  | [] => 0
  | x :: l' => if Nat.eqb x id then 0 else (if is_random fs x then 1 else 0) + draw_no fs l' id
  end.

(** Parameters are restricted to the same regions, and no two fields use one random field object. *)
Definition aligned (fs : fset) : Prop :=
  forall id, In id (order fs) -> forall q, In q (f_params (obj fs id)) -> f_regions (obj fs q) = f_regions (obj fs id).
Definition single_use (fs : fset) : Prop :=
  forall a b r, In a (order fs) -> In b (order fs) -> f_kind (obj fs a) = KRandom r -> f_kind (obj fs b) = KRandom r -> a = b.

(** [id] is the last field with this name that is asked for. *)
Definition last_outer (fs : fset) (name : pystr) (id : nat) : Prop :=
  exists l1 l2, order fs = l1 ++ id :: l2 /\ f_name (obj fs id) = name /\ f_outer (obj fs id) = true
    /\ forall x, In x l2 -> f_name (obj fs x) = name -> f_outer (obj fs x) = false.
End Spec.

(** The meaning of a list of fields, from the list as given: regions and value at every point of each name. A parameter is
    a number or the last field given before under that name, restricted to the same regions. *)
Section Meaning.
Context {V P : Type}.
Definition entry := (list pystr * (P -> V))%type.
Definition arg (env : list (pystr * entry)) (regs : list pystr) (p : @param V) : option (P -> V) :=
  match p with
  | PNum c => Some (fun _ => c)
  | PName s => match pget env s with
               | Some (regs', v) => if list_eq_dec pystr_eq_dec regs' regs then Some v else None
               | None => None
               end
  end.
Fixpoint args (env : list (pystr * entry)) (regs : list pystr) (ps : list (@param V)) : option (list (P -> V)) :=
  match ps with
  | [] => Some []
  | p :: ps' => match arg env regs p, args env regs ps' with Some v, Some vs => Some (v :: vs) | _, _ => None end
  end.
Definition meaning (g : P -> V) (env : list (pystr * entry)) (s : @spec V) : option (P -> V) :=
  match s_kind s with
  | KConst c => Some (fun _ => c)
  | KRandom _ => Some g
  | KFunc _ h => match args env (s_regions s) (s_params s) with
                 | Some vs => Some (fun p => h (map (fun v => v p) vs))
                 | None => None
                 end
  end.
(** [G k]: realisation of the random field given at position [k]. *)
Fixpoint means (G : nat -> P -> V) (k : nat) (env : list (pystr * entry)) (ss : list (@spec V)) : option (list (pystr * entry)) :=
  match ss with
  | [] => Some env
  | s :: ss' => match meaning (G k) env s with
                | Some v => means G (S k) (pset env (s_name s) (s_regions s, v)) ss'
                | None => None
                end
  end.
Definition spec_random (s : @spec V) : option nat := match s_kind s with KRandom r => Some r | _ => None end.
(** Random field objects of the fields, and how many of them the fields before position [k] use. *)
Definition rf_used (ss : list (@spec V)) : list nat := flat_map (fun s => match spec_random s with Some r => [r] | None => [] end) ss.
Definition draws_before (ss : list (@spec V)) (k : nat) : nat := length (rf_used (firstn k ss)).
(** No field is named, and no parameter called, like the field made of a number. *)
Definition no_clash (fmt : V -> pystr) (ss : list (@spec V)) : Prop :=
  forall s c s', In s ss -> In (PNum c) (s_params s) -> In s' ss ->
    s_name s' <> str "const_" ++ fmt c /\ ~ In (PName (str "const_" ++ fmt c)) (s_params s').
End Meaning.
