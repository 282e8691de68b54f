(** Programs that build quantities, chunks put side by side, and sample-wise meaning. *)
From Verif Require Import Base QTypeModel QuantityModel.

Section Spec.
Context {K V : Type} (K_eq : forall a b : K, {a = b} + {a <> b}).

(** A chunk of M components, N samples and k values per component. *)
Definition shaped (M N k : nat) (a : arr V) : Prop :=
  length a = M /\ forall row, In row a -> length row = N /\ forall s, In s row -> length s = k.
(** The samples of one chunk followed by the samples of another. *)
Definition beside (x y : arr V) : arr V := map (fun p => fst p ++ snd p) (combine x y).
(** Chunk [e r] of every storage consists of the samples of [e1 r] followed by those of [e2 r]. *)
Definition splits (k : nat) (e1 e2 e : nat -> arr V) : Prop :=
  forall r, exists M n1 n2, shaped M n1 k (e1 r) /\ shaped M n2 k (e2 r) /\ e r = beside (e1 r) (e2 r).

(** Commands without subsampling; composition and selection of quantities that come from stored data. *)
Definition from_storage (g : graph K V) (a : nat) : Prop := store_of g a <> None.
Definition plain (g : graph K V) (c : cmd K V) : Prop :=
  match c with
  | CSub _ _ => False
  | CConcat _ ps => forall p, In p ps -> from_storage g p
  | CSelect a _ => from_storage g a
  | _ => True
  end.
(** The quantities a program can build; a construction that raises leaves no object. *)
Inductive built : graph K V -> Prop :=
| built_nil : built []
| built_step g c g' : built g -> plain g c -> build K_eq g c = Ok g' -> built g'.

(** The value on the whole is the value on the parts, side by side; errors do not depend on the data. *)
Definition joined (v1 v2 v : res (val V)) : Prop :=
  match v1, v2, v with
  | Ok (Num x1), Ok (Num x2), Ok (Num x) => length x1 = length x2 /\ x = beside x1 x2
  | Ok (Mask m1), Ok (Mask m2), Ok (Mask m) => m = m1 ++ m2
  | Err a, Err b, Err c => a = b /\ b = c
  | _, _, _ => False
  end.

(** ** One sample at a time *)
(** The chunk that consists of sample i only. *)
Definition only (i : nat) (e : nat -> arr V) : nat -> arr V := fun r => map (fun row => [nth i row []]) (e r).
(** A value made of the given values side by side. *)
Inductive glued : list (res (val V)) -> res (val V) -> Prop :=
| glued_one v : glued [v] v
| glued_cons v vs v1 v2 : glued vs v1 -> joined v v1 v2 -> glued (v :: vs) v2.
(** Component m of sample i, fine (j = 0) or coarse (j = 1). *)
Definition entry {W} (x : list (list (list W))) (m i j : nat) : option W :=
  match nth_error x m with
  | Some row => match nth_error row i with Some s => nth_error s j | None => None end
  | None => None
  end.
(** The number of samples in a value; a value without components has none. *)
Definition columns (v : val V) (n : nat) : Prop :=
  match v with Num (row :: _) => length row = n | Num [] => False | Mask m => length m = n end.

(** The quantities a command combines. *)
Definition operands (c : cmd K V) : list nat :=
  match c with
  | CRoot _ _ | CConst _ => []
  | CUn _ a | CItem _ a | CMoments _ _ _ _ a | CSub _ a => [a]
  | CBin _ a b | CCmp _ a b | CMask _ a b => [a; b]
  | CConcat _ ps => ps
  | CSelect a ms => a :: ms
  end.
(** Two quantities take different samples from the same chunk of stored data. *)
Definition differ (g : graph K V) (a b : nat) : Prop :=
  store_of g a <> store_of g b
  \/ exists env k lvl cid va vb n1 n2, (forall r, exists M N, shaped M N k (env r))
     /\ samples K_eq env lvl cid g a = Ok va /\ samples K_eq env lvl cid g b = Ok vb /\ columns va n1 /\ columns vb n2 /\ n1 <> n2.

(** ** Selection *)
(** The samples that meet all the conditions, in order. *)
Definition kept (N : nat) (conds : list (nat -> bool)) : list nat := filter (fun i => forallb (fun c => c i) conds) (seq 0 N).
Definition take {A} (d : A) (is_ : list nat) (l : list A) : list A := map (fun i => nth i l d) is_.

End Spec.
