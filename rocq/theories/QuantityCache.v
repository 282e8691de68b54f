(** The cache of samples and subsampling. Models mlmc/quantity/quantity.py:117-135, 307-364, 548-565 and
    mlmc/quantity/quantity_estimate.py:17-19. *)
From Verif Require Import Base QTypeModel QuantityModel.

(** mlmc/quantity/quantity_spec.py:24-28 [ChunkSpec]. *)
Record spec := mkSpec { s_level : nat; s_chunk : nat; s_slice : option (nat * nat) }.
(** quantity.py:117-124 [get_cache_key]; the last entry is id(self). *)
Definition ckey := (nat * nat * option nat * nat)%type.
Definition cache_key (s : spec) (id : nat) : ckey :=
  (s_level s, s_chunk s, option_map (fun p => snd p - fst p) (s_slice s), id).
Definition ckey_eq_dec (a b : ckey) : {a = b} + {a <> b}.
Proof. repeat decide equality. Defined.

Section Cache.
Context {K V : Type} (K_eq : forall a b : K, {a = b} + {a <> b}).
(** id() of the object at a position of the graph: objects that are not alive at the same time may share it. *)
Variable addr : nat -> nat.

Definition cache := list (ckey * val V).
Fixpoint lookup (c : cache) (k : ckey) : option (val V) :=
  match c with [] => None | (k', v) :: c' => if ckey_eq_dec k k' then Some v else lookup c' k end.

(** The samples of the inputs in order (quantity.py:132); the first exception ends the evaluation. *)
Fixpoint ask_inputs (ask : cache -> nat -> cache * res (val V)) (c : cache) (l : list nat) : cache * res (list (nat * val V)) :=
  match l with
  | [] => (c, Ok [])
  | b :: l' => let (c1, v) := ask c b in
               match v with
               | Err e => (c1, Err e)
               | Ok w => let (c2, r) := ask_inputs ask c1 l' in (c2, bind r (fun ws => Ok ((b, w) :: ws)))
               end
  end.
Definition given (ws : list (nat * val V)) (b : nat) : res (val V) :=
  match find (fun p => Nat.eqb (fst p) b) ws with Some p => Ok (snd p) | None => Err NameError end.

(** quantity.py:126-135 and 558-565 [samples] with the decorator cached: a stored value is returned, else the
    operation is evaluated and its value stored; exceptions are not stored. QuantityStorage.samples (686-692) has
    no cache. [data] is what the storage returns for a chunk spec. Every call goes to an older object, so
    [fuel] larger than the position is enough. *)
Fixpoint csamples (fuel : nat) (data : spec -> nat -> arr V) (g : graph K V) (s : spec) (c : cache) (a : nat) : cache * res (val V) :=
  match fuel, nth_error g a with
  | S fuel', Some n =>
      match n_op n with
      | ORoot r => (c, Ok (Num (data s r)))
      | o => match lookup c (cache_key s (addr a)) with
             | Some v => (c, Ok v)
             | None =>
                 let (c1, ws) := ask_inputs (csamples fuel' data g s) c (inputs o) in
                 match bind ws (fun ws => eval_op K_eq (data s) (s_level s) (s_chunk s) (map n_type g)
                                            (map (given ws) (seq 0 a)) o) with
                 | Ok v => ((cache_key s (addr a), v) :: c1, Ok v)
                 | Err e => (c1, Err e)
                 end
             end
      end
  | _, _ => (c, Err NameError)
  end.

(** A session: quantities are built, samples asked for, the cache cleared (quantity_estimate.py:17-19) and the
    contents of the storage changed (adding samples). *)
Inductive event :=
| Build (c : cmd K V)
| Ask (a : nat) (s : spec)
| Clear
| Store (data : spec -> nat -> arr V).
Record session := mkSession { ss_graph : graph K V; ss_cache : cache; ss_data : spec -> nat -> arr V }.
(** The answer is the value returned by a samples call. *)
Definition happen (w : session) (e : event) : session * option (res (val V)) :=
  match e with
  | Build c => match build K_eq (ss_graph w) c with
               | Ok g => (mkSession g (ss_cache w) (ss_data w), None)
               | Err _ => (w, None)
               end
  | Ask a s => let (c, v) := csamples (S a) (ss_data w) (ss_graph w) s (ss_cache w) a in
               (mkSession (ss_graph w) c (ss_data w), Some v)
  | Clear => (mkSession (ss_graph w) [] (ss_data w), None)
  | Store d => (mkSession (ss_graph w) (ss_cache w) d, None)
  end.
Fixpoint run_session (w : session) (h : list event) : session :=
  match h with [] => w | e :: h' => run_session (fst (happen w e)) h' end.
End Cache.
Arguments event K V : clear implicits.
Arguments session K V : clear implicits.

(** ** Subsampling *)
Section Sub.
Context {X : Type}.
(** scipy.stats.hypergeom(n, k, m).rvs(): the number of chosen items among the first m drawn out of n with k
    chosen; its support. *)
Definition hyper (n k m size : nat) : Prop := k + m - n <= size <= Nat.min k m.
(** numpy's Generator.choice(chunk, size, axis=1): the positions drawn, with replacement. *)
Definition choice (m size : nat) (ps : list nat) : Prop := length ps = size /\ forall p, In p ps -> p < m.

(** quantity.py:307-323 [pick_samples] of a chunk of one level with parameters k, n; [ps] are the drawn positions. *)
Inductive picked (n k : nat) (chunk : list X) : list X -> Prop :=
| picked_of size ps out : hyper n k (length chunk) size -> choice (length chunk) size ps ->
    map (nth_error chunk) ps = map Some out -> picked n k chunk out.
(** The chunks of one level: [adjust_value] (351-360), called once per chunk, puts back the original k and n, so every
    chunk is treated with the same parameters. [n] is the number of collected samples when subsample was called. *)
Inductive sub_level (n k : nat) : list (list X) -> list (list X) -> Prop :=
| sub_nil : sub_level n k [] []
| sub_cons c cs o os : picked n k c o -> sub_level n k cs os -> sub_level n k (c :: cs) (o :: os).
End Sub.
