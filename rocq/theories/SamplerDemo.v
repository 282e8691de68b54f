(** A small concrete simulation used in the examples: some seeds raise, some return a wrong length. *)
From Verif Require Import Base TagModel PoolModel HdfModel SamplerModel SamplerSpec.

Definition demo_seed (id : pystr) : N := fold_left N.add (map N_of_ascii id) 0%N.
Definition demo_calc (cfg : nat * nat) (seed : N) : outcome Z :=
  match (seed mod 4)%N with
  | 0%N => Raised (str "boom")
  | 1%N => Returned (NdArray [Z.of_nat (fst cfg)]) (NdArray [1%Z; 2%Z])
  | _ => Returned (NdArray [(Z.of_nat (fst cfg) + Z.of_N seed)%Z]) (NdArray [(Z.of_nat (snd cfg) + Z.of_N seed)%Z])
  end.
Definition demo : env := {|
  param := nat; config := nat * nat; value := Z; zero_param := 0;
  level_instance := fun fine coarse => (fine, coarse);
  calculate := fun _ => demo_calc;
  seed_of := demo_seed; expected_len := 1;
  duration := fun k => (Z.of_nat k + 1 # 2)%Q;
  range_item := fun n0 nL levels i => Z.max (Qfloor (n0 - nat_Q i * nL)) 0 |}.
Definition demo_ps : list (param demo) := [10; 20].

Definition demo_run (ops : list op) : res (sampler demo) :=
  match start demo demo_ps with Ok s0 => Ok (run demo demo_ps 3 s0 ops) | Err e => Err e end.
Definition get {A} (d : A) (r : res A) : A := match r with Ok a => a | Err _ => d end.

Lemma demo_deterministic : deterministic demo.
Proof. intros k k' c x. reflexivity. Qed.

(** Names, file groups and queue contents of a reached state, in comparable form. *)
Definition show (r : res (sampler demo)) :
  res (list (list pystr * list pystr * list pystr * list pystr) * list pystr) :=
  match r with
  | Err e => Err e
  | Ok s => Ok (map (fun l => match nth_error (f_groups (s_file s)) l with
                              | Some (GFull g) => (g_sched g, g_cids g, map fst (g_failed g), waiting s l)
                              | _ => ([], [], [], []) end) [0; 1],
                s_handed s)
  end.
Definition counts (r : res (sampler demo)) : res (list (nat * nat * nat * nat) * nat) :=
  match show r with
  | Err e => Err e
  | Ok (v, h) => Ok (map (fun x => let '(a, b, c, d) := x in (length a, length b, length c, length d)) v, length h)
  end.
Definition no_clock : nat -> Q := fun _ => 0%Q.
Definition no_clock2 : nat -> nat -> Q := fun _ _ => 0%Q.

(** A reached state of the demonstration campaign. *)
Lemma demo_reached ops s : demo_run ops = Ok s -> reached demo demo_ps 3 ops s.
Proof.
  unfold demo_run. destruct (start demo demo_ps) as [s0|e] eqn:E0; [|discriminate].
  intros [= <-]. exists s0. auto.
Qed.

(** The same with one observed value of the state. *)
Definition demo_obs {T} (ops : list op) (obs : sampler demo -> T) : option T :=
  match demo_run ops with Ok s => Some (obs s) | Err _ => None end.
Lemma demo_observed {T} ops (obs : sampler demo -> T) v :
  demo_obs ops obs = Some v -> exists s, reached demo demo_ps 3 ops s /\ obs s = v.
Proof.
  unfold demo_obs. destruct (demo_run ops) as [s|e] eqn:E0; [|discriminate].
  intros [= <-]. exists s. split; [now apply demo_reached|reflexivity].
Qed.
