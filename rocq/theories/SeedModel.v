(** Where simulations take their random numbers from: mlmc/sampling_pool.py:75-84, mlmc/tool/flow_mc.py:16-52, 223-277 and 321-335,
    mlmc/random/correlated_field.py:430-553 and 561-745, examples/shooting/simulation_shooting_1D.py:11-27, 63-83, 137-148 and
    simulation_shooting_2D.py:10-25, 60-83. *)
From Verif Require Import Base.

(** [compute_seed], sampling_pool.py:75-84; [digest]: the 16 bytes of md5. np.frombuffer reads four bytes, the lowest first. *)
Definition compute_seed (digest : pystr -> list N) (id : pystr) : res N :=
  match digest id with
  | b0 :: b1 :: b2 :: b3 :: _ => Ok (b0 + 256 * (b1 + 256 * (b2 + 256 * b3)))%N
  | _ => Err ValueError
  end.

Section Random.
(** States of numpy's global generator, points, values, factors of a covariance matrix. *)
Context {G P V F : Type}.
(** np.random.seed(s); np.random.normal(0, 1, n). *)
Variable seed_state : N -> G.
Variable normals : G -> nat -> list V * G.
(** randomized_svd with random_state None draws from the global generator; singular values and factor. np.linalg.svd; [est]: as in
    SvdModel.v. [mult]: factor of the first m terms times normal numbers. *)
Variable est : list P -> nat -> Q.
Variable rsvd : list P -> nat -> G -> (list Q * F) * G.
Variable full_svd : list P -> list Q * F.
Variable mult : F -> nat -> list V -> list V.
(** The field of a gstools SRF object with a given seed; the field of Fourier modes made of the numbers of some streams. *)
Variable srf : nat -> list P -> list V.
Variable modes : list nat -> list P -> list V.
(** Flow123d on a mesh with the values of the field; the shooting for given numbers. *)
Variable flow : list P -> list V -> res (list V).
Variable shoot1 : list V -> list V.
Variable shoot2 : list V -> list V -> list V.
Variable zero : V.

(** State of the process: the global generator, and the numbers the operating system will give to generators made without a seed. *)
Record world := mkW { rng : G; os : nat -> nat }.
Definition fresh (w : world) : nat * world := (os w 0, mkW (rng w) (fun i => os w (S i))).
Definition np_seed (w : world) (s : N) : world := mkW (seed_state s) (os w).

(** Field objects. A gstools object draws its seed when it is made (correlated_field.py:509); change_srf (516-522) is called neither by
    FlowSim nor by the shooting simulations. *)
Inductive fobj := FFourier (dim : nat) | FSvd | FGs (seed : nat).
Definition make_gs (w : world) : fobj * world := let '(e, w1) := fresh w in (FGs e, w1).
(** [create_corr_field], flow_mc.py:16-52; the correlation function, length and scaling are left out. *)
Definition create_corr_field (model : pystr) (dim : nat) (w : world) : fobj * world :=
  if pystr_eq_dec model (str "fourier") then (FFourier dim, w)
  else if pystr_eq_dec model (str "svd") then (FSvd, w)
  else make_gs w.

(** Loop of svd_dcmp, correlated_field.py:474-478, as in SvdModel.v, with the generator. *)
Fixpoint terms_loop (fuel : nat) (pts : list P) (g : G) (precision thr : Q) (m hi : nat) (last_ : option (list Q * F))
  : res (option (list Q * F) * G) :=
  if (Qle_bool precision thr && Nat.leb m hi)%bool then
    match fuel with
    | O => Err PyException
    | S fuel' => let '(r, g1) := rsvd pts m g in
        terms_loop fuel' pts g1 precision (last (fst r) 0 / hd 0 (fst r))%Q ((3 * m + 1) / 2) hi (Some r)
    end
  else Ok (last_, g).
(** [svd_dcmp](precision=0.01, n_terms_range=(1, np.inf)) of a field just made, correlated_field.py:430-488. *)
Definition svd_dcmp (pts : list P) (g : G) : res (F * nat * G) :=
  let n := length pts in
  if Nat.leb n 1 then Ok (snd (full_svd pts), n, g)
  else
    bind (if negb (Qle_bool (est pts 1) (1 # 100)) then Ok 1
          else if negb (Qle_bool (1 # 100) (est pts n)) then Ok n else Err AttributeError) (fun m =>
    bind (terms_loop (S n) pts g (1 # 100) (2 # 100) (Nat.max m 1) n None) (fun r =>
    match fst r with
    | None => Err UnboundLocalError
    | Some (ev, f) => Ok (f, Nat.min (length ev) n, snd r)
    end)).
(** [sample] of a field just made, correlated_field.py:347-363, 490-498, 547-553 and 676-745; mean, deviation and exponential are left out
    (deterministic). Streams without seed: get_normal_distr, then gau with one or two. Three dimensions are not implemented. *)
Definition sample (f : fobj) (pts : list P) (w : world) : res (list V) * world :=
  match f with
  | FGs e => (Ok (srf e pts), w)
  | FFourier dim =>
      let '(e1, w1) := fresh w in
      match dim with
      | 1 => let '(e2, w2) := fresh w1 in (Ok (modes [e1; e2] pts), w2)
      | 2 => let '(e2, w2) := fresh w1 in let '(e3, w3) := fresh w2 in (Ok (modes [e1; e2; e3] pts), w3)
      | _ => (Err PyException, w1)
      end
  | FSvd =>
      match svd_dcmp pts (rng w) with
      | Err e => (Err e, w)
      | Ok (f, m, g) => let '(x, g1) := normals g m in (Ok (mult f m x), mkW g1 (os w))
      end
  end.

(** Configuration of a level: parameters of the field, points of both meshes, None without coarse step. *)
Record conf := mkC { c_model : pystr; c_dim : nat; c_fine : list P; c_coarse : option (list P) }.
(** [FlowSim.calculate], flow_mc.py:223-277, with [make_fields], 279-300, and [generate_random_sample], 321-335: the fields are made
    first, then the generator is seeded. Files are left out. *)
Definition calculate_flow (w : world) (c : conf) (seed : N) : res (list V * list V) * world :=
  let '(f, w1) := create_corr_field (c_model c) (c_dim c) w in
  let w2 := np_seed w1 seed in
  let '(r, w3) := sample f (match c_coarse c with None => c_fine c | Some q => c_fine c ++ q end) w2 in
  (bind r (fun x =>
     bind (flow (c_fine c) (firstn (length (c_fine c)) x)) (fun fine =>
     match c_coarse c with
     | None => Ok (fine, repeat zero (length fine))
     | Some q => bind (flow q (skipn (length (c_fine c)) x)) (fun coarse => Ok (fine, coarse))
     end)), w3).
(** [ShootingSimulation1D.calculate]: the seed is not used; without coarse step the coarse sample is empty. *)
Definition calculate_shoot1 (w : world) (c : conf) (seed : N) : res (list V * list V) * world :=
  let '(f, w1) := make_gs w in
  let '(r, w2) := sample f (match c_coarse c with None => c_fine c | Some q => c_fine c ++ q end) w1 in
  (bind r (fun x => Ok (shoot1 (firstn (length (c_fine c)) x),
     shoot1 (match c_coarse c with None => [] | Some _ => skipn (length (c_fine c)) x end))), w2).
(** [ShootingSimulation2D.calculate]: both results from the fine numbers (line 81), the seed is not used. *)
Definition calculate_shoot2 (w : world) (c : conf) (seed : N) : res (list V * list V) * world :=
  let '(f, w1) := make_gs w in
  let '(f', w2) := make_gs w1 in
  let pts := match c_coarse c with None => c_fine c | Some q => c_fine c ++ q end in
  let '(r, w3) := sample f pts w2 in
  let '(r', w4) := sample f' pts w3 in
  (bind r (fun x => bind r' (fun y =>
     let s := shoot2 (firstn (length (c_fine c)) x) (firstn (length (c_fine c)) y) in Ok (s, s))), w4).
End Random.
