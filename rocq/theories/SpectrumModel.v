(** Frequencies of the Fourier field: FourierSpatialCorrelatedField, mlmc/random/correlated_field.py:561-653 and 676-745, over the real numbers. *)
From Coq Require Import Reals.
From Verif Require Import Base CovarModel FourierModel.
Open Scope R_scope.

(** [_initialize], line 568: self.len_scale; the correlation length is kept also if a tensor is given (line 298). *)
Definition len_scale (corr_length : R) : R := corr_length * 2 * PI.
(** len_scale of gau, line 615. *)
Definition gau_scale (corr_length : R) : R := len_scale corr_length * sqrt (PI / 4).
(** gau in dimension 1, line 619: rng.normal(0., scale) is scale times a standard normal number [g]. *)
Definition gau_line (corr_length g : R) : R := 0 + PI / 2 / gau_scale corr_length ^ 2 * g.
(** Radius in gau, line 625, and in exp, line 648, for a number [u] of random_sample. *)
Definition gau_radius (corr_length u : R) : R := sqrt PI / gau_scale corr_length * sqrt (- ln u).
Definition exp_radius (corr_length u : R) : R := sqrt (1 / u ^ 2 - 1) / len_scale corr_length.
(** [_sample_sphere] in dimension 2, lines 599-603: uniform(0, 2 pi) is 2 pi times a number [v] of random_sample. *)
Definition circle (v : R) : R * R := let ang := 2 * PI * v in (cos ang, sin ang).
(** A mode in dimension 2, lines 620-626 and 643-649. *)
Definition plane_mode (gauss : bool) (corr_length u v : R) : R * R :=
  let rad := if gauss then gau_radius corr_length u else exp_radius corr_length u in
  (rad * fst (circle v), rad * snd (circle v)).

(** The array k of gau and exp, lines 609-653. Random numbers: [a] standard normal (dimension 1) or of the angles, [b] of the
    radii. exp in dimension 1 reads the attribute rng of a generator, which is not there (line 641); dimension 3 is not
    implemented; in other dimensions the points cannot be split into coordinates (lines 681-692). *)
Definition modes (dim : nat) (gauss : bool) (corr_length : R) (a b : list R) : res (list (list R)) :=
  match dim, gauss with
  | 1%nat, true => Ok [map (gau_line corr_length) a]
  | 1%nat, false => Err AttributeError
  | 2%nat, _ => Ok [zip (fun v u => fst (plane_mode gauss corr_length u v)) a b; zip (fun v u => snd (plane_mode gauss corr_length u v)) a b]
  | 3%nat, _ => Err PyException
  | _, _ => Err ValueError
  end.

(** [random_field], lines 676-745: every correlation exponent except 2 takes exp (lines 696-699). Constructor as in CovarModel. *)
Definition fourier_field (fails : nat -> nat -> bool) (fuel mode_no : nat) (f : field) (corr_length : R) (z0 z1 a b : list R)
    (points : list (list R)) : res (option (list R)) :=
  let gauss := if Req_EM_T (f_exponent f) 2 then true else false in
  bind (modes (f_dim f) gauss corr_length a b) (fun k => random_field fails mode_no k z0 z1 points fuel gauss).
