(** What C22 and C96 say. *)
From Verif Require Import Base FormatModel.

Section Spec.
Context {V : Type}.
Notation qspec := (@qspec V).
(** Formats as QuantitySpec declares them: two-dimensional shapes, locations that are all names or all points. *)
Definition declared (q : qspec) : Prop :=
  length (q_shape q) = 2 /\ q_locs q <> []
  /\ ((forall l, In l (q_locs q) -> exists s, l = LName s) \/ (forall l, In l (q_locs q) -> exists x y z, l = LPoint x y z)).
(** Texts the file keeps: ASCII, at most 50 characters, no null character at the end. *)
Definition plain_text (s : pystr) : Prop :=
  length s <= 50 /\ (forall c, In c s -> nat_of_ascii c < 128) /\ (forall c, hd_error (rev s) = Some c -> c <> zero).
(** Entries with given numbers of times and locations, names only. *)
Definition plain_spec (n_times n_locs : nat) (q : qspec) : Prop :=
  plain_text (q_name q) /\ plain_text (q_unit q)
  /\ length (q_shape q) = 2 /\ (forall z, In z (q_shape q) -> (0 <= z < 2147483648)%Z)
  /\ length (q_times q) = n_times /\ length (q_locs q) = n_locs
  /\ (forall l, In l (q_locs q) -> exists s, l = LName s /\ plain_text s).
(** All entries have the same numbers of times and locations; the first location name does not have three characters. *)
Definition plain_format (fmt : list qspec) : Prop :=
  (exists n_times n_locs, Forall (plain_spec n_times n_locs) fmt)
  /\ (exists q s ls rest, fmt = q :: rest /\ q_locs q = LName s :: ls /\ length s <> 3).
(** Entries that agree in name, unit, shape and times, the first having no location the second has not. *)
Definition agree (old new : qspec) : Prop :=
  q_name old = q_name new /\ q_unit old = q_unit new /\ q_shape old = q_shape new /\ q_times old = q_times new /\ incl (q_locs old) (q_locs new).
End Spec.
