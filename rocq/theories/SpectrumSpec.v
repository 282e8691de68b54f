(** Mean values over the random numbers of the Fourier field. *)
From Coq Require Import Reals.
From Coquelicot Require Import Coquelicot.
From Verif Require Import Base.
Open Scope R_scope.

(** [f u v] has mean [l] for independent [u], [v] uniform in the interval from 0 to 1 (the integral over u may be improper at 0). *)
Definition uniform_mean (f : R -> R -> R) (l : R) : Prop :=
  (forall u, 0 < u < 1 -> ex_RInt (f u) 0 1) /\
  forall eps, 0 < eps -> exists delta, 0 < delta /\
    forall a, 0 < a < delta -> exists I, is_RInt (fun u => RInt (f u) 0 1) a 1 I /\ Rabs (I - l) < eps.

(** [mean f l] tells that [f g] has mean [l] for a standard normal number [g]. What is used of it: linearity, order, the even
    moments (2m)!/(2^m m!) and that cosines have a mean. *)
Record normal_law (mean : (R -> R) -> R -> Prop) : Prop := {
  law_linear : forall f g a b c d, mean f a -> mean g b -> mean (fun x => c * f x + d * g x) (c * a + d * b);
  law_order : forall f g a b, mean f a -> mean g b -> (forall x, f x <= g x) -> a <= b;
  law_moments : forall m, mean (fun x => x ^ (2 * m)) (INR (fact (2 * m)) / (2 ^ m * INR (fact m)));
  law_cos : forall t, exists a, mean (fun x => cos (t * x)) a
}.
