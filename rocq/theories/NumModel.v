(** Numbers of the estimates: real numbers with the IEEE special values. Rounding is left out, and so is the sign
    of zero; everything else follows IEEE 754 (numpy float64). *)
From Coq Require Export Reals.
From Verif Require Import Base.

Inductive num := Fin (r : R) | PInf | NInf | NaN.

Definition is_nan (x : num) : bool := match x with NaN => true | _ => false end.
Definition nneg (x : num) : num :=
  match x with Fin r => Fin (- r) | PInf => NInf | NInf => PInf | NaN => NaN end.
Definition nadd (x y : num) : num :=
  match x, y with
  | NaN, _ | _, NaN => NaN
  | Fin a, Fin b => Fin (a + b)
  | PInf, NInf | NInf, PInf => NaN
  | PInf, _ | _, PInf => PInf
  | NInf, _ | _, NInf => NInf
  end.
Definition nsub (x y : num) : num := nadd x (nneg y).
(** Infinity times a real number. *)
Definition inf_mul (r : R) (pos : bool) : num :=
  if Rlt_dec 0 r then (if pos then PInf else NInf)
  else if Rlt_dec r 0 then (if pos then NInf else PInf) else NaN.
Definition nmul (x y : num) : num :=
  match x, y with
  | NaN, _ | _, NaN => NaN
  | Fin a, Fin b => Fin (a * b)
  | Fin a, PInf | PInf, Fin a => inf_mul a true
  | Fin a, NInf | NInf, Fin a => inf_mul a false
  | PInf, PInf | NInf, NInf => PInf
  | PInf, NInf | NInf, PInf => NInf
  end.
Definition nsq (x : num) : num := nmul x x.
(** Division by a count. *)
Definition ndivn (x : num) (n : nat) : num :=
  match x with
  | Fin a => match n with O => inf_mul a true | _ => Fin (a / INR n) end
  | _ => x
  end.
(** np.sum. The order of the additions does not matter without rounding ([nadd] is associative and
    commutative, NumFacts.v). *)
Definition nsum (l : list num) : num := fold_right nadd (Fin 0) l.
