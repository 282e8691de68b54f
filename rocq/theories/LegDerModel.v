(** Derivatives of Legendre moments of any degree, mlmc/moments.py:95-98, 199-219, 261-264, and comparison of moments, 41-49, 250-254. *)
From Verif Require Import Base NumModel QTypeModel EstimateModel MomentsModel.
Local Open Scope R_scope.

(** One pass of numpy.polynomial.legendre.legder, coefficients from the highest one; numpy is an external library modelled after its
    source:
      for j in range(n, 2, -1): der[j - 1] = (2*j - 1)*c[j]; c[j - 2] += c[j]
      if n > 1: der[1] = 3*c[2]
      der[0] = c[1]
    with n + 1 coefficients; fuel: the number of coefficients. Called from mlmc/moments.py:217. *)
Fixpoint legder_pass (fuel : nat) (rc : list R) : list R :=
  match fuel with
  | O => []
  | S fuel =>
      match rc with
      | cj :: cj1 :: cj2 :: ((_ :: _) as rest) => INR (2 * (length rc - 1) - 1) * cj :: legder_pass fuel (cj1 :: cj2 + cj :: rest)
      | [c2; c1; _] => [3 * c2; c1]
      | [c1; _] => [c1]
      | _ => []
      end
  end.
(** legder(c, cnt): c[:1]*0 if cnt >= len(c), otherwise cnt passes; called from mlmc/moments.py:217. *)
Definition legder (c : list R) (cnt : nat) : list R :=
  if Nat.eqb cnt 0 then c else
  if (length c <=? cnt)%nat then map (fun x => x * 0) (firstn 1 c)
  else rev (Nat.iter cnt (fun rc => legder_pass (length rc) rc) (rev c)).
(** The loop of numpy.polynomial.legendre.legval over the coefficients c[-3], c[-4], ...; called from mlmc/moments.py:218:
      tmp = c0; nd = nd - 1; c0 = c[-i] - (c1*(nd - 1))/nd; c1 = tmp + (c1*x*(2*nd - 1))/nd *)
Fixpoint legval_loop (x c0 c1 : num) (nd : nat) (rc : list R) : num :=
  match rc with
  | [] => nadd c0 (nmul c1 x)
  | c :: rc =>
      let nd := (nd - 1)%nat in
      legval_loop x (nsub (Fin c) (ndivn (nmul c1 (Fin (INR (nd - 1)))) nd))
        (nadd c0 (ndivn (nmul (nmul c1 x) (Fin (INR (2 * nd - 1)))) nd)) nd rc
  end.
(** legval; no coefficients raise an IndexError in numpy, here NaN; they do not occur. Called from mlmc/moments.py:218. *)
Definition legval (x : num) (c : list R) : num :=
  match rev c with
  | [] => NaN
  | [c0] => nadd (Fin c0) (nmul (Fin 0) x)
  | cn :: cm :: rest => legval_loop x (Fin cm) (Fin cn) (length c) rest
  end.
(** The coefficients of one polynomial, mlmc/moments.py:211-215. *)
Definition unit_coef (s : nat) : list R := match s with O => [1] | _ => repeat 0 s ++ [1] end.
(** [_eval_all_der], mlmc/moments.py:199-219, on one value, and 261-264 of transformed moments; the other families have no such method. *)
Fixpoint eval_all_der_ (m : mfn) (v : num) (size degree : nat) : res (list num) :=
  match m with
  | Basis b =>
      match b_kind b with
      | Legendre => Ok (map (fun s => legval (transform b v) (legder (unit_coef s) degree)) (seq 0 size))
      | _ => Err AttributeError
      end
  | Trans o tr => bind (eval_all_der_ o v (msize o) degree) (fun l => Ok (firstn size (map (dot l) tr)))
  end.
(** [eval_all_der], mlmc/moments.py:95-98. *)
Definition eval_all_der (m : mfn) (v : num) (size : option nat) (degree : nat) : res (list num) :=
  eval_all_der_ m v (match size with Some s => s | None => msize m end) degree.

(** Comparison of numbers, lists of numbers and matrices, np.all(a == b), mlmc/moments.py:47, 254. *)
Definition req (x y : R) : bool := if Req_EM_T x y then true else false.
Fixpoint all_eq {A} (eq : A -> A -> bool) (a b : list A) : bool :=
  match a, b with [], [] => true | x :: a, y :: b => eq x y && all_eq eq a b | _, _ => false end%bool.
Definition kind_eq (j k : kind) : bool :=
  match j, k with Monomial, Monomial | Fourier, Fourier | Legendre, Legendre => true | _, _ => false end.
(** [__eq__], mlmc/moments.py:41-49, of transformed moments 250-254. *)
Fixpoint moments_eq (m n : mfn) : bool :=
  match m, n with
  | Basis b, Basis c => kind_eq (b_kind b) (b_kind c) && Nat.eqb (b_size b) (b_size c)
      && (req (fst (b_domain b)) (fst (b_domain c)) && req (snd (b_domain b)) (snd (b_domain c)))
      && Bool.eqb (b_log b) (b_log c) && Bool.eqb (b_safe b) (b_safe c)
  | Trans o s, Trans p t => Nat.eqb (length s) (length t) && moments_eq o p && all_eq (all_eq req) s t
  | _, _ => false
  end%bool.
