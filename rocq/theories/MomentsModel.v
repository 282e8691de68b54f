(** Moment functions. Models mlmc/moments.py and mlmc/quantity/quantity_estimate.py:83-156. *)
From Verif Require Import Base QTypeModel QuantityModel NumModel EstimateModel.
Local Open Scope R_scope.

(** Functions of numpy on one number; rounding is left out as in NumModel.v. *)
Definition nlog (x : num) : num :=
  match x with
  | Fin r => if Rlt_dec 0 r then Fin (ln r) else if Rlt_dec r 0 then NaN else NInf
  | PInf => PInf
  | _ => NaN
  end.
Definition ncos (x : num) : num := match x with Fin r => Fin (cos r) | _ => NaN end.
Definition nsin (x : num) : num := match x with Fin r => Fin (sin r) | _ => NaN end.
(** x ** i; numpy gives nan ** 0 = inf ** 0 = 1. *)
Definition npow (x : num) (i : nat) : num :=
  match x, i with
  | Fin r, _ => Fin (r ^ i)
  | _, O => Fin 1
  | NInf, _ => if Nat.even i then PInf else NInf
  | _, _ => x
  end.
(** Comparison with a real number; comparisons with NaN are false. *)
Definition nlt_r (x : num) (r : R) : bool :=
  match x with Fin a => if Rlt_dec a r then true else false | NInf => true | _ => false end.
Definition ngt_r (x : num) (r : R) : bool :=
  match x with Fin a => if Rlt_dec r a then true else false | PInf => true | _ => false end.

Inductive kind := Monomial | Fourier | Legendre.
(** Attributes of Monomial, Fourier, Legendre: moments.py:10-39. *)
Record basis := mkBasis { b_kind : kind; b_size : nat; b_domain : R * R; b_ref : R * R; b_log : bool; b_safe : bool;
                          b_scale : R; b_shift : R }.
(** A Moments object; TransformedMoments 232-254 with the rows of its matrix. *)
Inductive mfn := Basis (b : basis) | Trans (o : mfn) (matrix : list (list R)).

Definition default_ref (k : kind) : R * R :=
  match k with Monomial => (0, 1) | Fourier => (0, 2 * PI) | Legendre => (-1, 1) end.

(** What is passed as ref_domain: nothing, a pair, or (see change_size) a bool. *)
Inductive refarg := RNone | RPair (a b : R) | RBool (b : bool).

(** Constructors: 10-39, 115-120, 137-143, 179-190. A logarithmic domain starting at 0 or below raises in the
    model; the code builds an object with an infinite shift when it starts at 0. *)
Definition tiny : R := / 10 ^ 15.
Definition init (k : kind) (size : nat) (domain : R * R) (ref : refarg) (log safe : bool) : res basis :=
  if Nat.eqb size 0 then Err AssertionError else
  if (log && (if Rlt_dec 0 (fst domain) then false else true))%bool then Err AssertionError else
  let lin := if log then (ln (fst domain), ln (snd domain)) else domain in
  let diff := snd lin - fst lin in
  if (if Rlt_dec 0 diff then false else true)
     || (log && (if Rlt_dec 0 (snd domain) then false else true))%bool then Err AssertionError else
  let diff := Rmax diff tiny in
  match ref with
  | RBool _ => Err TypeError
  | _ => let r := match ref with RPair a b => (a, b) | _ => default_ref k end in
         Ok (mkBasis k size domain r log safe ((snd r - fst r) / diff) (fst lin))
  end.

(** 51-56 [change_size]: the arguments are positional, so _is_log arrives as ref_domain and _is_clip as log.
    TransformedMoments has no attribute _is_log. *)
Definition change_size (m : mfn) (size : nat) : res mfn :=
  match m with
  | Basis b => bind (init (b_kind b) size (b_domain b) (RBool (b_log b)) (b_safe b) true) (fun b' => Ok (Basis b'))
  | Trans _ _ => Err AttributeError
  end.

(** 69-73. *)
Definition linear (b : basis) (v : num) : num := nadd (nmul (nsub v (Fin (b_shift b))) (Fin (b_scale b))) (Fin (fst (b_ref b))).
Definition inv_linear (b : basis) (v : R) : R := (v - fst (b_ref b)) / b_scale b + b_shift b.
(** 58-67 [clip]: ma.masked_outside exchanges the bounds if they are in the wrong order. *)
Definition clip (b : basis) (v : num) : num :=
  let lo := Rmin (fst (b_ref b)) (snd (b_ref b)) in let hi := Rmax (fst (b_ref b)) (snd (b_ref b)) in
  if (nlt_r v lo || ngt_r v hi)%bool then NaN else v.
(** 28-39. *)
Definition transform (b : basis) (v : num) : num :=
  let y := linear b (if b_log b then nlog v else v) in if b_safe b then clip b y else y.
Definition inv_transform (b : basis) (v : R) : R :=
  let y := inv_linear b v in if b_log b then exp y else y.

(** Column i of numpy's polyvander: x*0+1, x, then column i-1 times x. *)
Fixpoint poly_col (x : num) (i : nat) : num :=
  match i with O => nadd (nmul x (Fin 0)) (Fin 1) | S O => x | S i' => nmul (poly_col x i') x end.
(** Columns i and i+1 of numpy's legvander: x*0+1, x, then
    v[i] = (v[i-1]*x*(2*i - 1) - v[i-2]*(i - 1))/i. *)
Fixpoint leg_cols (x : num) (i : nat) : num * num :=
  match i with
  | O => (nadd (nmul x (Fin 0)) (Fin 1), x)
  | S i' => let (p, q) := leg_cols x i' in
            (q, ndivn (nsub (nmul (nmul q x) (Fin (INR (2 * (i' + 2) - 1)))) (nmul p (Fin (INR (i' + 1))))) (i' + 2))
  end.
Definition leg_col (x : num) (i : nat) : num := fst (leg_cols x i).
(** Column j of the array filled at moments.py:145-162: 1, cos t, sin t, cos 2t, sin 2t, ... *)
Definition fourier_col (x : num) (j : nat) : num :=
  match j with
  | O => Fin 1
  | _ => if Nat.even j then nsin (nmul x (Fin (INR (j / 2)))) else ncos (nmul x (Fin (INR ((j + 1) / 2))))
  end.
Definition col (k : kind) : num -> nat -> num :=
  match k with Monomial => poly_col | Fourier => fourier_col | Legendre => leg_col end.

Definition dot (l : list num) (row : list R) : num := nsum (map (fun p => nmul (fst p) (Fin (snd p))) (combine l row)).

(** [size] 232-248 and the attribute. *)
Definition msize (m : mfn) : nat := match m with Basis b => b_size b | Trans _ mat => length mat end.
(** [_eval_all] 122-126, 145-162, 195-197, 256-259 on one value (arrays of values are treated value by value;
    arrays with more axes: see eval_chunk). A size of 0 is refused by polyvander and legvander (ValueError) and
    by res[:, 0] (IndexError). *)
Fixpoint eval_all_ (m : mfn) (v : num) (size : nat) : res (list num) :=
  match m with
  | Basis b => match size with
               | O => Err (match b_kind b with Fourier => IndexError | _ => ValueError end)
               | _ => Ok (map (col (b_kind b) (transform b v)) (seq 0 size))
               end
  | Trans o mat => bind (eval_all_ o v (msize o)) (fun l => Ok (firstn size (map (dot l) mat)))
  end.
(** 90-93 [eval_all] with an optional size, 75-76 [__call__]. *)
Definition eval_all (m : mfn) (v : num) (size : option nat) : res (list num) :=
  eval_all_ m v (match size with Some s => s | None => msize m end).
(** 232-248: the matrix has as many columns as there are original functions, and at least one row. *)
Definition mk_trans (o : mfn) (mat : list (list R)) : res mfn :=
  if forallb (fun row => Nat.eqb (length row) (msize o)) mat then Ok (Trans o mat) else Err AssertionError.

(** 78-79, 128-130, 164-171 [eval]. *)
Definition eval (m : mfn) (i : nat) (v : num) : res num :=
  match m with
  | Basis b =>
      match b_kind b with
      | Monomial => Ok (npow (transform b v) i)
      | Fourier => let t := transform b v in
                   Ok (match i with
                       | O => Fin 1
                       | _ => if Nat.odd i then nsin (nmul (Fin (INR (i - 1) / 2)) t) else ncos (nmul (Fin (INR i / 2)) t)
                       end)
      | Legendre => bind (eval_all_ m v (S i)) (fun l => match rev l with x :: _ => Ok x | [] => Err IndexError end)
      end
  | Trans _ _ => bind (eval_all_ m v (S i)) (fun l => match rev l with x :: _ => Ok x | [] => Err IndexError end)
  end.
(** 81-88 [eval_single_moment]. *)
Definition eval_single_moment (m : mfn) (i : nat) (v : num) : res num :=
  bind (eval_all_ m v (S i)) (fun l => match nth_error l i with Some x => Ok x | None => Err IndexError end).

(** 185-188: diff_mat[n, n+1::2] = 2*n + 1 for n in range(size - 1), and its square. *)
Definition diff_mat (size : nat) : list (list R) :=
  map (fun n => map (fun k => if ((n <? size - 1) && (n + 1 <=? k) && Nat.even (k - (n + 1)))%nat%bool
                              then INR (2 * n + 1) else 0) (seq 0 size)) (seq 0 size).
Definition column (j : nat) (mat : list (list R)) : list R := map (fun row => nth j row 0) mat.
Definition matmul (a b : list (list R)) (k : nat) : list (list R) :=
  map (fun row => map (fun j => fold_right Rplus 0 (map (fun p => fst p * snd p) (combine row (column j b)))) (seq 0 k)) a.
Definition diff2_mat (size : nat) : list (list R) := matmul (diff_mat size) (diff_mat size) size.
(** 221-229 [_eval_diff], [_eval_diff2] of Legendre with 100-108, and 266-274 of transformed moments. The other
    families have no such method. The matrices fit only the size of the object. *)
Fixpoint eval_der (mat : nat -> list (list R)) (m : mfn) (v : num) (size : nat) : res (list num) :=
  match m with
  | Basis b =>
      match b_kind b with
      | Legendre => bind (eval_all_ m v size) (fun l =>
          if Nat.eqb size (b_size b) then Ok (map (fun j => dot l (column j (mat (b_size b)))) (seq 0 size)) else Err ValueError)
      | _ => Err AttributeError
      end
  | Trans o tr => bind (eval_der mat o v (msize o)) (fun l => Ok (firstn size (map (dot l) tr)))
  end.
Definition eval_diff (m : mfn) (v : num) (size : option nat) : res (list num) :=
  eval_der diff_mat m v (match size with Some s => s | None => msize m end).
Definition eval_diff2 (m : mfn) (v : num) (size : option nat) : res (list num) :=
  eval_der diff2_mat m v (match size with Some s => s | None => msize m end).

(** ** Moments and covariances of quantities, quantity_estimate.py:83-156 *)
(** The family underneath. *)
Fixpoint kind_of (m : mfn) : kind := match m with Basis b => b_kind b | Trans o _ => kind_of o end.
Definition evals (m : mfn) (v : num) : list num := match eval_all m v None with Ok l => l | Err _ => [] end.
(** eval_all on a chunk [M, N, 2]: polyvander and legvander add an axis. Fourier fills an array of the first axis
    only (len(t) rows) from np.outer, which flattens the chunk: either the assignment or the transposition to four
    axes raises ValueError. *)
Definition moments_samples (m : mfn) (bottom : bool) (x : arr num) : res (arr num) :=
  match kind_of m with
  | Fourier => Err ValueError
  | _ => Ok (moments_rows (msize m) (evals m) NaN bottom x)
  end.
(** 131-147: all products of two moments of the fine value, and of the coarse value if there is one. *)
Definition products (l : list num) : list num := flat_map (fun a => map (nmul a) l) l.
Definition covariance_samples (m : mfn) (bottom : bool) (x : arr num) : res (arr num) :=
  match kind_of m with
  | Fourier => Err ValueError
  | _ => Ok (moments_rows (msize m * msize m) (fun v => products (evals m v)) NaN bottom x)
  end.
Definition covariance_type {K} (r : nat) (bottom : bool) (t : qtype K) : qtype K :=
  if bottom then replace_scalar (QArray [r; r] QScalar) t else QArray [r; r] t.
(** Estimates of the moments and of the covariance of a quantity of type t, read chunk by chunk. *)
Definition estimate_moments {K} (m : mfn) (bottom : bool) (t : qtype K) (L : nat) (cs : list (nat * arr num)) : res (qmean K) :=
  estimate_mean (moments_type (msize m) bottom t) L (map (fun c => (fst c, moments_samples m bottom (snd c))) cs).
Definition estimate_covariance {K} (m : mfn) (bottom : bool) (t : qtype K) (L : nat) (cs : list (nat * arr num)) : res (qmean K) :=
  estimate_mean (covariance_type (msize m) bottom t) L (map (fun c => (fst c, covariance_samples m bottom (snd c))) cs).
