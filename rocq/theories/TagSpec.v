(** Reading an identifier back: "L" digits "_S" digits. Independent of the printer. *)
From Verif Require Import Base.

Definition is_digit (c : ascii) : bool :=
  let n := N_of_ascii c in ((48 <=? n) && (n <=? 57))%N%bool.

Fixpoint span_digits (s : pystr) : pystr * pystr :=
  match s with
  | c :: s' => if is_digit c then let (a, b) := span_digits s' in (c :: a, b) else ([], s)
  | [] => ([], [])
  end.

(** Value of a decimal numeral. *)
Definition numeral (s : pystr) : N :=
  fold_left (fun acc c => 10 * acc + (N_of_ascii c - 48))%N s 0%N.

Definition read_tag (s : pystr) : option (N * N) :=
  match s with
  | "L"%char :: s1 =>
      let (l, s2) := span_digits s1 in
      match s2 with
      | "_"%char :: "S"%char :: s3 =>
          let (n, s4) := span_digits s3 in
          match l, n, s4 with
          | _ :: _, _ :: _, [] => Some (numeral l, numeral n)
          | _, _, _ => None
          end
      | _ => None
      end
  | _ => None
  end.
