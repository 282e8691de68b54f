(** Input and output files of the flow simulation: mlmc/tool/flow_mc.py. *)
From Verif Require Import Base.

(** str.count and str.replace of a non-empty pattern: scan from the left, occurrences do not overlap; [skip]: number of
    characters of the last occurrence still to be skipped. *)
Fixpoint starts (p s : pystr) : bool :=
  match p, s with
  | [], _ => true
  | c :: p', d :: s' => (Ascii.eqb c d && starts p' s')%bool
  | _, [] => false
  end.
Fixpoint count (p s : pystr) (skip : nat) : nat :=
  match s with
  | [] => 0
  | _ :: s' =>
      match skip with
      | S k => count p s' k
      | 0 => if starts p s then S (count p s' (length p - 1)) else count p s' 0
      end
  end.
Fixpoint replace (p v s : pystr) (skip : nat) : pystr :=
  match s with
  | [] => []
  | c :: s' =>
      match skip with
      | S k => replace p v s' k
      | 0 => if starts p s then v ++ replace p v s' (length p - 1) else c :: replace p v s' 0
      end
  end.

(** [substitute_placeholders], flow_mc.py:56-74; [params]: the items of the dictionary in its order, values converted by
    str. The template and the written file are the texts; line ends are not translated. *)
Definition placeholder (name : pystr) : pystr := "<"%char :: name ++ [">"%char].
Definition substitute_one (st : list pystr * pystr) (p : pystr * pystr) : list pystr * pystr :=
  let '(used, text) := st in
  let ph := placeholder (fst p) in
  if Nat.ltb 0 (count ph text 0) then (used ++ [fst p], replace ph (snd p) text 0) else (used, text).
Definition substitute_placeholders (text : pystr) (params : list (pystr * pystr)) : list pystr * pystr :=
  fold_left substitute_one params ([], text).

(** Records of water_balance.yaml read by [_extract_result], flow_mc.py:412-445: time, region, data[0], data[1]; floats
    are replaced by rationals. A file without the keys is left out. *)
Record flux_item := mkI { i_time : Q; i_region : pystr; i_flux : Q; i_in : Q }.
Definition outflow : pystr := str ".bc_outflow".
Fixpoint extract_loop (items : list flux_item) (total : Q) (found : bool) : res (Q * bool) :=
  match items with
  | [] => Ok (total, found)
  | it :: items' =>
      if negb (Qle_bool (i_time it) 0) then Ok (total, found)
      else if pystr_eq_dec (i_region it) outflow then
        if negb (Qle_bool (i_in it) (1 # 10000000000)) then Err PyException
        else extract_loop items' (total + i_flux it)%Q true
      else extract_loop items' total found
  end.
Definition extract_result (items : list flux_item) : res Q :=
  match extract_loop items 0%Q false with
  | Err e => Err e
  | Ok (total, found) => if found then Ok (- total)%Q else Err PyException
  end.
