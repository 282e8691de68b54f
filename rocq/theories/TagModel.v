(** Sample identifiers. Models mlmc/sampler.py:114-120 and mlmc/sampling_pool.py:165-169. *)
From Verif Require Import Base.

(** Decimal digits of a natural number, most significant first, "0" for zero
    (python's "{:d}".format). [f] bounds the number of digits; [dec] gives enough. *)
Fixpoint dec_fuel (f : nat) (n : N) : list N :=
  match f with
  | 0 => []
  | S f' => if (n <? 10)%N then [n] else dec_fuel f' (n / 10)%N ++ [(n mod 10)%N]
  end.
Definition dec (n : N) : list N := dec_fuel (S (N.size_nat n)) n.

Definition digit_char (d : N) : ascii := ascii_of_N (48 + d).

(** "{:0wd}".format(n): the decimal digits left-padded with zeros to width w. *)
Definition pad_dec (w : nat) (n : N) : list N :=
  repeat 0%N (w - length (dec n)) ++ dec n.

(** sampler.py:114-120 [_get_sample_tag]:
    "L{:02d}_S{:07d}".format(level_id, int(self._n_scheduled_samples[level_id])).
    The counter is passed as an argument instead of being read from the sampler. *)
Definition sample_tag (level counter : N) : pystr :=
  str "L" ++ map digit_char (pad_dec 2 level) ++ str "_S" ++ map digit_char (pad_dec 7 counter).

(** Python s[-k:] for k > 0: the last k characters (the whole string if shorter). *)
Definition last_chars (k : nat) (s : pystr) : pystr := skipn (length s - k) s.

(** Python int(s) for a non-empty string of decimal digits; ValueError otherwise.
    Simplified: signs, blanks and underscores, which int() also accepts, are rejected. *)
Definition char_digit (c : ascii) : option N :=
  let n := N_of_ascii c in
  if ((48 <=? n) && (n <=? 57))%N%bool then Some (n - 48)%N else None.

Fixpoint int_aux (acc : N) (s : pystr) : res N :=
  match s with
  | [] => Ok acc
  | c :: s' => match char_digit c with
               | Some d => int_aux (10 * acc + d)%N s'
               | None => Err ValueError
               end
  end.
Definition py_int (s : pystr) : res N :=
  match s with [] => Err ValueError | _ => int_aux 0 s end.

(** sampling_pool.py:165-169 [move_successful_rm]: is the directory of a successful
    sample copied to the directory of kept samples?  N_SUCCESSFUL = 5. *)
Definition keep_dir (sample_id : pystr) : res bool :=
  bind (py_int (last_chars 7 sample_id)) (fun n => Ok (n <? 5)%N).
