(** What the directories of samples should hold, without reference to the operations on files. *)
From Verif Require Import Base TagModel TagSpec WorkModel.

Section WorkSpec.
Context {C : Type}.

(** The last element with a property. *)
Fixpoint last_such {A} (f : A -> bool) (l : list A) : option A :=
  match l with
  | [] => None
  | x :: l' => match last_such f l' with Some y => Some y | None => if f x then Some x else None end
  end.

Definition same (a b : pystr) : bool := if pystr_eq_dec a b then true else false.

(** The common file with a name: of several with the same name the last one. *)
Definition common_file (s0 : @fs C) (l : list path) (n : pystr) : option entry :=
  match last_such (fun p : path => same (@last pystr p []) n) l with Some p => s0 p | None => None end.

(** A file of a directory with given files after writes. *)
Definition after_writes (v : pystr -> option (@entry C)) (wr : list (pystr * C)) (n : pystr) : option entry :=
  match last_such (fun x => same (fst x) n) wr with Some x => Some (File (snd x)) | None => v n end.

(** A sample: identifier, common files, program. *)
Record sample := mkS
  { sid : pystr; cfiles : list path; prog : pystr -> (pystr -> option (@entry C)) -> list (pystr * C) * bool }.

(** A program started in a directory that holds the common files and nothing else: its success and the files it leaves. *)
Definition succeeds (s0 : @fs C) (x : sample) : bool := snd (prog x (sid x) (common_file s0 (cfiles x))).
Definition left_file (s0 : @fs C) (x : sample) (n : pystr) : option entry :=
  after_writes (common_file s0 (cfiles x)) (fst (prog x (sid x) (common_file s0 (cfiles x)))) n.

(** The number in the identifier is below five. *)
Definition first_five (id : pystr) : bool :=
  match read_tag id with Some (_, n) => (n <? 5)%N | None => false end.

(** Is the directory of the sample kept among the failed ones, among the successful ones? *)
Definition to_failed (s0 : @fs C) (x : sample) : bool := negb (succeeds s0 x).
Definition to_successful (s0 : @fs C) (x : sample) : bool := succeeds s0 x && first_five (sid x).

(** The last sample with identifier [id] kept in a directory. *)
Definition kept (sel : sample -> bool) (h : list sample) (id : pystr) : option sample :=
  last_such (fun x => same (sid x) id && sel x) h.

(** [out] holds, besides the two directories, one directory of files for each identifier kept, and nothing else; outside of [out]
    nothing has changed since [s0]. *)
Record holds (s0 : @fs C) (out : path) (h : list sample) (s : @fs C) : Prop := mkH
  { h_outside : forall q, (forall r, q <> out ++ r) -> s q = s0 q;
    h_out : s out = Some Dir;
    h_failed : s (out ++ [str "failed"]) = Some Dir;
    h_successful : s (out ++ [str "several_successful"]) = Some Dir;
    h_others : forall x r, x <> str "failed" -> x <> str "several_successful" -> s (out ++ x :: r) = None;
    h_failed_dir : forall id,
      s (out ++ [str "failed"; id]) = match kept (to_failed s0) h id with Some _ => Some Dir | None => None end;
    h_successful_dir : forall id,
      s (out ++ [str "several_successful"; id]) = match kept (to_successful s0) h id with Some _ => Some Dir | None => None end;
    h_failed_file : forall id n,
      s (out ++ [str "failed"; id; n]) = match kept (to_failed s0) h id with Some x => left_file s0 x n | None => None end;
    h_successful_file : forall id n,
      s (out ++ [str "several_successful"; id; n]) =
      match kept (to_successful s0) h id with Some x => left_file s0 x n | None => None end;
    h_deeper : forall a b c d r, s (out ++ a :: b :: c :: d :: r) = None }.

(** Identifiers given by the sampler, below ten million samples. *)
Definition good_id (id : pystr) : Prop := exists l n, id = sample_tag l n /\ (n < 10000000)%N.

(** The common files exist and are not below [out]. *)
Definition good_common (s0 : @fs C) (out : path) (l : list path) : Prop :=
  forall p, In p l -> (exists c, s0 p = Some (File c)) /\ (forall r, p <> out ++ r).

(** The simulation of a level that runs the program of a sample; common files are named by absolute paths. *)
Definition level (x : sample) : @lsim C := mkL true (Some (map Abs (cfiles x))) (prog x).

(** No entry below something that does not exist. *)
Definition rooted (s : @fs C) : Prop := forall p x, s (p ++ [x]) <> None -> s p = Some Dir.

End WorkSpec.
