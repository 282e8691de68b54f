(** What template substitution and the extraction of the outflow are meant to do. *)
From Verif Require Import Base FlowModel.

(** A template as a sequence of characters and placeholders. *)
Inductive token := Chr (c : ascii) | Ph (name : pystr).
Definition show (t : token) : pystr := match t with Chr c => [c] | Ph n => "<"%char :: n ++ [">"%char] end.
Definition text_of (ts : list token) : pystr := flat_map show ts.
Definition no_open (s : pystr) : Prop := ~ In "<"%char s.
Definition no_brackets (s : pystr) : Prop := ~ In "<"%char s /\ ~ In ">"%char s.
(** Characters other than an opening bracket, and names without brackets: an opening bracket is closed before the next. *)
Definition flat (ts : list token) : Prop := Forall (fun t => match t with Chr c => c <> "<"%char | Ph n => no_brackets n end) ts.
Fixpoint lookup {B} (ps : list (pystr * B)) (n : pystr) : option B :=
  match ps with [] => None | (m, v) :: ps' => if pystr_eq_dec n m then Some v else lookup ps' n end.
Definition fill (ps : list (pystr * pystr)) (t : token) : list token :=
  match t with
  | Chr c => [Chr c]
  | Ph n => match lookup ps n with Some v => map Chr v | None => [Ph n] end
  end.
Definition filled (ps : list (pystr * pystr)) (ts : list token) : pystr := text_of (flat_map (fill ps) ts).

(** Records up to the first one with positive time, and those of the outflow. *)
Fixpoint before_later (items : list flux_item) : list flux_item :=
  match items with [] => [] | it :: items' => if Qlt_le_dec 0%Q (i_time it) then [] else it :: before_later items' end.
Definition at_outflow (it : flux_item) : Prop := i_region it = outflow.
Fixpoint fluxes (items : list flux_item) : Q :=
  match items with [] => 0 | it :: items' => (if pystr_eq_dec (i_region it) outflow then i_flux it else 0) + fluxes items' end%Q.
