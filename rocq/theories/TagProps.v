From Verif Require Import Base TagModel TagSpec TagProofs.

(** C02: the level and the counter can be read back from every tag. *)
Theorem C02_tag_read_back : forall level counter : N,
  read_tag (sample_tag level counter) = Some (level, counter).
Proof. exact read_sample_tag. Qed.
Print Assumptions C02_tag_read_back.

(** C02: equal tags come from equal level and counter. *)
Theorem C02_tag_injective : forall l1 n1 l2 n2 : N,
  sample_tag l1 n1 = sample_tag l2 n2 -> l1 = l2 /\ n1 = n2.
Proof. exact sample_tag_inj. Qed.
Print Assumptions C02_tag_injective.

Example C02_example : sample_tag 3 42 = str "L03_S0000042"
  /\ sample_tag 123 98765432 = str "L123_S98765432".
Proof. vm_compute. auto. Qed.

(** C64: below ten million samples per level exactly the first five are kept. *)
Theorem C64_kept_dirs_partial : forall level n : N, (n < 10000000)%N ->
  (keep_dir (sample_tag level n) = Ok true <-> (n < 5)%N)
  /\ (keep_dir (sample_tag level n) = Ok false <-> (5 <= n)%N).
Proof.
  exact (fun l n H => conj (keep_dir_iff l n H) (keep_dir_false_iff l n H)).
Qed.
Print Assumptions C64_kept_dirs_partial.

(** C64 without the bound is false: sample ten million is kept as well. *)
Theorem C64_kept_dirs_refuted : exists level n : N,
  (5 <= n)%N /\ keep_dir (sample_tag level n) = Ok true.
Proof. exact keep_dir_wraps. Qed.
Print Assumptions C64_kept_dirs_refuted.

Example C64_example : keep_dir (str "L00_S0000004") = Ok true
  /\ keep_dir (str "L00_S0000005") = Ok false.
Proof. vm_compute. auto. Qed.
