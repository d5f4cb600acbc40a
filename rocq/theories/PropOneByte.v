(** * C127: keys that RC2 does not tell apart, src/rc/rc2.rs *)
From Verif Require Import Base BaseLemmas ModelBlock ModelRc SpecEndian ProofOneByte.
Local Open Scope N_scope.

(** With two bytes or more, and at least as many effective bits as the key has,
    different keys of the same length have different schedules. *)
Theorem c127_distinct : forall key key' t1, (2 <= length key <= 128)%nat -> length key = length key' ->
  bytes key -> bytes key' -> 8 * N.of_nat (length key) <= t1 <= 1024 ->
  rc2_from_key key t1 = rc2_from_key key' t1 -> key = key'.
Proof. exact rc2_keys_distinct. Qed.
Print Assumptions c127_distinct.

(** With one byte the top bit is lost, unless there are 1024 effective bits. *)
Theorem c127_top_bit : forall k t1, k < 128 -> 1 <= t1 <= 1023 ->
  rc2_from_key [k] t1 = rc2_from_key [k + 128] t1.
Proof. exact one_top_bit. Qed.
Print Assumptions c127_top_bit.
Theorem c127_all_bits : forall k k', k < 256 -> k' < 256 ->
  rc2_from_key [k] 1024 = rc2_from_key [k'] 1024 -> k = k'.
Proof. exact one_all_bits. Qed.
Print Assumptions c127_all_bits.

(** From 8 to 768 effective bits, the 256 keys of one byte have exactly 14
    schedules: those of the same 14 keys for every number of bits. *)
Theorem c127_fourteen : exists reps, length reps = 14%nat /\ NoDup reps /\ bytes reps /\
  (forall k t1, k < 256 -> 1 <= t1 <= 768 ->
     exists r, In r reps /\ rc2_from_key [k] t1 = rc2_from_key [r] t1) /\
  (forall r r' t1, In r reps -> In r' reps -> 8 <= t1 <= 1024 ->
     rc2_from_key [r] t1 = rc2_from_key [r'] t1 -> r = r').
Proof. exact one_byte_fourteen. Qed.
Print Assumptions c127_fourteen.

(** With fewer effective bits than the key has, keys collide: also of two bytes. *)
Theorem c127_few_bits_refuted : exists key key' t1, length key = 2%nat /\ length key' = 2%nat /\
  bytes key /\ bytes key' /\ 8 <= t1 <= 15 /\ key <> key' /\ rc2_from_key key t1 = rc2_from_key key' t1.
Proof. exact few_bits_collide. Qed.
Print Assumptions c127_few_bits_refuted.

Example c127_case :
  rc2_from_key [1] 8 = rc2_from_key [129] 8 /\ rc2_from_key [1] 1024 <> rc2_from_key [129] 1024 /\
  rc2_from_key [1] 8 <> rc2_from_key [2] 8 /\ rc2_from_key [1; 2] 16 <> rc2_from_key [129; 2] 16.
Proof.
  split; [vm_compute; reflexivity|]. split; [vm_compute; discriminate|].
  split; vm_compute; discriminate.
Qed.
