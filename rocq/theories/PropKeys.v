(** * C79, C80: key spaces; the state of RC4 *)
From Coq Require Import Permutation.
From Verif Require Import Base BaseLemmas ModelAes ModelBlock ModelRc SpecBlock SpecEndian SpecRc SpecAes SpecKeys ProofKeys.
Local Open Scope N_scope.

(** C79. RC2 with [t1] effective bits has exactly [2^t1] schedules, whatever the
    length of the keys: every key gives one of them, each is given by a key, and
    they are different. *)
Theorem c79_rc2_effective_bits : forall key t1,
  (1 <= length key <= 128)%nat -> bytes key -> 1 <= t1 <= 1024 ->
  exists x, x < 2 ^ t1 /\ rc2_from_key key t1 = Ok (rc2_effective t1 x).
Proof. exact rc2_keys_effective. Qed.

Theorem c79_rc2_all_reached : forall t1 x, 1 <= t1 <= 1024 -> x < 2 ^ t1 ->
  exists key, length key = 128%nat /\ bytes key /\ rc2_from_key key t1 = Ok (rc2_effective t1 x).
Proof. exact rc2_effective_reached. Qed.

Theorem c79_rc2_distinct : forall t1 x y, 1 <= t1 <= 1024 -> x < 2 ^ t1 -> y < 2 ^ t1 ->
  rc2_effective t1 x = rc2_effective t1 y -> x = y.
Proof. exact rc2_effective_distinct. Qed.

(** RC4 reads 256 bytes of the repeated key. *)
Theorem c79_rc4_key_bytes : forall key key', key <> [] -> key' <> [] -> bytes key -> bytes key' ->
  rc4_key_bytes key = rc4_key_bytes key' -> rc4_new key = rc4_new key'.
Proof. exact rc4_same_key_bytes. Qed.

Theorem c79_rc4_repeated_key : forall key n, key <> [] -> bytes key -> (1 <= n)%nat ->
  rc4_new (concat (repeat key n)) = rc4_new key.
Proof. exact rc4_repeated_key. Qed.

Theorem c79_rc4_long_key : forall key rest, length key = 256%nat -> bytes key -> bytes rest ->
  rc4_new (key ++ rest) = rc4_new key.
Proof. exact rc4_long_key. Qed.

(** RC5: zeros up to the next word boundary change nothing. *)
Theorem c79_rc5_zero_padded : forall key n r, (1 <= length key)%nat -> (length key + n <= 255)%nat ->
  ((length key + n + 3) / 4 = (length key + 3) / 4)%nat ->
  rc5_new (key ++ repeat 0 n) r = rc5_new key r.
Proof. exact rc5_zero_padded. Qed.

(** AES: no two keys have the same schedule; any [m] consecutive round keys with at
    least as many words as the key determine the key (one for AES-128, two for
    the others). *)
Theorem c79_aes_round_keys : forall nk key key' c c' r m, nk = 4%nat \/ nk = 6%nat \/ nk = 8%nat ->
  length key = (4 * nk)%nat -> length key' = (4 * nk)%nat -> bytes key -> bytes key' ->
  aes_make nk key = Ok c -> aes_make nk key' = Ok c' -> (nk <= 4 * m)%nat -> (r + m <= nk + 7)%nat ->
  (forall i, (r <= i < r + m)%nat -> nth i (aes_keys c) [] = nth i (aes_keys c') []) -> key = key'.
Proof. exact aes_round_keys. Qed.

(** Keys that differ and give the same cipher. *)
Example c79_case :
  rc4_new [1; 2; 1; 2] = rc4_new [1; 2] /\
  rc5_new [1; 2; 3; 4; 5] 12 = rc5_new [1; 2; 3; 4; 5; 0; 0; 0] 12 /\
  rc5_new [1; 2; 3; 4; 5] 12 <> rc5_new [1; 2; 3; 4; 5; 0; 0; 0; 0] 12 /\
  rc2_from_key [0x88; 0xbc; 0xa9; 0x0e; 0x90; 0x87; 0x5a] 1 = Ok (rc2_effective 1 0) /\
  rc2_from_key [7] 1 = Ok (rc2_effective 1 1) /\ rc2_from_key [8] 1 = Ok (rc2_effective 1 0).
Proof.
  split; [vm_compute; reflexivity|]. split; [vm_compute; reflexivity|].
  split; [vm_compute; discriminate|]. split; [vm_compute; reflexivity|].
  split; vm_compute; reflexivity.
Qed.

(** C80. Going forward loses nothing: the state before is determined by the state
    after, and with it the byte produced. *)
Theorem c80_reversible : forall ks1 ks2 k1 k2 ks,
  Permutation (map N.of_nat (seq 0 256)) (rc4_state ks1) /\ rc4_x ks1 < 256 /\ rc4_y ks1 < 256 ->
  Permutation (map N.of_nat (seq 0 256)) (rc4_state ks2) /\ rc4_x ks2 < 256 /\ rc4_y ks2 < 256 ->
  rc4_next ks1 = Ok (k1, ks) -> rc4_next ks2 = Ok (k2, ks) -> ks1 = ks2 /\ k1 = k2.
Proof. exact rc4_next_inj. Qed.

(** So every state comes back and every key stream is periodic from the start. *)
Theorem c80_cycle : forall ks,
  Permutation (map N.of_nat (seq 0 256)) (rc4_state ks) /\ rc4_x ks < 256 /\ rc4_y ks < 256 ->
  exists bs, bs <> [] /\ yields rc4_next ks bs ks.
Proof. exact rc4_cycle. Qed.

Theorem c80_periodic : forall key, key <> [] -> bytes key ->
  exists n, (0 < n)%nat /\ forall m, rc4_stream key (n + m) = rc4_stream key n ++ rc4_stream key m.
Proof. exact rc4_stream_periodic. Qed.

(** The bias of the second byte: it is 0 whenever the third entry of the initial
    table is 0 and the second is not 2. *)
Theorem c80_second_byte : forall ks,
  Permutation (map N.of_nat (seq 0 256)) (rc4_state ks) /\ rc4_x ks < 256 /\ rc4_y ks < 256 ->
  rc4_x ks = 0 -> rc4_y ks = 0 -> nth 2 (rc4_state ks) 0 = 0 -> nth 1 (rc4_state ks) 0 <> 2 ->
  exists k ks', yields rc4_next ks [k; 0] ks'.
Proof. exact rc4_second_byte. Qed.

(** A key whose table starts like this. *)
Example c80_case : exists ks, rc4_new [0; 253] = Ok ks /\ nth 2 (rc4_state ks) 0 = 0 /\
  nth 1 (rc4_state ks) 0 <> 2 /\ nth 1 (rc4_stream [0; 253] 2) 9 = 0.
Proof.
  eexists. split; [vm_compute; reflexivity|]. vm_compute. repeat split. discriminate.
Qed.

Print Assumptions c79_rc2_effective_bits.
Print Assumptions c79_rc2_all_reached.
Print Assumptions c79_rc2_distinct.
Print Assumptions c79_rc4_key_bytes.
Print Assumptions c79_rc4_repeated_key.
Print Assumptions c79_rc4_long_key.
Print Assumptions c79_rc5_zero_padded.
Print Assumptions c79_aes_round_keys.
Print Assumptions c80_reversible.
Print Assumptions c80_cycle.
Print Assumptions c80_periodic.
Print Assumptions c80_second_byte.
