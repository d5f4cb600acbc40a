(** * C109: the table lookups of AES disclose the key *)
From Verif Require Import Base BaseLemmas ModelAes ModelLookup SpecAes SpecLookup ProofLookup.
Local Open Scope N_scope.

(** The traced functions are the functions of the model: same value, same panic, in both
    profiles. *)
Theorem c109_erase_encrypt : forall (P : profile) c b, aes_encrypt c b = let* (r, _) := aes_encrypt_traced c b in Ok r.
Proof. exact @encrypt_erase. Qed.

Theorem c109_erase_decrypt : forall (P : profile) c b, aes_decrypt c b = let* (r, _) := aes_decrypt_traced c b in Ok r.
Proof. exact @decrypt_erase. Qed.

(** The indices of the lookups are the bytes of the successive states. *)
Theorem c109_encrypt_lookups : forall nk key c block, nk = 4%nat \/ nk = 6%nat \/ nk = 8%nat ->
  length key = (4 * nk)%nat -> bytes key -> length block = 16%nat -> bytes block -> aes_make nk key = Ok c ->
  exists out, aes_encrypt_traced c block =
    Ok (out, concat (map (enc_state (key_words nk key (4 * (nk + 7))) block) (seq 0 (nk + 6)))).
Proof. exact encrypt_lookups. Qed.

Theorem c109_decrypt_lookups : forall nk key c block, nk = 4%nat \/ nk = 6%nat \/ nk = 8%nat ->
  length key = (4 * nk)%nat -> bytes key -> length block = 16%nat -> bytes block -> aes_make nk key = Ok c ->
  exists out, aes_decrypt_traced c block =
    Ok (out, concat (map (dec_state (nk + 6) (key_words nk key (4 * (nk + 7))) block) (seq 0 (nk + 6)))).
Proof. exact decrypt_lookups. Qed.

(** One block and the first 32 lookups of its encryption give the key. *)
Theorem c109_key : forall nk key c block out t, nk = 4%nat \/ nk = 6%nat \/ nk = 8%nat ->
  length key = (4 * nk)%nat -> bytes key -> length block = 16%nat -> bytes block -> aes_make nk key = Ok c ->
  aes_encrypt_traced c block = Ok (out, t) -> key_of_lookups nk block t = key.
Proof. exact key_from_lookups. Qed.

(** No two keys have the same lookups in decryption. *)
Theorem c109_decrypt_key : forall nk key key' c c' block out out' t, nk = 4%nat \/ nk = 6%nat \/ nk = 8%nat ->
  length key = (4 * nk)%nat -> bytes key -> length key' = (4 * nk)%nat -> bytes key' ->
  length block = 16%nat -> bytes block -> aes_make nk key = Ok c -> aes_make nk key' = Ok c' ->
  aes_decrypt_traced c block = Ok (out, t) -> aes_decrypt_traced c' block = Ok (out', t) -> key = key'.
Proof. exact decrypt_same_lookups. Qed.

(** Who sees only the line of [2^k] table entries has the upper [8 - k] bits of the first 16 bytes
    of the key. *)
Theorem c109_lines : forall nk key c block out t k i, nk = 4%nat \/ nk = 6%nat \/ nk = 8%nat ->
  length key = (4 * nk)%nat -> bytes key -> length block = 16%nat -> bytes block -> aes_make nk key = Ok c ->
  aes_encrypt_traced c block = Ok (out, t) -> (i < 16)%nat ->
  nth i key 0 / 2 ^ k = N.lxor (nth i block 0 / 2 ^ k) (nth i t 0 / 2 ^ k).
Proof. exact lines. Qed.

(** FIPS 197, C.2: a key of 24 bytes. *)
Example c109_case : exists c out t, aes_make 6 (map N.of_nat (seq 0 24)) = Ok c /\
  aes_encrypt_traced c (map N.of_nat (seq 100 16)) = Ok (out, t) /\ length t = 192%nat /\
  key_of_lookups 6 (map N.of_nat (seq 100 16)) t = map N.of_nat (seq 0 24) /\
  nth 5 t 0 / 64 = 1.
Proof.
  eexists. eexists. eexists. split; [vm_compute; reflexivity|]. split; [vm_compute; reflexivity|].
  split; [vm_compute; reflexivity|]. split; vm_compute; reflexivity.
Qed.

Print Assumptions c109_erase_encrypt.
Print Assumptions c109_erase_decrypt.
Print Assumptions c109_encrypt_lookups.
Print Assumptions c109_decrypt_lookups.
Print Assumptions c109_key.
Print Assumptions c109_decrypt_key.
Print Assumptions c109_lines.
