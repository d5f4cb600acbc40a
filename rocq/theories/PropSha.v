(** * Properties C29-C32 and C34-C36: src/sha *)
From Coq Require Import String.
From Verif Require Import Base ModelSha SpecEndian SpecText SpecHex SpecSha ProofSha ProofSha2 ProofHash.
Local Open Scope N_scope.
Local Open Scope list_scope.

(** C29. The blocks that are processed (those cut off by [chunks_exact], then
    the one or two of the padding function) are the blocks of the padded
    message. *)
Theorem c29_sha_blocks : forall m, N.of_nat (length m) < 2 ^ 61 ->
  exists cs r last extra, chunks_exact 64 m = Ok (cs, r) /\
    sha1_padding r (N.of_nat (length m)) = Ok (last, extra) /\
    groups 64 (sha_pad 64 8 m) = cs ++ last :: match extra with Some x => [x] | None => [] end /\
    Forall (fun c => length c = 64%nat) (groups 64 (sha_pad 64 8 m)) /\
    concat (groups 64 (sha_pad 64 8 m)) = sha_pad 64 8 m.
Proof. exact blocks_64. Qed.

Theorem c29_sha_big_blocks : forall m, N.of_nat (length m) < 2 ^ 125 ->
  exists cs r last extra, chunks_exact 128 m = Ok (cs, r) /\
    sha2_padding_big r (N.of_nat (length m)) = Ok (last, extra) /\
    groups 128 (sha_pad 128 16 m) = cs ++ last :: match extra with Some x => [x] | None => [] end /\
    Forall (fun c => length c = 128%nat) (groups 128 (sha_pad 128 16 m)) /\
    concat (groups 128 (sha_pad 128 16 m)) = sha_pad 128 16 m.
Proof. exact blocks_128. Qed.

Theorem c29_sha_pad_injective : forall m m',
  N.of_nat (length m) < 2 ^ 61 -> N.of_nat (length m') < 2 ^ 61 ->
  sha_pad 64 8 m = sha_pad 64 8 m' -> m = m'.
Proof. exact sha_pad_inj_64. Qed.

Theorem c29_sha_big_pad_injective : forall m m',
  N.of_nat (length m) < 2 ^ 125 -> N.of_nat (length m') < 2 ^ 125 ->
  sha_pad 128 16 m = sha_pad 128 16 m' -> m = m'.
Proof. exact sha_pad_inj_128. Qed.

(** No smaller number of zeros completes a block. *)
Theorem c29_sha_pad_minimal : forall n l len z, (l < n)%nat ->
  ((len + 1 + z + l) mod n = 0)%nat -> ((2 * n - 1 - l - len mod n) mod n <= z)%nat.
Proof. exact sha_pad_zeros_min. Qed.

(** 55 bytes fit in one block, 56 need two. *)
Example c29_case :
  length (sha_pad 64 8 (repeat 65 55)) = 64%nat /\ length (sha_pad 64 8 (repeat 65 56)) = 128%nat /\
  sha1_padding (repeat 65 55) 55 = Ok (repeat 65 55 ++ 0x80 :: be_bytes 8 440, None) /\
  sha1_padding (repeat 65 56) 56
    = Ok (repeat 65 56 ++ 0x80 :: repeat 0 7, Some (repeat 0 56 ++ be_bytes 8 448)).
Proof. vm_compute. repeat split. Qed.

(** C30. *)
Theorem c30_sha1_conforms : forall m, bytes m -> N.of_nat (length m) < 2 ^ 61 ->
  sha1 m = Ok (sha1_spec m).
Proof. exact sha1_conforms. Qed.

Theorem c30_sha1_long : forall m, 2 ^ 61 <= N.of_nat (length m) -> sha1 m = Panic POverflow.
Proof. exact sha1_long. Qed.

(** The digest is the one written in hex. *)
Definition digest_is (d : res (list N)) (n : nat) (s : string) : Prop :=
  match d, hash_from_hex n (text s) with Ok a, Ok (ROk b) => a = b | _, _ => False end.

(** tests/sha1.rs:5-26. *)
Example c30_case :
  digest_is (sha1 []) 20 "da39a3ee5e6b4b0d3255bfef95601890afd80709" /\
  digest_is (sha1 (text "A")) 20 "6dcd4ce23d88e2ee9568ba546c007c63d9131c1b" /\
  digest_is (sha1 (text "The quick brown fox jumps over the lazy dog")) 20
    "2fd4e1c67a2d28fced849ee1bb76e7391b93eb12".
Proof. vm_compute. repeat split. Qed.

(** C31. *)
Theorem c31_sha224_conforms : forall m, bytes m -> N.of_nat (length m) < 2 ^ 61 ->
  sha224 m = Ok (sha224_spec m).
Proof. exact sha224_conforms. Qed.

Theorem c31_sha256_conforms : forall m, bytes m -> N.of_nat (length m) < 2 ^ 61 ->
  sha256 m = Ok (sha256_spec m).
Proof. exact sha256_conforms. Qed.

Theorem c31_sha224_long : forall m, 2 ^ 61 <= N.of_nat (length m) -> sha224 m = Panic POverflow.
Proof. exact sha224_long. Qed.

Theorem c31_sha256_long : forall m, 2 ^ 61 <= N.of_nat (length m) -> sha256 m = Panic POverflow.
Proof. exact sha256_long. Qed.

(** tests/sha2.rs:5-29. *)
Example c31_case :
  digest_is (sha224 []) 28 "d14a028c2a3a2bc9476102bb288234c415a2b01f828ea62ac5b3e42f" /\
  digest_is (sha224 (text "The quick brown fox jumps over the lazy dog")) 28
    "730e109bd7a8a32b1cb9d9a09aa2325d2430587ddbc0c38bad911525" /\
  digest_is (sha256 []) 32 "e3b0c44298fc1c149afbf4c8996fb92427ae41e4649b934ca495991b7852b855".
Proof. vm_compute. repeat split. Qed.

(** C32. 2^125 bytes is more than the address space. *)
Theorem c32_sha384_conforms : forall m, bytes m -> N.of_nat (length m) < 2 ^ 125 ->
  sha384 m = Ok (sha384_spec m).
Proof. exact sha384_conforms. Qed.

Theorem c32_sha512_conforms : forall m, bytes m -> N.of_nat (length m) < 2 ^ 125 ->
  sha512 m = Ok (sha512_spec m).
Proof. exact sha512_conforms. Qed.

(** tests/sha2.rs:32-46. *)
Example c32_case :
  digest_is (sha384 []) 48 "38b060a751ac96384cd9327eb1b1e36a21fdb71114be07434c0cc7bf63f6e1da274edebfe76f65fbd51ad2f14898b95b" /\
  digest_is (sha512 []) 64 "cf83e1357eefb8bdf1542850d66d8007d620e4050b5715dc83f4a921d36ce9ce47d0d13c5d85f2b0ff8318d2877eec2f63b931bd47417a81a538327af927da3e".
Proof. vm_compute. repeat split. Qed.

(** C34. Words to bytes and back, bytes to words and back. *)
Theorem c34_words_roundtrip : forall n ws, length ws = n -> Forall (fun v => v < 2 ^ 32) ws ->
  exists bs, u32s_to_bytes (4 * n) ws = Ok bs /\ bs = concat (map (be_bytes 4) ws) /\
    bytes_to_u32s n bs = Ok ws.
Proof. exact words32_roundtrip. Qed.

Theorem c34_bytes_roundtrip : forall n bs, length bs = (4 * n)%nat -> bytes bs ->
  exists ws, bytes_to_u32s n bs = Ok ws /\ ws = map be_num (groups 4 bs) /\
    length ws = n /\ Forall (fun v => v < 2 ^ 32) ws /\ u32s_to_bytes (4 * n) ws = Ok bs.
Proof. exact bytes32_roundtrip. Qed.

Theorem c34_words64_to_bytes : forall n ws, length ws = n ->
  u64s_to_bytes (8 * n) ws = Ok (concat (map (be_bytes 8) ws)).
Proof. exact words64_bytes. Qed.

Theorem c34_sha1_digest : forall m, length (sha1_spec m) = 20%nat /\ bytes (sha1_spec m).
Proof. exact sha1_spec_wf. Qed.
Theorem c34_sha224_digest : forall m, length (sha224_spec m) = 28%nat /\ bytes (sha224_spec m).
Proof. exact (fun m => sha2_spec_wf sha256_kind sha224_init 7 m eq_refl (le_S _ _ (le_n 7))). Qed.
Theorem c34_sha256_digest : forall m, length (sha256_spec m) = 32%nat /\ bytes (sha256_spec m).
Proof. exact (fun m => sha2_spec_wf sha256_kind sha256_init 8 m eq_refl (le_n 8)). Qed.
Theorem c34_sha384_digest : forall m, length (sha384_spec m) = 48%nat /\ bytes (sha384_spec m).
Proof. exact (fun m => sha2_spec_wf sha512_kind sha384_init 6 m eq_refl (le_S _ _ (le_S _ _ (le_n 6)))). Qed.
Theorem c34_sha512_digest : forall m, length (sha512_spec m) = 64%nat /\ bytes (sha512_spec m).
Proof. exact (fun m => sha2_spec_wf sha512_kind sha512_init 8 m eq_refl (le_n 8)). Qed.

Example c34_case :
  hash160_from_words [0x01020304; 5; 6; 7; 0xfffefdfc]
    = Ok [1; 2; 3; 4; 0; 0; 0; 5; 0; 0; 0; 6; 0; 0; 0; 7; 255; 254; 253; 252] /\
  hash160_to_words [1; 2; 3; 4; 0; 0; 0; 5; 0; 0; 0; 6; 0; 0; 0; 7; 255; 254; 253; 252]
    = Ok [0x01020304; 5; 6; 7; 0xfffefdfc].
Proof. vm_compute. repeat split. Qed.

(** C35 (violated). Every conversion of a [Hash384] or [Hash512] to words panics. *)
Theorem c35_hash384_words_panic : forall h, length h = 48%nat -> hash384_to_words h = Panic PUnwrap.
Proof.
  exact (fun h H => bytes_to_u64s_panics 6 h (eq_ind_r (fun k => (4 <= k)%nat) (Nat.le_add_r 4 44) H)).
Qed.
Theorem c35_hash512_words_panic : forall h, length h = 64%nat -> hash512_to_words h = Panic PUnwrap.
Proof.
  exact (fun h H => bytes_to_u64s_panics 8 h (eq_ind_r (fun k => (4 <= k)%nat) (Nat.le_add_r 4 60) H)).
Qed.
Theorem c35_words_roundtrip_refuted : exists ws, length ws = 8%nat /\ Forall (fun v => v < 2 ^ 64) ws /\
  forall h, hash512_from_words ws = Ok h -> hash512_to_words h <> Ok ws.
Proof. exact words64_refuted. Qed.

(** C36. Exactly the texts that print the value, up to the case of A-F. *)
Theorem c36_from_hex : forall n s bs,
  hash_from_hex n s = Ok (ROk bs) <-> length bs = n /\ bytes bs /\ map hex_lower s = hex_print bs.
Proof. exact from_hex_spec. Qed.

Theorem c36_from_hex_total : forall n s, exists r, hash_from_hex n s = Ok r.
Proof. exact from_hex_total. Qed.

Theorem c36_from_hex_print : forall n bs, length bs = n -> bytes bs ->
  hash_from_hex n (hex_print bs) = Ok (ROk bs).
Proof. exact from_hex_print. Qed.

(** Which error: the parity of the length first, then the first character that
    is not a digit, then the number of bytes. *)
Theorem c36_odd_length : forall n s, (length s mod 2 = 1)%nat ->
  hash_from_hex n s = Ok (RErr OddLength).
Proof. exact from_hex_odd. Qed.

Theorem c36_bad_character : forall n pre c post, Forall hex_digit pre -> ~ hex_digit c ->
  (length (pre ++ c :: post) mod 2 = 0)%nat ->
  hash_from_hex n (pre ++ c :: post) = Ok (RErr (InvalidHexCharacter c (length pre))).
Proof. exact from_hex_bad_char. Qed.

Theorem c36_bad_length : forall n s, Forall hex_digit s -> (length s mod 2 = 0)%nat ->
  length s <> (2 * n)%nat -> hash_from_hex n s = Ok (RErr InvalidStringLength).
Proof. exact from_hex_bad_length. Qed.

Example c36_case :
  hash_from_hex 2 (text "0fAb") = Ok (ROk [0x0f; 0xab]) /\
  hash_from_hex 2 (text "0fA") = Ok (RErr OddLength) /\
  hash_from_hex 2 (text "0fA1b2") = Ok (RErr InvalidStringLength) /\
  hash_from_hex 2 (text "0fg1") = Ok (RErr (InvalidHexCharacter 103 2)).
Proof. vm_compute. repeat split. Qed.

Print Assumptions c29_sha_blocks.
Print Assumptions c29_sha_big_blocks.
Print Assumptions c29_sha_pad_injective.
Print Assumptions c29_sha_big_pad_injective.
Print Assumptions c29_sha_pad_minimal.
Print Assumptions c30_sha1_conforms.
Print Assumptions c30_sha1_long.
Print Assumptions c31_sha224_conforms.
Print Assumptions c31_sha256_conforms.
Print Assumptions c31_sha224_long.
Print Assumptions c31_sha256_long.
Print Assumptions c32_sha384_conforms.
Print Assumptions c32_sha512_conforms.
Print Assumptions c34_words_roundtrip.
Print Assumptions c34_bytes_roundtrip.
Print Assumptions c34_words64_to_bytes.
Print Assumptions c34_sha1_digest.
Print Assumptions c34_sha224_digest.
Print Assumptions c34_sha256_digest.
Print Assumptions c34_sha384_digest.
Print Assumptions c34_sha512_digest.
Print Assumptions c35_hash384_words_panic.
Print Assumptions c35_hash512_words_panic.
Print Assumptions c35_words_roundtrip_refuted.
Print Assumptions c36_from_hex.
Print Assumptions c36_from_hex_total.
Print Assumptions c36_from_hex_print.
Print Assumptions c36_odd_length.
Print Assumptions c36_bad_character.
Print Assumptions c36_bad_length.
