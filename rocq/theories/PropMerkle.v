(** * C75, C76: collisions and extension of the hash functions *)
From Coq Require Import String.
From Verif Require Import Base BaseLemmas ModelSha ModelMd SpecEndian SpecWord SpecText SpecMd SpecSha SpecMerkle
  ProofMerkle.
Local Open Scope N_scope.
Local Open Scope list_scope.

(** C75. Two messages with one digest give two inputs of the compression
    function with one result, found at the blocks of the two messages. *)
Theorem c75_sha1 : forall m m', bytes m -> bytes m' ->
  N.of_nat (length m) < 2 ^ 61 -> N.of_nat (length m') < 2 ^ 61 -> m <> m' -> sha1 m = sha1 m' ->
  step_collision sha1_process_chunk INITIAL_HASH_SHA1
    (groups 64 (sha_pad 64 8 m)) (groups 64 (sha_pad 64 8 m')).
Proof. exact sha1_collision. Qed.

Theorem c75_sha256 : forall m m', bytes m -> bytes m' ->
  N.of_nat (length m) < 2 ^ 61 -> N.of_nat (length m') < 2 ^ 61 -> m <> m' -> sha256 m = sha256 m' ->
  step_collision sha2_process_chunk INITIAL_HASH_256
    (groups 64 (sha_pad 64 8 m)) (groups 64 (sha_pad 64 8 m')).
Proof. exact sha256_collision. Qed.

Theorem c75_sha512 : forall m m', bytes m -> bytes m' ->
  N.of_nat (length m) < 2 ^ 125 -> N.of_nat (length m') < 2 ^ 125 -> m <> m' -> sha512 m = sha512 m' ->
  step_collision sha2_process_big_chunk INITIAL_HASH_512
    (groups 128 (sha_pad 128 16 m)) (groups 128 (sha_pad 128 16 m')).
Proof. exact sha512_collision. Qed.

Theorem c75_sha224 : forall m m', bytes m -> bytes m' ->
  N.of_nat (length m) < 2 ^ 61 -> N.of_nat (length m') < 2 ^ 61 -> m <> m' -> sha224 m = sha224 m' ->
  step_collision sha2_process_chunk INITIAL_HASH_224
    (groups 64 (sha_pad 64 8 m)) (groups 64 (sha_pad 64 8 m')) \/
  truncated_collision sha2_process_chunk INITIAL_HASH_224 7
    (groups 64 (sha_pad 64 8 m)) (groups 64 (sha_pad 64 8 m')).
Proof. exact sha224_collision. Qed.

Theorem c75_sha384 : forall m m', bytes m -> bytes m' ->
  N.of_nat (length m) < 2 ^ 125 -> N.of_nat (length m') < 2 ^ 125 -> m <> m' -> sha384 m = sha384 m' ->
  step_collision sha2_process_big_chunk INITIAL_HASH_384
    (groups 128 (sha_pad 128 16 m)) (groups 128 (sha_pad 128 16 m')) \/
  truncated_collision sha2_process_big_chunk INITIAL_HASH_384 6
    (groups 128 (sha_pad 128 16 m)) (groups 128 (sha_pad 128 16 m')).
Proof. exact sha384_collision. Qed.

Theorem c75_md4 : forall m m',
  N.of_nat (length m) < 2 ^ 61 -> N.of_nat (length m') < 2 ^ 61 -> m <> m' -> md4_hash m = md4_hash m' ->
  step_collision (fun st b => Ok (md_compress md4_step md4_ops st b)) md_init
    (groups 64 (md_pad m)) (groups 64 (md_pad m')).
Proof. exact md4_collision. Qed.

Theorem c75_md5 : forall m m',
  N.of_nat (length m) < 2 ^ 61 -> N.of_nat (length m') < 2 ^ 61 -> m <> m' -> md5_hash m = md5_hash m' ->
  step_collision (fun st b => Ok (md_compress md5_step md5_ops st b)) md_init
    (groups 64 (md_pad m)) (groups 64 (md_pad m')).
Proof. exact md5_collision. Qed.

(** The hypotheses are met for MD4, MD5 (Wang and others, 2004-2005) and SHA-1
    (the first 320 bytes of the two documents of Stevens and others, 2017). For
    SHA-2 no collision is known. *)
Theorem c75_md4_injective_refuted : exists m m' d, bytes m /\ bytes m' /\ length m = length m' /\ m <> m' /\
  md4_hash m = Ok d /\ md4_hash m' = Ok d.
Proof. exact md4_not_injective. Qed.

Theorem c75_md5_injective_refuted : exists m m' d, bytes m /\ bytes m' /\ length m = length m' /\ m <> m' /\
  md5_hash m = Ok d /\ md5_hash m' = Ok d.
Proof. exact md5_not_injective. Qed.

Theorem c75_sha1_injective_refuted : exists m m' d, bytes m /\ bytes m' /\ length m = length m' /\ m <> m' /\
  sha1 m = Ok d /\ sha1 m' = Ok d.
Proof. exact sha1_not_injective. Qed.

(** C76. The digest of a longer message from the digest and the length of a
    prefix. *)
Theorem c76_sha1 : forall m x d, bytes m -> bytes x ->
  N.of_nat (length (m ++ sha_tail 64 8 (length m) ++ x)) < 2 ^ 61 -> sha1 m = Ok d ->
  sha1 (m ++ sha_tail 64 8 (length m) ++ x) = Ok (sha1_extend d (length m) x).
Proof. exact sha1_extension. Qed.

Theorem c76_sha256 : forall m x d, bytes m -> bytes x ->
  N.of_nat (length (m ++ sha_tail 64 8 (length m) ++ x)) < 2 ^ 61 -> sha256 m = Ok d ->
  sha256 (m ++ sha_tail 64 8 (length m) ++ x) = Ok (sha2_extend sha256_kind d (length m) x).
Proof. exact sha256_extension. Qed.

Theorem c76_sha512 : forall m x d, bytes m -> bytes x ->
  N.of_nat (length (m ++ sha_tail 128 16 (length m) ++ x)) < 2 ^ 125 -> sha512 m = Ok d ->
  sha512 (m ++ sha_tail 128 16 (length m) ++ x) = Ok (sha2_extend sha512_kind d (length m) x).
Proof. exact sha512_extension. Qed.

Theorem c76_md4 : forall m x d, N.of_nat (length (m ++ md_tail (length m) ++ x)) < 2 ^ 61 ->
  md4_hash m = Ok d ->
  md4_hash (m ++ md_tail (length m) ++ x) = Ok (md_extend md4_step md4_ops d (length m) x).
Proof. exact md4_extension. Qed.

Theorem c76_md5 : forall m x d, N.of_nat (length (m ++ md_tail (length m) ++ x)) < 2 ^ 61 ->
  md5_hash m = Ok d ->
  md5_hash (m ++ md_tail (length m) ++ x) = Ok (md_extend md5_step md5_ops d (length m) x).
Proof. exact md5_extension. Qed.

(** The digest of "secret" ("5ebe2294ecd0e0f08eab7690d2a6ee69" for MD5), taken
    further without knowing the word. *)
Example c76_case :
  md5_hash (text "secret") = Ok (be_bytes 16 0x5ebe2294ecd0e0f08eab7690d2a6ee69) /\
  md5_hash (text "secret" ++ md_tail 6 ++ text "admin") =
    Ok (md_extend md5_step md5_ops (be_bytes 16 0x5ebe2294ecd0e0f08eab7690d2a6ee69) 6 (text "admin")) /\
  length (md_tail 6) = 58%nat.
Proof.
  split; [vm_compute; reflexivity|]. split; [vm_compute; reflexivity|vm_compute; reflexivity].
Qed.

(** A collision stays one under every continuation. *)
Theorem c76_sha1_collisions_extend : forall m m' x, bytes m -> bytes m' -> bytes x ->
  length m = length m' -> N.of_nat (length (m ++ sha_tail 64 8 (length m) ++ x)) < 2 ^ 61 ->
  sha1 m = sha1 m' ->
  sha1 (m ++ sha_tail 64 8 (length m) ++ x) = sha1 (m' ++ sha_tail 64 8 (length m') ++ x).
Proof. exact sha1_collisions_extend. Qed.

Print Assumptions c75_sha1.
Print Assumptions c75_sha256.
Print Assumptions c75_sha512.
Print Assumptions c75_sha224.
Print Assumptions c75_sha384.
Print Assumptions c75_md4.
Print Assumptions c75_md5.
Print Assumptions c75_md4_injective_refuted.
Print Assumptions c75_md5_injective_refuted.
Print Assumptions c75_sha1_injective_refuted.
Print Assumptions c76_sha1.
Print Assumptions c76_sha256.
Print Assumptions c76_sha512.
Print Assumptions c76_md4.
Print Assumptions c76_md5.
Print Assumptions c76_sha1_collisions_extend.
