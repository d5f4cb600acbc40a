(** * C101: successive collisions give many messages with one digest *)
From Verif Require Import Base BaseLemmas ModelSha ModelMd SpecEndian SpecMd SpecSha SpecMerkle SpecMulti ProofMulti.
Local Open Scope N_scope.

(** k successive collisions of the compression function give 2^k messages of one length
    and with one digest, whatever follows. *)
Theorem c101_sha1 : forall ps x, chain sha1_process_chunk 64 INITIAL_HASH_SHA1 ps -> bytes x ->
  N.of_nat (chain_length ps + length x) < 2 ^ 61 -> multicollision sha1 ps x.
Proof. exact sha1_multi. Qed.
Print Assumptions c101_sha1.

Theorem c101_sha224 : forall ps x, chain sha2_process_chunk 64 INITIAL_HASH_224 ps -> bytes x ->
  N.of_nat (chain_length ps + length x) < 2 ^ 61 -> multicollision sha224 ps x.
Proof. exact sha224_multi. Qed.
Print Assumptions c101_sha224.

Theorem c101_sha256 : forall ps x, chain sha2_process_chunk 64 INITIAL_HASH_256 ps -> bytes x ->
  N.of_nat (chain_length ps + length x) < 2 ^ 61 -> multicollision sha256 ps x.
Proof. exact sha256_multi. Qed.
Print Assumptions c101_sha256.

Theorem c101_sha384 : forall ps x, chain sha2_process_big_chunk 128 INITIAL_HASH_384 ps -> bytes x ->
  N.of_nat (chain_length ps + length x) < 2 ^ 125 -> multicollision sha384 ps x.
Proof. exact sha384_multi. Qed.
Print Assumptions c101_sha384.

Theorem c101_sha512 : forall ps x, chain sha2_process_big_chunk 128 INITIAL_HASH_512 ps -> bytes x ->
  N.of_nat (chain_length ps + length x) < 2 ^ 125 -> multicollision sha512 ps x.
Proof. exact sha512_multi. Qed.
Print Assumptions c101_sha512.

Theorem c101_md4 : forall ps x, chain (fun st b => Ok (md_compress md4_step md4_ops st b)) 64 md_init ps -> bytes x ->
  N.of_nat (chain_length ps + length x) < 2 ^ 61 -> multicollision md4_hash ps x.
Proof. exact md4_multi. Qed.
Print Assumptions c101_md4.

Theorem c101_md5 : forall ps x, chain (fun st b => Ok (md_compress md5_step md5_ops st b)) 64 md_init ps -> bytes x ->
  N.of_nat (chain_length ps + length x) < 2 ^ 61 -> multicollision md5_hash ps x.
Proof. exact md5_multi. Qed.
Print Assumptions c101_md5.

(** A second hash function beside the first does not help: two of the messages agree under any
    further function with fewer than 2^k values. *)
Theorem c101_two_hashes : forall hash ps x (other : list N -> list N) (values : list (list N)),
  multicollision hash ps x -> (forall m, In m (choices ps) -> In (other (m ++ x)) values) ->
  (length values < 2 ^ length ps)%nat ->
  exists m m', In m (choices ps) /\ In m' (choices ps) /\ m <> m' /\
    hash (m ++ x) = hash (m' ++ x) /\ other (m ++ x) = other (m' ++ x).
Proof. exact joux. Qed.
Print Assumptions c101_two_hashes.

(** Eight messages with one MD4 digest. *)
Theorem c101_md4_eight : forall x, bytes x -> N.of_nat (length x) < 2 ^ 60 ->
  exists ms d, length ms = 8%nat /\ NoDup ms /\ forall m, In m ms -> md4_hash (m ++ x) = Ok d.
Proof. exact md4_eight. Qed.
Print Assumptions c101_md4_eight.

Example c101_case :
  chain (fun st b => Ok (md_compress md4_step md4_ops st b)) 64 md_init md4_chain /\ chain_length md4_chain = 192%nat /\
  map md4_hash (choices md4_chain) = repeat (md4_hash (concat (map fst md4_chain))) 8.
Proof. split; [exact md4_chain_ok|]. split; vm_compute; reflexivity. Qed.
