(** * Properties C26-C28: src/md *)
From Coq Require Import String.
From Verif Require Import Base ModelMd SpecEndian SpecText SpecMd ProofMd2 ProofMd.
Local Open Scope N_scope.

(** C26. *)
Theorem c26_md2_conforms : forall m, bytes m ->
  md2_hash m = Ok (md2_spec m) /\ length (md2_spec m) = 16%nat /\ bytes (md2_spec m).
Proof. exact md2_conforms. Qed.

(** The vectors of tests/md.rs:12-24. *)
Example c26_case :
  md2_hash [] = Ok (be_bytes 16 0x8350e5a3e24c153df2275c9f80692773) /\
  md2_hash (text "The quick brown fox jumps over the lazy dog")
    = Ok (be_bytes 16 0x03d85a0d629d2c442e987525319fc471) /\
  md2_hash (text "The quick brown fox jumps over the lazy cog")
    = Ok (be_bytes 16 0x6b890c9292668cdbbfda00a4ebf31f05).
Proof. vm_compute. repeat split. Qed.

(** C27. *)
Theorem c27_md4_conforms : forall m, N.of_nat (length m) < 2 ^ 61 ->
  md4_hash m = Ok (md4_spec m).
Proof. exact md4_conforms. Qed.

(** A message of 2^61 bytes or more overflows the 64-bit count of bits. *)
Theorem c27_md4_long : forall m, 2 ^ 61 <= N.of_nat (length m) -> md4_hash m = Panic POverflow.
Proof. exact md4_long. Qed.

Theorem c27_md4_digest : forall m, length (md4_spec m) = 16%nat /\ bytes (md4_spec m).
Proof. exact (md_spec_wf _ _). Qed.

(** The vectors of tests/md.rs:27-41. *)
Example c27_case :
  md4_hash [] = Ok (be_bytes 16 0x31d6cfe0d16ae931b73c59d7e0c089c0) /\
  md4_hash (text "a") = Ok (be_bytes 16 0xbde52cb31de33e46245e05fbdbd6fb24) /\
  md4_hash (text "ABCDEFGHIJKLMNOPQRSTUVWXYZabcdefghijklmnopqrstuvwxyz0123456789")
    = Ok (be_bytes 16 0x043f8582f241db351ce627e153e7f0e4) /\
  md4_hash (text "12345678901234567890123456789012345678901234567890123456789012345678901234567890")
    = Ok (be_bytes 16 0xe33b4ddc9c38f2199c3e7b164fcc0536).
Proof. vm_compute. repeat split. Qed.

(** C28. *)
Theorem c28_md5_conforms : forall m, N.of_nat (length m) < 2 ^ 61 ->
  md5_hash m = Ok (md5_spec m).
Proof. exact md5_conforms. Qed.

Theorem c28_md5_long : forall m, 2 ^ 61 <= N.of_nat (length m) -> md5_hash m = Panic POverflow.
Proof. exact md5_long. Qed.

Theorem c28_md5_digest : forall m, length (md5_spec m) = 16%nat /\ bytes (md5_spec m).
Proof. exact (md_spec_wf _ _). Qed.

(** The vectors of tests/md.rs:43-57. *)
Example c28_case :
  md5_hash [] = Ok (be_bytes 16 0xd41d8cd98f00b204e9800998ecf8427e) /\
  md5_hash (text "a") = Ok (be_bytes 16 0x0cc175b9c0f1b6a831c399e269772661) /\
  md5_hash (text "ABCDEFGHIJKLMNOPQRSTUVWXYZabcdefghijklmnopqrstuvwxyz0123456789")
    = Ok (be_bytes 16 0xd174ab98d277d9f5a5611c2c9f419d9f) /\
  md5_hash (text "12345678901234567890123456789012345678901234567890123456789012345678901234567890")
    = Ok (be_bytes 16 0x57edf4a22be3c955ac49da2e2107b67a).
Proof. vm_compute. repeat split. Qed.

Print Assumptions c26_md2_conforms.
Print Assumptions c27_md4_conforms.
Print Assumptions c27_md4_long.
Print Assumptions c27_md4_digest.
Print Assumptions c28_md5_conforms.
Print Assumptions c28_md5_long.
Print Assumptions c28_md5_digest.
