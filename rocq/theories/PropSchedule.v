(** * C99: the message schedules of SHA lose nothing *)
From Verif Require Import Base BaseLemmas ModelSha SpecWord SpecSha SpecSchedule ProofSchedule.
Local Open Scope N_scope.

(** Sixteen consecutive words of the schedule determine the block, wherever they are. *)
Theorem c99_sha1_window : forall b b' i, length b = 64%nat -> bytes b -> length b' = 64%nat -> bytes b' -> (i <= 64)%nat ->
  (forall t, (i <= t < i + 16)%nat -> nth t (sha1_schedule 64 b) 0 = nth t (sha1_schedule 64 b') 0) -> b = b'.
Proof. exact sha1_window. Qed.
Print Assumptions c99_sha1_window.

Theorem c99_sha256_window : forall b b' i, length b = 64%nat -> bytes b -> length b' = 64%nat -> bytes b' -> (i <= 48)%nat ->
  (forall t, (i <= t < i + 16)%nat ->
     nth t (sha2_schedule sha256_kind 48 b) 0 = nth t (sha2_schedule sha256_kind 48 b') 0) -> b = b'.
Proof. exact (fun b b' => sha2_window sha256_kind (Nat.lt_0_succ 3) b b' 48). Qed.
Print Assumptions c99_sha256_window.

Theorem c99_sha512_window : forall b b' i, length b = 128%nat -> bytes b -> length b' = 128%nat -> bytes b' -> (i <= 64)%nat ->
  (forall t, (i <= t < i + 16)%nat ->
     nth t (sha2_schedule sha512_kind 64 b) 0 = nth t (sha2_schedule sha512_kind 64 b') 0) -> b = b'.
Proof. exact (fun b b' => sha2_window sha512_kind (Nat.lt_0_succ 7) b b' 64). Qed.
Print Assumptions c99_sha512_window.

(** Hence the words that two different blocks give to the rounds differ in at least five, four
    and five places: every run of sixteen rounds sees a difference. *)
Theorem c99_sha1_differences : forall b b', length b = 64%nat -> bytes b -> length b' = 64%nat -> bytes b' -> b <> b' ->
  (5 <= word_differences 80 (sha1_schedule 64 b) (sha1_schedule 64 b'))%nat.
Proof. exact sha1_differences. Qed.
Print Assumptions c99_sha1_differences.

Theorem c99_sha256_differences : forall b b', length b = 64%nat -> bytes b -> length b' = 64%nat -> bytes b' -> b <> b' ->
  (4 <= word_differences 64 (sha2_schedule sha256_kind 48 b) (sha2_schedule sha256_kind 48 b'))%nat.
Proof. exact (fun b b' L B L' B' D => sha2_differences sha256_kind (Nat.lt_0_succ 3) b b' 48 4 L B L' B' D (le_n 64)). Qed.
Print Assumptions c99_sha256_differences.

Theorem c99_sha512_differences : forall b b', length b = 128%nat -> bytes b -> length b' = 128%nat -> bytes b' -> b <> b' ->
  (5 <= word_differences 80 (sha2_schedule sha512_kind 64 b) (sha2_schedule sha512_kind 64 b'))%nat.
Proof. exact (fun b b' L B L' B' D => sha2_differences sha512_kind (Nat.lt_0_succ 7) b b' 64 5 L B L' B' D (le_n 80)). Qed.
Print Assumptions c99_sha512_differences.

(** These are the words that the rounds of the code work with: the result of a chunk depends on the
    block through them only. *)
Theorem c99_sha1_code : forall h b, length h = 5%nat -> Forall (fun v => v < 2 ^ 32) h -> length b = 64%nat -> bytes b ->
  sha1_process_chunk h b = Ok (sha1_from_words (sha1_schedule 64 b) h).
Proof. exact sha1_chunk_words. Qed.
Print Assumptions c99_sha1_code.

Theorem c99_sha256_code : forall h b, length h = 8%nat -> Forall (fun v => v < 2 ^ 32) h -> length b = 64%nat -> bytes b ->
  sha2_process_chunk h b = Ok (sha2_from_words sha256_kind (sha2_schedule sha256_kind 48 b) h).
Proof. exact sha256_chunk_words. Qed.
Print Assumptions c99_sha256_code.

Theorem c99_sha512_code : forall h b, length h = 8%nat -> Forall (fun v => v < 2 ^ 64) h -> length b = 128%nat -> bytes b ->
  sha2_process_big_chunk h b = Ok (sha2_from_words sha512_kind (sha2_schedule sha512_kind 64 b) h).
Proof. exact sha512_chunk_words. Qed.
Print Assumptions c99_sha512_code.

(** One changed bit. *)
Example c99_case :
  let b := repeat 0 64 in let b' := 1 :: repeat 0 63 in
  word_differences 80 (sha1_schedule 64 b) (sha1_schedule 64 b') = 49%nat /\
  word_differences 64 (sha2_schedule sha256_kind 48 b) (sha2_schedule sha256_kind 48 b') = 46%nat.
Proof. split; vm_compute; reflexivity. Qed.
