(** * C117: differences of blocks in the message schedule of SHA-1 *)
From Verif Require Import Base BaseLemmas SpecBlock SpecSha SpecSchedule ModelSha ProofSchedule ProofXorSchedule.
Local Open Scope N_scope.

(** The message schedule of a xor is the xor of the schedules. *)
Theorem c117_linear : forall n b b', length b = 64%nat -> length b' = 64%nat -> bytes b -> bytes b' ->
  sha1_schedule n (xor_bytes b b') = xor_bytes (sha1_schedule n b) (sha1_schedule n b').
Proof. exact sha1_linear. Qed.
Print Assumptions c117_linear.

(** So a change of a block changes the words of the rounds in the same way whatever the block is ... *)
Theorem c117_difference : forall n b d, length b = 64%nat -> length d = 64%nat -> bytes b -> bytes d ->
  xor_bytes (sha1_schedule n b) (sha1_schedule n (xor_bytes b d)) = sha1_schedule n d.
Proof. exact sha1_difference. Qed.
Print Assumptions c117_difference.

(** ... and the same number of them. *)
Theorem c117_count : forall b d, length b = 64%nat -> length d = 64%nat -> bytes b -> bytes d ->
  word_differences 80 (sha1_schedule 64 b) (sha1_schedule 64 (xor_bytes b d)) =
  length (filter (fun t => negb (nth t (sha1_schedule 64 d) 0 =? 0)) (seq 0 80)).
Proof. exact sha1_difference_count. Qed.
Print Assumptions c117_count.

(** The rounds of the code see the block through these words only. *)
Theorem c117_code : forall h b d, length h = 5%nat -> Forall (fun v => v < 2 ^ 32) h ->
  length b = 64%nat -> length d = 64%nat -> bytes b -> bytes d ->
  sha1_process_chunk h (xor_bytes b d) = Ok (sha1_from_words (xor_bytes (sha1_schedule 64 b) (sha1_schedule 64 d)) h).
Proof. exact sha1_code_difference. Qed.
Print Assumptions c117_code.

(** SHA-256 adds, and its schedule is not linear. *)
Theorem c117_sha256_refuted : exists b b', length b = 64%nat /\ length b' = 64%nat /\ bytes b /\ bytes b' /\
  sha2_schedule sha256_kind 48 (xor_bytes b b') <> xor_bytes (sha2_schedule sha256_kind 48 b) (sha2_schedule sha256_kind 48 b').
Proof.
  exists (repeat 255 64), (1 :: repeat 0 63).
  split; [reflexivity|]. split; [reflexivity|]. split; [repeat constructor|]. split; [repeat constructor|].
  vm_compute. discriminate.
Qed.
Print Assumptions c117_sha256_refuted.

(** One changed bit. *)
Example c117_case :
  let d := 1 :: repeat 0 63 in let b := map N.of_nat (seq 100 64) in
  xor_bytes b d <> b /\
  firstn 20 (sha1_schedule 64 d) = [0x1000000] ++ repeat 0 15 ++ [0x2000000; 0; 0; 0x4000000] /\
  word_differences 80 (sha1_schedule 64 b) (sha1_schedule 64 (xor_bytes b d)) = 49%nat.
Proof. split; [vm_compute; discriminate|]. split; vm_compute; reflexivity. Qed.
