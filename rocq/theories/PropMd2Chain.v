(** * Property C92: MD2 loses nothing of a block *)
From Verif Require Import Base BaseLemmas ModelMd SpecMd2Chain ProofMd2Chain.
Local Open Scope N_scope.
Local Open Scope list_scope.

(** The 48 bytes after the mixing determine the chunk and the 16 bytes of the state that the
    mixing read. *)
Theorem c92_mixing : forall h h' r r', md2_full h -> md2_full h' ->
  md2_process_chunk h = Ok r -> md2_process_chunk h' = Ok r' -> md2_x r = md2_x r' ->
  md2_chunk h = md2_chunk h' /\ firstn 16 (md2_x h) = firstn 16 (md2_x h').
Proof. exact mixing_injective. Qed.
Print Assumptions c92_mixing.

(** The other 32 bytes of the state are not read: the state between blocks is one of 16 bytes. *)
Theorem c92_mixing_inputs : forall h h' r r', md2_full h -> md2_full h' ->
  md2_process_chunk h = Ok r -> md2_process_chunk h' = Ok r' ->
  md2_chunk h = md2_chunk h' -> firstn 16 (md2_x h) = firstn 16 (md2_x h') -> md2_x r = md2_x r'.
Proof. exact mixing_inputs. Qed.
Print Assumptions c92_mixing_inputs.

(** From equal checksums, different chunks lead to different checksums. *)
Theorem c92_checksum_chunk : forall h h' r r', md2_full h -> md2_full h' ->
  md2_checksum h = md2_checksum h' -> md2_l h = md2_l h' ->
  md2_process_chunk h = Ok r -> md2_process_chunk h' = Ok r' ->
  md2_checksum r = md2_checksum r' -> md2_chunk h = md2_chunk h'.
Proof. exact checksum_of_chunk. Qed.
Print Assumptions c92_checksum_chunk.

(** The checksum detects every change inside one block, whatever surrounds it. *)
Theorem c92_one_block : forall pre b b' post h h', bytes pre -> bytes b -> bytes b' -> bytes post ->
  (length pre mod 16 = 0)%nat -> length b = 16%nat -> length b' = 16%nat -> b <> b' ->
  md2_absorb (pre ++ b ++ post) = Ok h -> md2_absorb (pre ++ b' ++ post) = Ok h' ->
  md2_checksum h <> md2_checksum h'.
Proof. exact one_block. Qed.
Print Assumptions c92_one_block.

(** Two messages of three blocks that differ in one bit of the second. *)
Example c92_case : exists h h',
  md2_absorb (repeat 1 16 ++ repeat 2 16 ++ repeat 3 16) = Ok h /\
  md2_absorb (repeat 1 16 ++ (3 :: repeat 2 15) ++ repeat 3 16) = Ok h' /\
  md2_checksum h = [60; 143; 15; 68; 185; 173; 2; 151; 33; 17; 130; 65; 222; 165; 120; 106] /\
  md2_checksum h' = [60; 167; 23; 180; 11; 16; 57; 26; 157; 249; 110; 20; 159; 103; 218; 59].
Proof.
  do 2 eexists. split; [vm_compute; reflexivity|]. split; [vm_compute; reflexivity|].
  cbn [md2_checksum]. split; reflexivity.
Qed.
