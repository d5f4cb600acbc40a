(** * C80 (continued) and C94: states of RC4 that never occur; RC5 without rounds *)
From Coq Require Import Permutation.
From Verif Require Import Base BaseLemmas ModelBlock ModelRc SpecBlock SpecEndian SpecWeak ProofWeak.
Local Open Scope N_scope.

(** C80. Finney's states are closed in both directions, *)
Theorem c80_finney_closed : forall ks k ks',
  Permutation (map N.of_nat (seq 0 256)) (rc4_state ks) /\ rc4_x ks < 256 /\ rc4_y ks < 256 ->
  rc4_next ks = Ok (k, ks') -> (finney ks <-> finney ks').
Proof. exact finney_step. Qed.
Print Assumptions c80_finney_closed.

(** and no key leads to one of them. *)
Theorem c80_finney_never : forall key ks0 bs ks, key <> [] -> bytes key -> rc4_new key = Ok ks0 ->
  yields rc4_next ks0 bs ks -> ~ finney ks.
Proof. exact finney_never. Qed.
Print Assumptions c80_finney_never.

(** A state of this kind. *)
Example c80_finney_case :
  finney {| rc4_state := map N.of_nat (seq 0 256); rc4_x := 0; rc4_y := 1 |} /\
  exists k ks', rc4_next {| rc4_state := map N.of_nat (seq 0 256); rc4_x := 0; rc4_y := 1 |} = Ok (k, ks') /\ finney ks'.
Proof.
  split; [split; reflexivity|]. do 2 eexists. split; [vm_compute; reflexivity|]. split; vm_compute; reflexivity.
Qed.

(** C94. RC5 with zero rounds, which [rc5_new] accepts, adds two words to the block. *)
Theorem c94_rc5_no_rounds : forall key c p ct, rc5_new key 0 = Ok c -> length p = 8%nat -> bytes p ->
  rc5_encrypt c p = Ok ct ->
  exists s0 s1, rc5_s c = [s0; s1] /\
    le_num (firstn 4 ct) = (le_num (firstn 4 p) + s0) mod 2 ^ 32 /\
    le_num (skipn 4 ct) = (le_num (skipn 4 p) + s1) mod 2 ^ 32.
Proof. exact rc5_no_rounds. Qed.
Print Assumptions c94_rc5_no_rounds.

(** So one block with its ciphertext determines the ciphertext of every other block. *)
Theorem c94_rc5_known_block : forall key c p p' ct ct', rc5_new key 0 = Ok c ->
  length p = 8%nat -> bytes p -> length p' = 8%nat -> bytes p' ->
  rc5_encrypt c p = Ok ct -> rc5_encrypt c p' = Ok ct' ->
  (le_num (firstn 4 ct') + le_num (firstn 4 p)) mod 2 ^ 32 = (le_num (firstn 4 ct) + le_num (firstn 4 p')) mod 2 ^ 32 /\
  (le_num (skipn 4 ct') + le_num (skipn 4 p)) mod 2 ^ 32 = (le_num (skipn 4 ct) + le_num (skipn 4 p')) mod 2 ^ 32.
Proof. exact rc5_known_block. Qed.
Print Assumptions c94_rc5_known_block.

Example c94_case : exists c, rc5_new [1; 2; 3] 0 = Ok c /\
  rc5_encrypt c (repeat 0 8) = Ok [254; 4; 128; 62; 14; 26; 138; 11] /\
  rc5_encrypt c (1 :: repeat 0 7) = Ok [255; 4; 128; 62; 14; 26; 138; 11].
Proof. eexists. split; [vm_compute; reflexivity|]. split; vm_compute; reflexivity. Qed.
