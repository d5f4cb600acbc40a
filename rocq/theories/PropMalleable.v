(** * C78: what can be done to ciphertexts without the key *)
From Verif Require Import Base BaseLemmas ModelPad ModelBlock ModelRc ModelBig ModelRsa SpecPad SpecBlock SpecRc
  SpecBig SpecRsa SpecLazy SpecMalleable ProofMalleable ProofLazy PropBlock.
Local Open Scope N_scope.

(** C78. Two messages encrypted from the same state of the keys: the difference of
    the ciphertexts is the difference of the plaintexts. *)
Theorem c78_keystream_reuse : forall K (next : key_iter K) k p1 p2 c1 c2 k1 k2,
  sc_encrypt next k p1 = Ok (c1, k1) -> sc_encrypt next k p2 = Ok (c2, k2) -> length p1 = length p2 ->
  xor_bytes c1 c2 = xor_bytes p1 p2.
Proof. exact (@stream_reuse). Qed.

(** A change to the ciphertext is the same change to what is decrypted. *)
Theorem c78_bit_flip : forall K (next : key_iter K) k p c k' e,
  sc_encrypt next k p = Ok (c, k') -> length e = length p ->
  sc_encrypt next k (xor_bytes c e) = Ok (xor_bytes p e, k').
Proof. exact (@stream_flip). Qed.

(** A [KeyStream] made from the same key starts in the same state, so this holds for
    any two messages under one key. *)
Theorem c78_rc4 : forall key p1 p2 e, key <> [] -> bytes key ->
  length p1 = length p2 -> length e = length p1 ->
  exists ks c1 c2, rc4_new key = Ok ks /\ rc4_encrypt ks p1 = Ok c1 /\ rc4_encrypt ks p2 = Ok c2 /\
    xor_bytes c1 c2 = xor_bytes p1 p2 /\ rc4_decrypt ks (xor_bytes c1 e) = Ok (xor_bytes p1 e).
Proof. exact rc4_malleable. Qed.

(** Under ECB equal blocks, and no others, are encrypted to equal blocks. *)
Theorem c78_ecb_equal_blocks : forall n cipher p bs, (1 <= n <= 255)%nat -> bytes p -> cipher_inverse n cipher ->
  blocks_of n (pkcs_message n p) bs ->
  exists c cs, be_encrypt n cipher ecb_mode tt p = (c, Ok tt) /\ blocks_of n c cs /\ length cs = length bs /\
    forall i j, (i < length bs)%nat -> (j < length bs)%nat ->
      (nth i cs [] = nth j cs [] <-> nth i bs [] = nth j bs []).
Proof. exact ecb_equal_blocks. Qed.

(** Any selection of the ciphertext blocks, in any order and any number of times,
    is decrypted to the same selection of the plaintext blocks, if followed by the
    last block. *)
Theorem c78_ecb_rearranged : forall n cipher p bs, (1 <= n <= 255)%nat -> bytes p -> cipher_inverse n cipher ->
  blocks_of n (pkcs_message n p) bs ->
  exists c cs, be_encrypt n cipher ecb_mode tt p = (c, Ok tt) /\ blocks_of n c cs /\ length cs = length bs /\
    forall is, Forall (fun i => (i < length bs)%nat) is ->
      be_decrypt n cipher ecb_mode tt (pick cs is ++ last cs []) =
        (pick bs is ++ skipn (n * (length p / n)) p, Ok tt).
Proof. exact ecb_rearranged. Qed.

(** [RsaEncryption] without padding: the product of ciphertexts is the ciphertext of
    the product. *)
Theorem c78_rsa_product : forall capf k key m1 m2 m,
  canonical (rsa_exponent key) -> canonical (rsa_modulo key) ->
  canonical m1 -> canonical m2 -> canonical m ->
  1 < num (rsa_modulo key) -> countable (rsa_exponent key) ->
  (length m1 + 4 <= k)%nat -> (length m2 + 4 <= k)%nat -> (length m + 4 <= k)%nat ->
  (length (rsa_modulo key) + 4 <= k)%nat -> allocates capf k ->
  num m mod num (rsa_modulo key) = (num m1 * num m2) mod num (rsa_modulo key) ->
  exists c1 c2 c, rsa_encrypt capf key m1 = Ok c1 /\ rsa_encrypt capf key m2 = Ok c2 /\
    rsa_encrypt capf key m = Ok c /\ mul_mod capf c1 c2 (rsa_modulo key) = Ok c.
Proof. exact rsa_multiplicative. Qed.

(** So whoever may have any other ciphertext decrypted can have this one. *)
Theorem c78_rsa_blinding : forall capf k p q e d n m s c1 c2,
  prime_N p -> prime_N q -> p <> q -> key_pair p q (num e) (num d) -> num n = p * q ->
  canonical n -> canonical d -> canonical e -> canonical m -> canonical s ->
  countable e -> countable d -> allocates capf k ->
  (length m + 4 <= k)%nat -> (length s + 4 <= k)%nat -> (length n + 4 <= k)%nat ->
  rsa_encrypt capf {| rsa_exponent := e; rsa_modulo := n |} m = Ok c1 ->
  rsa_encrypt capf {| rsa_exponent := e; rsa_modulo := n |} s = Ok c2 ->
  exists c r, mul_mod capf c1 c2 n = Ok c /\
    rsa_decrypt capf {| rsa_exponent := d; rsa_modulo := n |} c = Ok r /\ canonical r /\
    num r = (num m * num s) mod (p * q).
Proof. exact rsa_blinding. Qed.

(** Blocks of 4 bytes, the second repeated and the first dropped; the primes 61
    and 53, the message 97 and the factor 2. *)
Example c78_case :
  cipher_inverse 4 toy_cipher /\
  blocks_of 4 (pkcs_message 4 [1; 2; 3; 4; 5; 6; 7; 8; 9]) [[1; 2; 3; 4]; [5; 6; 7; 8]; [9; 3; 3; 3]] /\
  be_encrypt 4 toy_cipher ecb_mode tt [1; 2; 3; 4; 5; 6; 7; 8; 9] = ([2; 3; 4; 5; 6; 7; 8; 9; 10; 4; 4; 4], Ok tt) /\
  be_decrypt 4 toy_cipher ecb_mode tt [6; 7; 8; 9; 6; 7; 8; 9; 10; 4; 4; 4] =
    ([5; 6; 7; 8; 5; 6; 7; 8; 9], Ok tt) /\
  sc_encrypt list_iter [1; 2; 3; 4; 5] [7; 7; 8] = Ok ([6; 5; 11], [4; 5]) /\
  sc_encrypt list_iter [1; 2; 3; 4; 5] [6; 5; 12] = Ok ([7; 7; 15], [4; 5]) /\
  exists c1 c2 c,
    rsa_encrypt (fun k => k) {| rsa_exponent := [17]; rsa_modulo := [161; 12] |} [97] = Ok c1 /\
    rsa_encrypt (fun k => k) {| rsa_exponent := [17]; rsa_modulo := [161; 12] |} [2] = Ok c2 /\
    mul_mod (fun k => k) c1 c2 [161; 12] = Ok c /\
    rsa_decrypt (fun k => k) {| rsa_exponent := [157; 1]; rsa_modulo := [161; 12] |} c = Ok [194].
Proof.
  split; [exact (toy_inverse 4)|]. split; [split; [repeat constructor|reflexivity]|].
  do 4 (split; [reflexivity|]).
  do 3 eexists. split; [vm_compute; reflexivity|]. split; [vm_compute; reflexivity|].
  split; [vm_compute; reflexivity|]. vm_compute. reflexivity.
Qed.

Print Assumptions c78_keystream_reuse.
Print Assumptions c78_bit_flip.
Print Assumptions c78_rc4.
Print Assumptions c78_ecb_equal_blocks.
Print Assumptions c78_ecb_rearranged.
Print Assumptions c78_rsa_product.
Print Assumptions c78_rsa_blinding.
