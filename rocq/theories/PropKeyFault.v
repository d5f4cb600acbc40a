(** * C130: inverted bits in the stored round keys of AES disclose the key, src/aes/cipher.rs *)
From Verif Require Import Base BaseLemmas ModelAes SpecAes SpecKeyFault ProofKeyFault.
Local Open Scope N_scope.

(** Two inverted bits in each byte of the last but one round key, one at a time, and the
    ciphertexts of one unknown block give the last round key. *)
Theorem c130_last_round_key : forall nk key block cipher (a b : nat -> N) c f g,
  nk = 4%nat \/ nk = 6%nat \/ nk = 8%nat -> length key = (4 * nk)%nat -> bytes key ->
  length block = 16%nat -> bytes block ->
  (forall j, (j < 16)%nat -> a j < 8 /\ b j < 8 /\ a j <> b j) ->
  aes_make nk key = Ok cipher -> aes_encrypt cipher block = Ok c ->
  (forall j, (j < 16)%nat ->
    aes_encrypt {| aes_keys := invert_key_bit (aes_keys cipher) (nk + 5) j (a j); aes_rounds := aes_rounds cipher |} block = Ok (f j) /\
    aes_encrypt {| aes_keys := invert_key_bit (aes_keys cipher) (nk + 5) j (b j); aes_rounds := aes_rounds cipher |} block = Ok (g j)) ->
  last_key a b c f g = nth (nk + 6) (aes_keys cipher) [] /\
  nth (nk + 6) (aes_keys cipher) [] = round_key (key_words nk key (4 * (nk + 7))) (nk + 6).
Proof. exact fault_last_key. Qed.
Print Assumptions c130_last_round_key.

(** For AES-128 they give the key. *)
Theorem c130_key : forall key block cipher (a b : nat -> N) c f g,
  length key = 16%nat -> bytes key -> length block = 16%nat -> bytes block ->
  (forall j, (j < 16)%nat -> a j < 8 /\ b j < 8 /\ a j <> b j) ->
  with_128_bit_key key = Ok cipher -> aes_encrypt cipher block = Ok c ->
  (forall j, (j < 16)%nat ->
    aes_encrypt {| aes_keys := invert_key_bit (aes_keys cipher) 9 j (a j); aes_rounds := aes_rounds cipher |} block = Ok (f j) /\
    aes_encrypt {| aes_keys := invert_key_bit (aes_keys cipher) 9 j (b j); aes_rounds := aes_rounds cipher |} block = Ok (g j)) ->
  first_key 10 (last_key a b c f g) = key.
Proof. exact fault_key. Qed.
Print Assumptions c130_key.

(** One inverted bit per byte is not enough: whatever the byte [x] before the S-box and the byte
    [k] of the last round key, another byte fits as well. *)
Theorem c130_one_is_not_enough : forall a x k, a < 8 -> x < 256 -> k < 256 -> exists k', k' < 256 /\ k' <> k /\
  fits a (N.lxor (sub_byte x) k) (N.lxor (sub_byte (N.lxor x (2 ^ a))) k) k = true /\
  fits a (N.lxor (sub_byte x) k) (N.lxor (sub_byte (N.lxor x (2 ^ a))) k) k' = true.
Proof. exact one_fault. Qed.
Print Assumptions c130_one_is_not_enough.

(** FIPS 197, appendix B: the ciphertext, and the first byte with two bits inverted. *)
Example c130_case :
  let key := [0x2b; 0x7e; 0x15; 0x16; 0x28; 0xae; 0xd2; 0xa6; 0xab; 0xf7; 0x15; 0x88; 0x09; 0xcf; 0x4f; 0x3c] in
  let block := [0x32; 0x43; 0xf6; 0xa8; 0x88; 0x5a; 0x30; 0x8d; 0x31; 0x31; 0x98; 0xa2; 0xe0; 0x37; 0x07; 0x34] in
  match with_128_bit_key key with
  | Ok c =>
      let faulty j a := match aes_encrypt {| aes_keys := invert_key_bit (aes_keys c) 9 j a; aes_rounds := aes_rounds c |} block with
                        | Ok l => l | Panic _ => [] end in
      firstn 4 (match aes_encrypt c block with Ok l => l | Panic _ => [] end) = [0x39; 0x25; 0x84; 0x1d] /\
      firstn 4 (faulty 0%nat 0) = [87; 0x25; 0x84; 0x1d] /\ firstn 4 (faulty 0%nat 1) = [206; 0x25; 0x84; 0x1d] /\
      nth 0 (nth 10 (aes_keys c) []) 0 = 0xd0 /\
      fits 0 0x39 (nth 0 (faulty 0%nat 0) 0) 0xd0 = true /\ fits 1 0x39 (nth 0 (faulty 0%nat 1) 0) 0xd0 = true /\
      fits 0 0x39 (nth 0 (faulty 0%nat 0) 0) 0xd1 = false
  | Panic _ => False
  end.
Proof. vm_compute. repeat split. Qed.
