(** * Properties C12-C17: src/aes *)
From Verif Require Import Base ModelBlock ModelAes SpecEndian SpecAes SpecBlock.
From Verif Require Import ProofBlock ProofAesField ProofAes ProofAesKey.

(** C12. Field arithmetic. *)
Theorem c12_field_mul : forall a b, a < 256 -> b < 256 -> field_mul a b = gmul a b.
Proof. exact field_mul_gmul. Qed.

Theorem c12_mul2 : forall a, a < 256 -> mul2 a = gmul 2 a.
Proof. exact mul2_gmul. Qed.

Theorem c12_mul3 : forall a, a < 256 -> mul3 a = gmul 3 a.
Proof. exact mul3_gmul. Qed.

Theorem c12_div3 : forall a, a < 256 ->
  gmul 3 (div3 a) = a /\ div3 (gmul 3 a) = a /\ div3 a < 256.
Proof. exact div3_gmul. Qed.

Theorem c12_generator_walk :
  exists items, aes_field_items = Ok items /\
    NoDup (map fst items) /\
    (forall p, In p (map fst items) <-> 0 < p < 256) /\
    Forall (fun '(p, q) => q < 256 /\ gmul p q = 1) items.
Proof. exact field_items_spec. Qed.

(** The code's product makes the bytes a field, with xor as the sum. *)
Theorem c12_field_laws : forall a b c, a < 256 -> b < 256 -> c < 256 ->
  field_mul a b < 256 /\
  field_mul a b = field_mul b a /\
  field_mul (field_mul a b) c = field_mul a (field_mul b c) /\
  field_mul a (N.lxor b c) = N.lxor (field_mul a b) (field_mul a c) /\
  field_mul 1 a = a /\
  (a <> 0 -> exists q, q < 256 /\ field_mul a q = 1) /\
  (field_mul a b = 0 -> a = 0 \/ b = 0).
Proof. exact field_mul_laws. Qed.

(** FIPS 197, 4.2: {57} * {83} = {c1}; 4.2.1: {57} * {13} = {fe}. *)
Example c12_case : field_mul 0x57 0x83 = 0xc1 /\ gmul 0x57 0x13 = 0xfe.
Proof. vm_compute. auto. Qed.

(** C13. S-box. *)
Theorem c13_sbox_forward : forall b, b < 256 -> idx (forward SBOX) (ix b) = Ok (sub_byte b).
Proof. exact forward_lookup. Qed.

Theorem c13_sbox_backward : forall b, b < 256 -> idx (backward SBOX) (ix b) = Ok (inv_sub_byte b).
Proof. exact backward_lookup. Qed.

Theorem c13_sbox_inverse : forall b, b < 256 ->
  inv_sub_byte (sub_byte b) = b /\ sub_byte (inv_sub_byte b) = b /\
  sub_byte b < 256 /\ inv_sub_byte b < 256.
Proof. exact sub_byte_inverse. Qed.

(** The inverse used by the S-box really is the field inverse. *)
Theorem c13_field_inverse : forall a, 0 < a < 256 -> gmul a (ginv a) = 1.
Proof. exact ginv_spec. Qed.

(** FIPS 197, 5.1.1: S-box of {53} is {ed}. *)
Example c13_case : sub_byte 0x53 = 0xed /\ idx (backward SBOX) (ix 0xed) = Ok 0x53.
Proof. vm_compute. auto. Qed.

(** C14. Key expansion. *)
Theorem c14_key_expansion : forall nk key,
  nk = 4%nat \/ nk = 6%nat \/ nk = 8%nat -> length key = (4 * nk)%nat -> bytes key ->
  exists c, aes_make nk key = Ok c /\ aes_rounds c = (nk + 6)%nat /\
    aes_keys c = map (round_key (key_words nk key (4 * (nk + 7)))) (seq 0 (nk + 7)).
Proof. exact aes_expanded. Qed.

(** FIPS 197, A.1: the last word for the key 2b7e... is b6630ca6. *)
Example c14_case :
  let key := [0x2b; 0x7e; 0x15; 0x16; 0x28; 0xae; 0xd2; 0xa6;
              0xab; 0xf7; 0x15; 0x88; 0x09; 0xcf; 0x4f; 0x3c] in
  bytes key /\ nth 43 (key_words 4 key 44) [] = [0xb6; 0x63; 0x0c; 0xa6].
Proof. split; [repeat constructor | vm_compute; reflexivity]. Qed.

(** C15 (and the decryption half of C16). *)
Theorem c15_encrypt_conforms : forall nk key block,
  nk = 4%nat \/ nk = 6%nat \/ nk = 8%nat ->
  length key = (4 * nk)%nat -> bytes key -> length block = 16%nat -> bytes block ->
  exists c, aes_make nk key = Ok c /\
    aes_encrypt c block = Ok (aes_spec_encrypt nk key block) /\
    aes_decrypt c block = Ok (aes_spec_decrypt nk key block).
Proof. exact aes_encrypt_conforms. Qed.

(** FIPS 197, C.1-C.3, on the model (the specification is checked in SpecAes). *)
Example c15_case :
  let pt := [0x00; 0x11; 0x22; 0x33; 0x44; 0x55; 0x66; 0x77;
             0x88; 0x99; 0xaa; 0xbb; 0xcc; 0xdd; 0xee; 0xff] in
  (let* c := aes_make 4 (map N.of_nat (seq 0 16)) in aes_encrypt c pt) =
    Ok [0x69; 0xc4; 0xe0; 0xd8; 0x6a; 0x7b; 0x04; 0x30; 0xd8; 0xcd; 0xb7; 0x80; 0x70; 0xb4; 0xc5; 0x5a] /\
  (let* c := aes_make 8 (map N.of_nat (seq 0 32)) in aes_encrypt c pt) =
    Ok [0x8e; 0xa2; 0xb7; 0xca; 0x51; 0x67; 0x45; 0xbf; 0xea; 0xfc; 0x49; 0x90; 0x4b; 0x49; 0x60; 0x89].
Proof. vm_compute. auto. Qed.

(** C16. *)
Theorem c16_inverse : forall nk key block,
  nk = 4%nat \/ nk = 6%nat \/ nk = 8%nat ->
  length key = (4 * nk)%nat -> bytes key -> length block = 16%nat -> bytes block ->
  exists c e d, aes_make nk key = Ok c /\
    aes_encrypt c block = Ok e /\ length e = 16%nat /\ bytes e /\ aes_decrypt c e = Ok block /\
    aes_decrypt c block = Ok d /\ length d = 16%nat /\ bytes d /\ aes_encrypt c d = Ok block.
Proof. exact aes_inverse. Qed.

(** The standard's InvCipher inverts its Cipher (so the specification is coherent). *)
Theorem c16_standard_inverse : forall nk key block,
  nk = 4%nat \/ nk = 6%nat \/ nk = 8%nat ->
  length key = (4 * nk)%nat -> bytes key -> length block = 16%nat -> bytes block ->
  aes_spec_decrypt nk key (aes_spec_encrypt nk key block) = block /\
  aes_spec_encrypt nk key (aes_spec_decrypt nk key block) = block.
Proof. exact aes_spec_inverse. Qed.

(** Hence AES satisfies the hypothesis of C08, in ECB and in CBC mode. *)
Theorem c16_aes_ecb_roundtrip : forall nk key c p,
  nk = 4%nat \/ nk = 6%nat \/ nk = 8%nat ->
  length key = (4 * nk)%nat -> bytes key -> aes_make nk key = Ok c -> bytes p ->
  exists ct, be_encrypt 16 (aes_cipher c) ecb_mode tt p = (ct, Ok tt) /\
             be_decrypt 16 (aes_cipher c) ecb_mode tt ct = (p, Ok tt).
Proof.
  exact (fun nk key c p H1 H2 H3 H4 H5 => ecb_roundtrip 16 (aes_cipher c) p
    (conj (le_n_S _ _ (Nat.le_0_l 15)) (proj1 (Nat.leb_le 16 255) eq_refl)) H5
    (aes_cipher_inverse nk key c H1 H2 H3 H4)).
Qed.

Theorem c16_aes_cbc_roundtrip : forall nk key c iv p,
  nk = 4%nat \/ nk = 6%nat \/ nk = 8%nat ->
  length key = (4 * nk)%nat -> bytes key -> aes_make nk key = Ok c -> bytes p ->
  length iv = 16%nat -> bytes iv ->
  exists ct, be_encrypt 16 (aes_cipher c) cbc_mode iv p = (ct, Ok tt) /\
             be_decrypt 16 (aes_cipher c) cbc_mode iv ct = (p, Ok tt).
Proof.
  exact (fun nk key c iv p H1 H2 H3 H4 H5 => cbc_roundtrip 16 (aes_cipher c) iv p
    (conj (le_n_S _ _ (Nat.le_0_l 15)) (proj1 (Nat.leb_le 16 255) eq_refl)) H5
    (aes_cipher_inverse nk key c H1 H2 H3 H4)).
Qed.

Example c16_case :
  let p := [104; 101; 108; 108; 111; 32; 119; 111; 114; 108; 100; 32; 49; 50; 51; 52; 53] in
  (let* c := aes_make 6 (map N.of_nat (seq 7 24)) in
   snd (let! _ := oret tt in
        be_decrypt 16 (aes_cipher c) ecb_mode tt
          (fst (be_encrypt 16 (aes_cipher c) ecb_mode tt p)))) = Ok tt /\
  match aes_make 6 (map N.of_nat (seq 7 24)) with
  | Ok c => fst (be_decrypt 16 (aes_cipher c) ecb_mode tt
                   (fst (be_encrypt 16 (aes_cipher c) ecb_mode tt p))) = p
  | _ => False
  end.
Proof. vm_compute. auto. Qed.

(** C17. Keys as integers, most significant byte first. *)
Theorem c17_key_integers : forall nk values,
  nk = 4%nat \/ nk = 6%nat \/ nk = 8%nat -> (2 * length values)%nat = nk ->
  aes_from_u64s nk values = aes_make nk (concat (map (be_bytes 8) values)).
Proof. exact aes_from_u64s_eq. Qed.

Theorem c17_key_bytes : forall values,
  length (concat (map (be_bytes 8) values)) = (8 * length values)%nat /\
  bytes (concat (map (be_bytes 8) values)).
Proof. exact be_bytes_concat_wf. Qed.

Example c17_case :
  concat (map (be_bytes 8) [0x0001020304050607; 0x08090a0b0c0d0e0f]) = map N.of_nat (seq 0 16) /\
  aes_from_u64s 4 [0x0001020304050607; 0x08090a0b0c0d0e0f] = aes_make 4 (map N.of_nat (seq 0 16)).
Proof. vm_compute. auto. Qed.

Print Assumptions c12_field_mul.
Print Assumptions c12_mul2.
Print Assumptions c12_mul3.
Print Assumptions c12_div3.
Print Assumptions c12_generator_walk.
Print Assumptions c12_field_laws.
Print Assumptions c13_sbox_forward.
Print Assumptions c13_sbox_backward.
Print Assumptions c13_sbox_inverse.
Print Assumptions c13_field_inverse.
Print Assumptions c14_key_expansion.
Print Assumptions c15_encrypt_conforms.
Print Assumptions c16_inverse.
Print Assumptions c16_standard_inverse.
Print Assumptions c16_aes_ecb_roundtrip.
Print Assumptions c16_aes_cbc_roundtrip.
Print Assumptions c17_key_integers.
Print Assumptions c17_key_bytes.
