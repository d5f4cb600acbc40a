(** * Properties C18-C25: src/rc *)
From Coq Require Import Permutation.
From Verif Require Import Base ModelBlock ModelRc SpecBlock SpecEndian SpecWord SpecRc.
From Verif Require Import ProofBlock ProofRc2 ProofRc4 ProofRc5.

(** C18. RC2 key setup. *)
Theorem c18_rc2_key_setup : forall key t1,
  (1 <= length key <= 128)%nat -> bytes key -> 1 <= t1 <= 1024 ->
  rc2_from_key key t1 = Ok (rc2_schedule key t1).
Proof. exact rc2_expand_key_eq. Qed.

Theorem c18_rc2_key_setup_panics : forall key t1, bytes key ->
  ~ ((1 <= length key <= 128)%nat /\ 1 <= t1 <= 1024) ->
  rc2_from_key key t1 =
    Panic (if (128 <? length key)%nat then PIndex
           else if (length key =? 0)%nat then POverflow
           else if t1 =? 0 then PIndex else POverflow).
Proof. exact rc2_expand_key_panics. Qed.

Theorem c18_pitable : PITABLE = pi_table.
Proof. exact PITABLE_eq. Qed.

Theorem c18_pitable_permutation :
  NoDup pi_table /\ length pi_table = 256%nat /\ (forall b, b < 256 -> In b pi_table).
Proof. exact PITABLE_perm. Qed.

Example c18_case :
  (let* k := rc2_from_key [0x88; 0xbc; 0xa9; 0x0e; 0x90; 0x87; 0x5a] 64 in
   rc2_encrypt k (repeat 0 8)) = Ok [0x6c; 0xcf; 0x43; 0x08; 0x97; 0x4c; 0x26; 0x7f] /\
  rc2_from_key [] 64 = Panic POverflow /\
  rc2_from_key [1] 0 = Panic PIndex /\
  rc2_from_key [1] 1025 = Panic POverflow /\
  rc2_from_key (repeat 1 129) 64 = Panic PIndex.
Proof. vm_compute. auto. Qed.

(** C19. RC2 encryption, for every expanded key. *)
Theorem c19_rc2_encrypt : forall k block,
  length k = 64%nat -> length block = 8%nat -> bytes block ->
  rc2_encrypt k block = Ok (rc2_spec_encrypt k block).
Proof. exact rc2_encrypt_eq. Qed.

(** Key setup and encryption together. *)
Theorem c19_rc2_from_key : forall key t1 block,
  (1 <= length key <= 128)%nat -> bytes key -> 1 <= t1 <= 1024 -> length block = 8%nat -> bytes block ->
  (let* k := rc2_from_key key t1 in rc2_encrypt k block)
  = Ok (rc2_spec_encrypt (rc2_schedule key t1) block).
Proof. exact rc2_key_encrypt_eq. Qed.

(** tests/rc.rs:15-31: first block of the example. *)
Example c19_case :
  (let* k := rc2_from_key [0x26; 0x1E; 0x57; 0x8E; 0xC9; 0x62; 0xBF; 0xB8; 0x3E; 0x96] 80 in
   rc2_encrypt k [0x11; 0x22; 0x33; 0x44; 0x55; 0x66; 0x77; 0x88])
  = Ok [0xF9; 0x9A; 0x3A; 0xDB; 0x00; 0x3B; 0x7A; 0xEB].
Proof. vm_compute. reflexivity. Qed.

(** C20. *)
Theorem c20_rc2_inverse : forall key t1 block,
  (1 <= length key <= 128)%nat -> bytes key -> 1 <= t1 <= 1024 -> length block = 8%nat -> bytes block ->
  exists k e d, rc2_from_key key t1 = Ok k /\
    rc2_encrypt k block = Ok e /\ length e = 8%nat /\ bytes e /\ rc2_decrypt k e = Ok block /\
    rc2_decrypt k block = Ok d /\ length d = 8%nat /\ bytes d /\ rc2_encrypt k d = Ok block.
Proof. exact rc2_valid_inverse. Qed.

Theorem c20_rc2_ecb_roundtrip : forall key t1 k p,
  (1 <= length key <= 128)%nat -> bytes key -> 1 <= t1 <= 1024 ->
  rc2_from_key key t1 = Ok k -> bytes p ->
  exists ct, be_encrypt 8 (rc2_cipher k) ecb_mode tt p = (ct, Ok tt) /\
             be_decrypt 8 (rc2_cipher k) ecb_mode tt ct = (p, Ok tt).
Proof.
  exact (fun key t1 k p H1 H2 H3 H4 H5 => ecb_roundtrip 8 (rc2_cipher k) p
    (conj (le_n_S _ _ (Nat.le_0_l 7)) (proj1 (Nat.leb_le 8 255) eq_refl)) H5
    (rc2_cipher_inverse key t1 k H1 H2 H3 H4)).
Qed.

(** tests/rc.rs:33-49, through the ECB mode in both directions. *)
Example c20_case :
  match rc2_from_key [0x26; 0x1E; 0x57; 0x8E; 0xC9; 0x62; 0xBF; 0xB8; 0x3E; 0x96] 128 with
  | Ok k =>
    let pt := [0x11; 0x22; 0x33; 0x44; 0x55; 0x66; 0x77; 0x88;
               0x99; 0xAA; 0xBB; 0xCC; 0xDD; 0xEE; 0xFF; 0x00] in
    let ct := [0x0A; 0xD2; 0x1F; 0xAD; 0x6C; 0xA1; 0x86; 0xBD;
               0xEB; 0xDD; 0x07; 0x27; 0x75; 0x87; 0xDC; 0x5E;
               0xF4; 0x26; 0xE8; 0xA0; 0x90; 0xE7; 0x5D; 0x07] in
    be_encrypt 8 (rc2_cipher k) ecb_mode tt pt = (ct, Ok tt) /\
    be_decrypt 8 (rc2_cipher k) ecb_mode tt ct = (pt, Ok tt)
  | _ => False
  end.
Proof. vm_compute. auto. Qed.

(** C21. RC4. *)
Theorem c21_rc4_stream : forall key n, key <> [] -> bytes key ->
  exists ks ks', rc4_new key = Ok ks /\ yields rc4_next ks (rc4_stream key n) ks' /\
    Permutation (map N.of_nat (seq 0 256)) (rc4_state ks').
Proof. exact rc4_conforms. Qed.

Theorem c21_rc4_stream_length : forall key n, key <> [] -> bytes key ->
  length (rc4_stream key n) = n /\ bytes (rc4_stream key n).
Proof. exact rc4_stream_length. Qed.

Theorem c21_rc4_empty_key : rc4_new [] = Panic PDivZero.
Proof. exact rc4_new_empty. Qed.

Example c21_case : rc4_stream [75; 101; 121] 4 = [0xeb; 0x9f; 0x77; 0x81].
Proof. vm_compute. reflexivity. Qed.

(** C22. *)
Theorem c22_rc4_encrypt : forall key p, key <> [] -> bytes key ->
  exists ks, rc4_new key = Ok ks /\
    rc4_encrypt ks p = Ok (xor_bytes (rc4_stream key (length p)) p) /\
    rc4_decrypt ks p = Ok (xor_bytes (rc4_stream key (length p)) p) /\
    length (xor_bytes (rc4_stream key (length p)) p) = length p.
Proof. exact rc4_encrypt_eq. Qed.

Theorem c22_rc4_roundtrip : forall key p, key <> [] -> bytes key ->
  exists ks c, rc4_new key = Ok ks /\ rc4_encrypt ks p = Ok c /\ length c = length p /\
    rc4_decrypt ks c = Ok p.
Proof. exact rc4_roundtrip. Qed.

Theorem c22_rc4_pieces : forall key ds, key <> [] -> bytes key ->
  exists ks ks' cs, rc4_new key = Ok ks /\ sc_pieces rc4_next ks ds = Ok (cs, ks') /\
    rc4_encrypt ks (concat ds) = Ok (concat cs).
Proof. exact rc4_pieces. Qed.

(** tests/rc.rs:62: key "Wiki", plaintext "pedia". *)
Example c22_case :
  (let* ks := rc4_new [87; 105; 107; 105] in rc4_encrypt ks [112; 101; 100; 105; 97])
  = Ok [0x10; 0x21; 0xBF; 0x04; 0x20].
Proof. vm_compute. reflexivity. Qed.

(** C23. RC5. *)
Theorem c23_rc5_conforms : forall key r block,
  (1 <= length key <= 255)%nat -> length block = 8%nat -> bytes block ->
  exists c, rc5_new key r = Ok c /\
    rc5_encrypt c block = Ok (rc5_spec_encrypt (rc5_table key (N.to_nat r)) (N.to_nat r) block).
Proof. exact rc5_conforms. Qed.

Example c23_case :
  (let* c := rc5_new [0x91; 0x5F; 0x46; 0x19; 0xBE; 0x41; 0xB2; 0x51;
                      0x63; 0x55; 0xA5; 0x01; 0x10; 0xA9; 0xCE; 0x91] 12 in
   rc5_encrypt c [0x21; 0xA5; 0xDB; 0xEE; 0x15; 0x4B; 0x8F; 0x6D])
  = Ok [0xF7; 0xC0; 0x13; 0xAC; 0x5B; 0x2B; 0x89; 0x52].
Proof. vm_compute. reflexivity. Qed.

(** C24. *)
Theorem c24_rc5_inverse : forall key r c block,
  rc5_new key r = Ok c -> length block = 8%nat -> bytes block ->
  exists e d, rc5_encrypt c block = Ok e /\ length e = 8%nat /\ bytes e /\ rc5_decrypt c e = Ok block /\
              rc5_decrypt c block = Ok d /\ length d = 8%nat /\ bytes d /\ rc5_encrypt c d = Ok block.
Proof. exact rc5_valid_inverse. Qed.

Theorem c24_rc5_ecb_roundtrip : forall key r c p,
  rc5_new key r = Ok c -> bytes p ->
  exists ct, be_encrypt 8 (rc5_cipher c) ecb_mode tt p = (ct, Ok tt) /\
             be_decrypt 8 (rc5_cipher c) ecb_mode tt ct = (p, Ok tt).
Proof.
  exact (fun key r c p H4 H5 => ecb_roundtrip 8 (rc5_cipher c) p
    (conj (le_n_S _ _ (Nat.le_0_l 7)) (proj1 (Nat.leb_le 8 255) eq_refl)) H5
    (rc5_cipher_inverse key r c H4)).
Qed.

Example c24_case :
  match rc5_new [1; 2; 3; 4; 5] 3 with
  | Ok c => (let* e := rc5_encrypt c [1; 2; 3; 4; 5; 6; 7; 8] in rc5_decrypt c e)
            = Ok [1; 2; 3; 4; 5; 6; 7; 8] /\
            rc5_encrypt c [1; 2; 3; 4; 5; 6; 7; 8] <> Ok [1; 2; 3; 4; 5; 6; 7; 8]
  | _ => False
  end.
Proof. vm_compute. split; [reflexivity|discriminate]. Qed.

(** C25. *)
Theorem c25_rc5_key_domain : forall key r,
  (exists c, rc5_new key r = Ok c) <-> (1 <= length key <= 255)%nat.
Proof. exact rc5_key_domain. Qed.

Theorem c25_rc5_panics : forall key r, ~ (1 <= length key <= 255)%nat ->
  rc5_new key r = Panic (if (length key =? 0)%nat then PIndex else PAssert).
Proof. exact rc5_new_panics. Qed.

(** "Every key of at most 255 bytes is accepted" is false: the empty key, a
    legal RC5 key, makes [RC5::new] panic for every number of rounds. *)
Theorem c25_rc5_empty_key_refuted : exists key, (length key <= 255)%nat /\ bytes key /\
  forall r, rc5_new key r = Panic PIndex.
Proof. exact rc5_empty_refuted. Qed.

(** What RC5-32/12/0 would give for the zero block (the specification is defined
    there). *)
Example c25_case : rc5_spec_encrypt (rc5_table [] 12) 12 (repeat 0 8)
  = rc5_spec_encrypt (rc5_table [0] 12) 12 (repeat 0 8).
Proof. vm_compute. reflexivity. Qed.

Print Assumptions c18_rc2_key_setup.
Print Assumptions c18_rc2_key_setup_panics.
Print Assumptions c18_pitable.
Print Assumptions c18_pitable_permutation.
Print Assumptions c19_rc2_encrypt.
Print Assumptions c19_rc2_from_key.
Print Assumptions c20_rc2_inverse.
Print Assumptions c20_rc2_ecb_roundtrip.
Print Assumptions c21_rc4_stream.
Print Assumptions c21_rc4_stream_length.
Print Assumptions c21_rc4_empty_key.
Print Assumptions c22_rc4_encrypt.
Print Assumptions c22_rc4_roundtrip.
Print Assumptions c22_rc4_pieces.
Print Assumptions c23_rc5_conforms.
Print Assumptions c24_rc5_inverse.
Print Assumptions c24_rc5_ecb_roundtrip.
Print Assumptions c25_rc5_key_domain.
Print Assumptions c25_rc5_panics.
Print Assumptions c25_rc5_empty_key_refuted.
