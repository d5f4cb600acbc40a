(** * C115: the other forms of AES *)
From Verif Require Import Base BaseLemmas ModelAes SpecAes SpecAesForms ProofAesForms.
Local Open Scope N_scope.

(** The code decrypts like the equivalent inverse cipher of FIPS 197, and encrypts like the four
    tables of the Rijndael proposal. *)
Theorem c115_forms : forall nk key block, nk = 4%nat \/ nk = 6%nat \/ nk = 8%nat ->
  length key = (4 * nk)%nat -> bytes key -> length block = 16%nat -> bytes block ->
  let w := key_words nk key (4 * (nk + 7)) in
  exists c, aes_make nk key = Ok c /\ aes_decrypt c block = Ok (eq_inv_cipher (nk + 6) w block) /\
    aes_encrypt c block = Ok (table_cipher (nk + 6) w block).
Proof. exact aes_forms. Qed.
Print Assumptions c115_forms.

(** One round with the tables, for every round key and state. *)
Theorem c115_table_round : forall k s, length k = 16%nat -> length s = 16%nat -> bytes s ->
  table_round k s = add_round_key k (mix_columns (shift_rows (sub_bytes s))).
Proof. intros k s Hk Hs Hb. exact (table_round_same k s Hk (conj Hs Hb)). Qed.
Print Assumptions c115_table_round.

(** FIPS 197, C.1, with both forms; and the first entries of the four tables. *)
Example c115_case :
  let w := key_words 4 (map N.of_nat (seq 0 16)) 44 in
  let pt := [0x00; 0x11; 0x22; 0x33; 0x44; 0x55; 0x66; 0x77; 0x88; 0x99; 0xaa; 0xbb; 0xcc; 0xdd; 0xee; 0xff] in
  let ct := [0x69; 0xc4; 0xe0; 0xd8; 0x6a; 0x7b; 0x04; 0x30; 0xd8; 0xcd; 0xb7; 0x80; 0x70; 0xb4; 0xc5; 0x5a] in
  table_cipher 10 w pt = ct /\ eq_inv_cipher 10 w ct = pt /\
  map (fun r => table r 0) [0; 1; 2; 3]%nat =
    [[0xc6; 0x63; 0x63; 0xa5]; [0xa5; 0xc6; 0x63; 0x63]; [0x63; 0xa5; 0xc6; 0x63]; [0x63; 0x63; 0xa5; 0xc6]].
Proof.
  split; [vm_compute; reflexivity|]. split; [|vm_compute; reflexivity].
  match goal with |- eq_inv_cipher 10 _ ?ct = ?pt =>
    destruct (c115_forms 4 (map N.of_nat (seq 0 16)) ct (or_introl eq_refl) eq_refl (bytes_ok (map N.of_nat (seq 0 16)) eq_refl) eq_refl
      (bytes_ok ct eq_refl)) as (c & M & D & _);
    change (eq_inv_cipher (4 + 6) (key_words 4 (map N.of_nat (seq 0 16)) (4 * (4 + 7))) ct) with
      (eq_inv_cipher 10 (key_words 4 (map N.of_nat (seq 0 16)) 44) ct) in D;
    assert (X : (let* c := aes_make 4 (map N.of_nat (seq 0 16)) in aes_decrypt c ct) = Ok pt) by (vm_compute; reflexivity)
  end.
  rewrite M in X. cbn [bind] in X. rewrite D in X. exact (Ok_inj _ _ X).
Qed.
