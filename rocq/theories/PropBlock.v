(** * Properties C07-C11: src/lib.rs *)
From Verif Require Import Base ModelPad ModelBlock SpecPad SpecBlock ProofBlock.

(** A small invertible cipher for the examples: add 1 to every byte. *)
Definition toy_cipher : block_cipher := {|
  bc_encrypt := fun b => Ok (map (fun x => (x + 1) mod 256) b);
  bc_decrypt := fun b => Ok (map (fun x => (x + 255) mod 256) b)
|}.

Lemma toy_inverse n : cipher_inverse n toy_cipher.
Proof.
  intros b Hl Hb. eexists. split; [reflexivity|].
  split; [now rewrite map_length|]. split.
  - apply Forall_forall. intros x Hx. apply in_map_iff in Hx as (y & <- & _).
    apply N.mod_lt. discriminate.
  - cbn. f_equal. rewrite map_map. rewrite <- (map_id b) at 2. apply map_ext_in.
    intros x Hx. unfold bytes in Hb. rewrite Forall_forall in Hb. specialize (Hb x Hx).
    red in Hb. rewrite N.add_mod_idemp_l by discriminate.
    replace (x + 1 + 255) with (x + 1 * 256) by lia.
    rewrite N.mod_add by discriminate. now apply N.mod_small.
Qed.

(** C07. Output of encryption for every cipher and mode (also if they panic). *)
Theorem c07_encrypt_exact : forall S n cipher (mode : cipher_mode S) st p bs,
  (1 <= n <= 255)%nat -> blocks_of n (pkcs_message n p) bs ->
  be_encrypt n cipher mode st p =
  let (os, r) := run_mode (cm_encrypt_block mode cipher) st bs in (concat os, discard r).
Proof. exact (@be_encrypt_eq). Qed.

(** The blocks exist, are unique, and their number is [len/n + 1]. *)
Theorem c07_blocks_exist : forall n p, (1 <= n)%nat ->
  exists bs, blocks_of n (pkcs_message n p) bs /\ length bs = (length p / n + 1)%nat.
Proof. exact pkcs_message_blocks. Qed.

Theorem c07_blocks_unique : forall n l bs bs', (1 <= n)%nat ->
  blocks_of n l bs -> blocks_of n l bs' -> bs = bs'.
Proof. exact blocks_unique. Qed.

(** Length and success; [I] is what the states of the mode satisfy. *)
Theorem c07_encrypt_length : forall S n cipher (mode : cipher_mode S) (I : S -> Prop) st p c,
  (1 <= n <= 255)%nat -> I st ->
  (forall st b st' o, I st -> length b = n ->
     cm_encrypt_block mode cipher st b = Ok (st', o) -> I st' /\ length o = n) ->
  be_encrypt n cipher mode st p = (c, Ok tt) ->
  length c = ((length p / n + 1) * n)%nat.
Proof. exact (@be_encrypt_length). Qed.

Theorem c07_encrypt_total : forall S n cipher (mode : cipher_mode S) (I : S -> Prop) st p,
  (1 <= n <= 255)%nat -> bytes p -> I st ->
  (forall st b, I st -> length b = n -> bytes b ->
     exists st' o, cm_encrypt_block mode cipher st b = Ok (st', o) /\ I st') ->
  exists c, be_encrypt n cipher mode st p = (c, Ok tt).
Proof. exact (@be_encrypt_total). Qed.

Example c07_case :
  be_encrypt 4 toy_cipher ecb_mode tt [1; 2; 3; 4; 5] =
    ([2; 3; 4; 5; 6; 4; 4; 4], Ok tt) /\
  be_encrypt 4 toy_cipher cbc_mode [0; 0; 0; 0] [1; 2; 3; 4] =
    ([2; 3; 4; 5; 7; 8; 1; 2], Ok tt) /\
  blocks_of 4 (pkcs_message 4 [1; 2; 3; 4; 5]) [[1; 2; 3; 4]; [5; 3; 3; 3]].
Proof. split; [|split]; [reflexivity..|]. split; [repeat constructor|reflexivity]. Qed.

(** C08. *)
Theorem c08_roundtrip : forall S n cipher (mode : cipher_mode S) R se sd p,
  (1 <= n <= 255)%nat -> bytes p -> mode_inverse n cipher mode R -> R se sd ->
  exists c, be_encrypt n cipher mode se p = (c, Ok tt) /\
            be_decrypt n cipher mode sd c = (p, Ok tt).
Proof. exact (@be_roundtrip). Qed.

Theorem c08_roundtrip_ecb : forall n cipher p,
  (1 <= n <= 255)%nat -> bytes p -> cipher_inverse n cipher ->
  exists c, be_encrypt n cipher ecb_mode tt p = (c, Ok tt) /\
            be_decrypt n cipher ecb_mode tt c = (p, Ok tt).
Proof. exact ecb_roundtrip. Qed.

Theorem c08_roundtrip_cbc : forall n cipher iv p,
  (1 <= n <= 255)%nat -> bytes p -> cipher_inverse n cipher ->
  length iv = n -> bytes iv ->
  exists c, be_encrypt n cipher cbc_mode iv p = (c, Ok tt) /\
            be_decrypt n cipher cbc_mode iv c = (p, Ok tt).
Proof. exact cbc_roundtrip. Qed.

Example c08_case :
  cipher_inverse 4 toy_cipher /\
  be_decrypt 4 toy_cipher cbc_mode [9; 8; 7; 6]
    (fst (be_encrypt 4 toy_cipher cbc_mode [9; 8; 7; 6] [1; 2; 3; 4; 5])) =
    ([1; 2; 3; 4; 5], Ok tt).
Proof. split; [exact (toy_inverse 4) | reflexivity]. Qed.

(** C09. *)
Theorem c09_decrypt_bad_length : forall S n cipher (mode : cipher_mode S) st c,
  n = 0%nat \/ c = [] \/ (length c mod n <> 0)%nat ->
  be_decrypt n cipher mode st c =
    ([], Panic (if (n =? 0)%nat then PExplicit else if (length c =? 0)%nat then PUnwrap
                else PExplicit)).
Proof. exact (@be_decrypt_bad_length). Qed.

Theorem c09_decrypt_exact : forall S n cipher (mode : cipher_mode S) st c bs,
  (1 <= n)%nat -> blocks_of n c bs -> bs <> [] ->
  Forall (fun o => length o = n) (fst (run_mode (cm_decrypt_block mode cipher) st bs)) ->
  match run_mode (cm_decrypt_block mode cipher) st bs with
  | (os, Panic r) =>
      be_decrypt n cipher mode st c = (concat (removelast os), Panic r)
  | (os, Ok _) => exists os' o, os = os' ++ [o] /\ length o = n /\
      (last o 0 <= N.of_nat n ->
       be_decrypt n cipher mode st c =
         (concat os' ++ firstn (n - N.to_nat (last o 0%N)) o, Ok tt)) /\
      (N.of_nat n < last o 0 ->
       be_decrypt n cipher mode st c = (concat os', Panic PExplicit))
  end.
Proof. exact (@be_decrypt_eq). Qed.

Example c09_case :
  be_decrypt 4 toy_cipher ecb_mode tt [2; 3; 4; 5; 6; 7; 8; 10] =
    ([1; 2; 3; 4], Panic PExplicit) /\
  be_decrypt 4 toy_cipher ecb_mode tt [2; 3; 4; 5; 6; 7; 8; 3] =
    ([1; 2; 3; 4; 5; 6], Ok tt) /\
  be_decrypt 4 toy_cipher ecb_mode tt [2; 3; 4; 5; 6] = ([], Panic PExplicit) /\
  be_decrypt 4 toy_cipher ecb_mode tt [] = ([], Panic PUnwrap).
Proof. repeat split. Qed.

(** C10. For every invertible cipher, the encryption of any block ending in zero
    is accepted although no plaintext has it as ciphertext. *)
Theorem c10_malleable : forall n cipher b c, (1 <= n <= 255)%nat ->
  cipher_inverse n cipher -> length b = n -> bytes b -> last b 0 = 0 ->
  bc_encrypt cipher b = Ok c -> length c = n ->
  be_decrypt n cipher ecb_mode tt c = (b, Ok tt) /\
  forall p, bytes p -> fst (be_encrypt n cipher ecb_mode tt p) <> c.
Proof. exact ecb_malleable. Qed.

Theorem c10_decrypt_accepts_only_ciphertexts_refuted : exists n cipher c q,
  (1 <= n <= 255)%nat /\ cipher_inverse n cipher /\ bytes c /\
  be_decrypt n cipher ecb_mode tt c = (q, Ok tt) /\
  forall p, bytes p -> fst (be_encrypt n cipher ecb_mode tt p) <> c.
Proof.
  exists 4%nat, toy_cipher, [2; 3; 4; 1], [1; 2; 3; 0].
  split; [lia|]. split; [exact (toy_inverse 4)|]. split; [repeat constructor|].
  apply c10_malleable; try reflexivity; try lia.
  - exact (toy_inverse 4).
  - repeat constructor.
Qed.

(** C11. *)
Theorem c11_stream_xor : forall K (next : key_iter K) k ks k' data,
  yields next k ks k' -> length ks = length data ->
  sc_encrypt next k data = Ok (xor_bytes ks data, k').
Proof. exact (@sc_encrypt_eq). Qed.

Theorem c11_stream_ok_iff : forall K (next : key_iter K) k data,
  (exists r, sc_encrypt next k data = Ok r) <->
  (exists ks k', yields next k ks k' /\ length ks = length data).
Proof. exact (@sc_encrypt_ok_iff). Qed.

Theorem c11_stream_split : forall K (next : key_iter K) k ds,
  sc_encrypt next k (concat ds) =
  let* (cs, k') := sc_pieces next k ds in Ok (concat cs, k').
Proof. exact (@sc_pieces_concat). Qed.

Theorem c11_stream_involution : forall K (next : key_iter K) k data c k',
  sc_encrypt next k data = Ok (c, k') ->
  length c = length data /\ sc_encrypt next k c = Ok (data, k').
Proof. exact (@sc_involution). Qed.

(** The key stream 0, 1, 2, ... up to 9. *)
Definition count_iter : key_iter N := fun k =>
  Ok (if k <? 10 then (Some k, k + 1) else (None, k)).

Example c11_case :
  yields count_iter 3 [3; 4; 5] 6 /\
  sc_encrypt count_iter 3 [255; 255; 255] = Ok ([252; 251; 250], 6) /\
  sc_pieces count_iter 3 [[255]; []; [255; 255]] = Ok ([[252]; []; [251; 250]], 6) /\
  sc_encrypt count_iter 8 [1; 2; 3] = Panic PUnwrap.
Proof.
  split; [|repeat split].
  repeat (eapply yields_cons; [reflexivity|]). constructor.
Qed.

(** C70. Blocks of any size: the pad byte is the pad length modulo 256. *)
Theorem c70_encrypt : forall S n cipher (mode : cipher_mode S) st p bs,
  (1 <= n)%nat -> blocks_of n (wide_message n p) bs ->
  be_encrypt n cipher mode st p =
  let (os, r) := run_mode (cm_encrypt_block mode cipher) st bs in (concat os, discard r).
Proof. exact (@wide_encrypt). Qed.

Theorem c70_zero_block_size : forall S cipher (mode : cipher_mode S) st p,
  be_encrypt 0 cipher mode st p = ([], Panic PExplicit).
Proof. exact (@zero_encrypt). Qed.

(** What comes back: the message, followed by padding that is not removed. *)
Theorem c70_decrypted : forall S n cipher (mode : cipher_mode S) R se sd p,
  (1 <= n)%nat -> bytes p -> mode_inverse n cipher mode R -> R se sd ->
  let k := (n - length p mod n)%nat in
  exists c, be_encrypt n cipher mode se p = (c, Ok tt) /\
    be_decrypt n cipher mode sd c =
      (p ++ repeat (N.of_nat k mod 256) (k - k mod 256), Ok tt).
Proof. exact (@wide_roundtrip). Qed.

Theorem c70_roundtrip_iff : forall S n cipher (mode : cipher_mode S) R se sd p,
  (1 <= n)%nat -> bytes p -> mode_inverse n cipher mode R -> R se sd ->
  ((exists c, be_encrypt n cipher mode se p = (c, Ok tt) /\
              be_decrypt n cipher mode sd c = (p, Ok tt)) <->
   (n - length p mod n <= 255)%nat).
Proof. exact (@wide_roundtrip_iff). Qed.

Theorem c70_roundtrip_all_sizes_refuted : exists n cipher p,
  (1 <= n)%nat /\ cipher_inverse n cipher /\ bytes p /\
  ~ exists c, be_encrypt n cipher ecb_mode tt p = (c, Ok tt) /\
              be_decrypt n cipher ecb_mode tt c = (p, Ok tt).
Proof.
  exists 300%nat, toy_cipher, [1; 2; 3].
  split; [lia|]. split; [exact (toy_inverse 300)|]. split; [repeat constructor|].
  intros H. apply (c70_roundtrip_iff _ _ _ _ (fun _ _ => True)) in H.
  - vm_compute in H. lia.
  - lia.
  - repeat constructor.
  - apply ecb_inverse, toy_inverse.
  - exact I.
Qed.

Example c70_case :
  be_decrypt 300 toy_cipher ecb_mode tt
    (fst (be_encrypt 300 toy_cipher ecb_mode tt [1; 2; 3])) =
    ([1; 2; 3] ++ repeat 41 256, Ok tt).
Proof. vm_compute. reflexivity. Qed.

Print Assumptions c07_encrypt_exact.
Print Assumptions c07_blocks_exist.
Print Assumptions c07_blocks_unique.
Print Assumptions c07_encrypt_length.
Print Assumptions c07_encrypt_total.
Print Assumptions c08_roundtrip.
Print Assumptions c08_roundtrip_ecb.
Print Assumptions c08_roundtrip_cbc.
Print Assumptions c09_decrypt_bad_length.
Print Assumptions c09_decrypt_exact.
Print Assumptions c10_malleable.
Print Assumptions c10_decrypt_accepts_only_ciphertexts_refuted.
Print Assumptions c11_stream_xor.
Print Assumptions c11_stream_ok_iff.
Print Assumptions c11_stream_split.
Print Assumptions c11_stream_involution.
Print Assumptions c70_encrypt.
Print Assumptions c70_zero_block_size.
Print Assumptions c70_decrypted.
Print Assumptions c70_roundtrip_iff.
Print Assumptions c70_roundtrip_all_sizes_refuted.
