(** * Properties C89-C90: other ciphertexts of a message, several ciphertexts of a message *)
From Verif Require Import Base ModelSha ModelBig ModelRsa SpecEndian SpecBig SpecSha SpecRsa SpecOaep SpecMsg
  SpecBroadcast BaseLemmas ProofRsa ProofMsg ProofMsgWitness ProofBroadcast.
Local Open Scope N_scope.
Local Open Scope list_scope.

(** C89. RFC 8017 (5.1.2, 7.1.2) rejects ciphertexts that are not below the modulus. Here
    only the residue counts. *)
Theorem c89_residue : forall E capf key ct ct' (ps : padding_scheme E), sized capf key ->
  bytes ct -> bytes ct' -> length ct = length ct' -> allocates capf (length ct + 4) ->
  be_num ct mod num (rsa_modulo key) = be_num ct' mod num (rsa_modulo key) ->
  decrypt_message capf key ct ps = decrypt_message capf key ct' ps.
Proof. exact @decrypt_residue. Qed.
Print Assumptions c89_residue.

(** Every multiple of the modulus that still fits may be added to a ciphertext. *)
Theorem c89_second_ciphertext : forall capf p q enc dec msg ct j,
  matching p q enc dec -> sized capf enc -> sized capf dec ->
  bytes msg -> encrypt_message capf enc msg rsa_padding = Ok ct -> length ct = length (rsa_modulo enc) ->
  be_num ct + j * num (rsa_modulo enc) < 256 ^ N.of_nat (length ct) ->
  decrypt_message capf dec (be_bytes (length ct) (be_num ct + j * num (rsa_modulo enc))) rsa_padding = Ok msg.
Proof. exact second_ciphertext. Qed.
Print Assumptions c89_second_ciphertext.

Theorem c89_range_check_refuted : exists capf p q enc dec ct msg,
  matching p q enc dec /\ sized capf enc /\ sized capf dec /\
  bytes ct /\ length ct = length (rsa_modulo enc) /\ num (rsa_modulo enc) <= be_num ct /\
  decrypt_message capf dec ct rsa_padding = Ok msg.
Proof. exact above_modulus_accepted. Qed.
Print Assumptions c89_range_check_refuted.

(** C90. One message sent to [e] or more recipients whose keys have the exponent [e] and moduli
    of [k] bytes without common factors: the ciphertexts have one common solution below the
    product of the moduli. It is the [e]-th power of the encoded message, and decoding its root
    (with the public [RsaPadding]) gives the message. No private key is involved. *)
Theorem c90_broadcast : forall capf e k keys cts msg,
  Forall (fun key => sized capf key /\ num (rsa_exponent key) = e /\ length (rsa_modulo key) = k) keys ->
  pairwise_coprime (moduli keys) -> 1 <= e <= N.of_nat (length keys) -> bytes msg ->
  Forall2 (fun key ct => encrypt_message capf key msg rsa_padding = Ok ct) keys cts ->
  (exists x r, x < product (moduli keys) /\ solves x (moduli keys) (map be_num cts) /\ r ^ e = x) /\
  forall x r, x < product (moduli keys) -> solves x (moduli keys) (map be_num cts) -> r ^ e = x ->
    ps_decode rsa_padding [] (be_bytes k r) k = Ok (ROk msg).
Proof. exact broadcast. Qed.
Print Assumptions c90_broadcast.

(** One message under two exponents for one modulus: [a] and [b] are Bezout coefficients of the
    exponents, [w] is the inverse of the second ciphertext. *)
Theorem c90_common_modulus : forall capf key1 key2 msg ct1 ct2 a b w, sized capf key1 -> sized capf key2 ->
  rsa_modulo key1 = rsa_modulo key2 -> bytes msg ->
  encrypt_message capf key1 msg rsa_padding = Ok ct1 -> encrypt_message capf key2 msg rsa_padding = Ok ct2 ->
  a * num (rsa_exponent key1) = b * num (rsa_exponent key2) + 1 ->
  (w * be_num ct2) mod num (rsa_modulo key1) = 1 ->
  let k := length (rsa_modulo key1) in
  ps_decode rsa_padding [] (be_bytes k ((be_num ct1 ^ a * w ^ b) mod num (rsa_modulo key1))) k = Ok (ROk msg).
Proof. exact common_modulus. Qed.
Print Assumptions c90_common_modulus.

(** The ciphertext is a function of the message (of the message alone: no randomness enters), and
    an injective one: guesses can be confirmed. *)
Theorem c90_injective : forall capf p q enc dec msg msg' ct, matching p q enc dec ->
  sized capf enc -> sized capf dec -> bytes msg -> bytes msg' ->
  encrypt_message capf enc msg rsa_padding = Ok ct -> encrypt_message capf enc msg' rsa_padding = Ok ct -> msg = msg'.
Proof. exact encrypt_message_injective. Qed.
Print Assumptions c90_injective.

(** Three recipients with the exponent 3. *)
Example c90_case :
  Forall (fun key => sized (fun k => k) key /\ num (rsa_exponent key) = 3 /\ length (rsa_modulo key) = 67%nat)
    [wit_key 1; wit_key 2; wit_key 3] /\
  pairwise_coprime (moduli [wit_key 1; wit_key 2; wit_key 3]) /\
  forall key, In key [wit_key 1; wit_key 2; wit_key 3] ->
    exists ct, encrypt_message (fun k => k) key [7] rsa_padding = Ok ct.
Proof.
  destruct wit_recipients as [W1 W2]. split; [exact W1|]. split; [exact W2|].
  intros key H. rewrite Forall_forall in W1. destruct (W1 key H) as (S & _ & L).
  destruct (encrypt_rsa_padding (fun k => k) key [7] S) as (ct & E & _).
  - repeat constructor.
  - rewrite L. apply Nat.leb_le. reflexivity.
  - now exists ct.
Qed.
