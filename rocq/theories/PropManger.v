(** * C83: who sees the panic message of decrypt_message can decrypt *)
From Verif Require Import Base BaseLemmas ModelSha ModelBig ModelRsa ModelOracle SpecEndian SpecBig SpecRsa SpecOaep SpecMsg
  SpecManger ProofManger ProofMsgWitness.
Local Open Scope N_scope.
Local Open Scope list_scope.

(** [decrypt_message] is [decrypt_message_verbose] with the error turned into a panic. *)
Theorem c83_erase : forall (P : profile) E capf key ct (ps : padding_scheme E),
  decrypt_message capf key ct ps = let* r := decrypt_message_verbose capf key ct ps in runwrap r.
Proof. exact @verbose_erase. Qed.
Print Assumptions c83_erase.

(** The error is that of the first byte exactly when the decrypted number is large. *)
Theorem c83_oracle : forall capf key ct, sized capf key -> bytes ct -> length ct = length (rsa_modulo key) ->
  first_byte_reported (decrypt_message_verbose capf key ct rsa_padding) =
  (256 ^ N.of_nat (length ct - 1) <=?
   rsa_power (be_num ct) (num (rsa_exponent key)) (num (rsa_modulo key))).
Proof. exact oracle_ok. Qed.
Print Assumptions c83_oracle.

(** Manger's attack recovers any [m < B] from such answers, and how many it needs. *)
Theorem c83_manger : forall o n B m x q, (forall f, o f = (B <=? (f * m) mod n)) -> 2 * B <= n -> m < B ->
  manger o n B = (x, q) -> x = m /\ q <= N.size B * (2 * n / B + 3).
Proof. exact manger_ok. Qed.
Print Assumptions c83_manger.

(** So every message encrypted for a key (whose modulus does not start with the
    byte 1) can be read with the public key [enc] and at most 4112 panic messages of
    the owner of [dec] for each byte of the modulus: the attack finds the encoded
    message. *)
Theorem c83_attack : forall capf p q enc dec msg ct,
  matching p q enc dec -> sized capf enc -> sized capf dec ->
  bytes msg -> encrypt_message capf enc msg rsa_padding = Ok ct ->
  let n := num (rsa_modulo enc) in let k := length (rsa_modulo enc) in
  2 * 256 ^ N.of_nat (k - 1) <= n ->
  forall x c, manger (fun f => first_byte_reported (decrypt_message_verbose capf dec
      (be_bytes k ((f ^ num (rsa_exponent enc) * be_num ct) mod n)) rsa_padding))
    n (256 ^ N.of_nat (k - 1)) = (x, c) ->
  ps_decode rsa_padding [] (be_bytes k x) k = Ok (ROk msg) /\ c <= 8 * N.of_nat k * 514.
Proof. exact attack_ok. Qed.
Print Assumptions c83_attack.

(** n = 23 * 29, e = 3, d = 103: the number 200 from its ciphertext with the panic
    messages of the model. *)
Example c83_case :
  let dec := {| rsa_exponent := [103]; rsa_modulo := [155; 2] |} in
  rsa_power 200 3 667 = 2 /\
  manger (fun f => first_byte_reported (decrypt_message_verbose (fun n => n) dec
      (be_bytes 2 ((f ^ 3 * 2) mod 667)) rsa_padding)) 667 256 = (200, 21).
Proof. split; vm_compute; reflexivity. Qed.

(** A key that meets the hypotheses of [c83_attack]. *)
Example c83_key :
  matching wit_p wit_q (rsa_from_public wit_public) (rsa_from_private wit_private) /\
  sized (fun k => k) (rsa_from_public wit_public) /\ sized (fun k => k) (rsa_from_private wit_private) /\
  length wit_n = 67%nat /\ 2 * 256 ^ N.of_nat (length wit_n - 1) <= num wit_n.
Proof.
  split; [exact wit_matching|]. split; [exact wit_sized_public|]. split; [exact wit_sized_private|].
  split; [reflexivity|]. vm_compute. discriminate.
Qed.
