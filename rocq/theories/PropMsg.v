(** * Properties C54-C56 and C66: encrypt_message and decrypt_message, src/rsa/mod.rs *)
From Verif Require Import Base ModelSha ModelBig ModelRsa SpecEndian SpecBig SpecSha SpecRsa SpecOaep SpecMsg
  ProofRsa ProofOaep ProofMsg ProofMsgWitness.
Local Open Scope N_scope.
Local Open Scope list_scope.

(** C54. *)
Theorem c54_encrypt_message : forall capf key msg, sized capf key -> bytes msg ->
  (length msg + 66 <= length (rsa_modulo key))%nat ->
  exists ct, encrypt_message capf key msg rsa_padding = Ok ct /\ bytes ct /\ hd 1 ct <> 0 /\
    be_num ct = rsa_power
      (be_num (oaep_spec sha256_spec 32 (repeat 42 32) [] msg (length (rsa_modulo key))))
      (num (rsa_exponent key)) (num (rsa_modulo key)).
Proof. exact encrypt_rsa_padding. Qed.

Theorem c54_modulus_too_short_panics : forall capf key msg,
  canonical (rsa_modulo key) -> countable (rsa_modulo key) ->
  bytes msg -> (length (rsa_modulo key) < length msg + 66)%nat ->
  encrypt_message capf key msg rsa_padding =
  Panic (match rsa_modulo key with [] => POverflow | _ => PExplicit end).
Proof. exact encrypt_too_short. Qed.

(** For every padding scheme that fills the length of the modulus. *)
Theorem c54_encrypt_message_any_padding : forall E capf key msg (ps : padding_scheme E) em,
  sized capf key -> ps_encode ps [] msg (length (rsa_modulo key)) = Ok em -> bytes em ->
  length em = length (rsa_modulo key) ->
  if be_num em <? num (rsa_modulo key) then
    exists ct, encrypt_message capf key msg ps = Ok ct /\ bytes ct /\ hd 1 ct <> 0 /\
      be_num ct = rsa_power (be_num em) (num (rsa_exponent key)) (num (rsa_modulo key))
  else encrypt_message capf key msg ps = Panic PAssert.
Proof. exact @encrypt_message_spec. Qed.

Example c54_case :
  sized (fun k => k) (rsa_from_public wit_public) /\ length wit_n = 67%nat /\
  exists ct, encrypt_message (fun k => k) (rsa_from_public wit_public) [] rsa_padding = Ok ct /\
    length ct = 67%nat.
Proof.
  split; [exact wit_sized_public|]. split; [reflexivity|].
  destruct wit_works as (ct & E & L & _). exists ct. split; [exact E|exact L].
Qed.

(** C55. *)
Theorem c55_message_roundtrip : forall capf p q enc dec msg ct,
  matching p q enc dec -> sized capf enc -> sized capf dec ->
  bytes msg -> encrypt_message capf enc msg rsa_padding = Ok ct ->
  length ct = length (rsa_modulo enc) -> decrypt_message capf dec ct rsa_padding = Ok msg.
Proof. exact message_roundtrip. Qed.

(** What decrypt_message does with any bytes, for every padding scheme. *)
Theorem c55_decrypt_message : forall E capf key ct (ps : padding_scheme E),
  sized capf key -> bytes ct -> allocates capf (length ct + 4) ->
  let v := rsa_power (be_num ct) (num (rsa_exponent key)) (num (rsa_modulo key)) in
  decrypt_message capf key ct ps =
  if v <? 256 ^ N.of_nat (length ct)
  then (let* r := ps_decode ps [] (be_bytes (length ct) v) (length ct) in runwrap r)
  else Panic POverflow.
Proof. exact @decrypt_message_spec. Qed.

Example c55_case :
  matching wit_p wit_q (rsa_from_public wit_public) (rsa_from_private wit_private) /\
  exists ct, encrypt_message (fun k => k) (rsa_from_public wit_public) [] rsa_padding = Ok ct /\
    length ct = length wit_n /\
    decrypt_message (fun k => k) (rsa_from_private wit_private) ct rsa_padding = Ok [].
Proof. split; [exact wit_matching|exact wit_works]. Qed.

(** C56. Every ciphertext that lost leading zero bytes makes decryption panic
    (unless the masked seed begins with a zero byte, too). *)
Theorem c56_short_ciphertext_panics : forall capf p q enc dec msg ct,
  matching p q enc dec -> sized capf enc -> sized capf dec ->
  bytes msg -> encrypt_message capf enc msg rsa_padding = Ok ct ->
  (length ct < length (rsa_modulo enc))%nat ->
  nth 1 (oaep_spec sha256_spec 32 (repeat 42 32) [] msg (length (rsa_modulo enc))) 0 <> 0 ->
  decrypt_message capf dec ct rsa_padding =
  Panic (if (length ct =? length (rsa_modulo enc) - 1)%nat then PUnwrap else POverflow).
Proof. exact message_short_panics. Qed.

Theorem c56_roundtrip_refuted : exists capf p q enc dec msg ct r,
  matching p q enc dec /\ sized capf enc /\ sized capf dec /\ bytes msg /\
  encrypt_message capf enc msg rsa_padding = Ok ct /\
  decrypt_message capf dec ct rsa_padding = Panic r /\ r <> PFuel.
Proof. exact message_roundtrip_fails. Qed.

(** C66. *)
Theorem c66_create_keys_unusable : forall capf p q e priv pub msg,
  create_keys p q e = Ok (priv, pub) -> bytes p -> bytes q -> bytes msg ->
  (length (pub_n pub) <= 16)%nat /\
  encrypt_message capf (rsa_from_public pub) msg rsa_padding = Panic PExplicit /\
  encrypt_message capf (rsa_from_private priv) msg rsa_padding = Panic PExplicit.
Proof. exact create_keys_unusable. Qed.

Example c66_case :
  encrypt_message (fun k => k) (rsa_from_public {| pub_n := [161; 12]; pub_e := [17] |}) [] rsa_padding
    = Panic PExplicit /\
  create_keys [61] [53] [17] = Ok ({| priv_n := [161; 12]; priv_d := [157; 1] |},
                                   {| pub_n := [161; 12]; pub_e := [17] |}).
Proof. split; vm_compute; reflexivity. Qed.

Print Assumptions c54_encrypt_message.
Print Assumptions c54_modulus_too_short_panics.
Print Assumptions c54_encrypt_message_any_padding.
Print Assumptions c55_message_roundtrip.
Print Assumptions c55_decrypt_message.
Print Assumptions c56_short_ciphertext_panics.
Print Assumptions c56_roundtrip_refuted.
Print Assumptions c66_create_keys_unusable.
