(** * C132: who can time decrypt_message can decrypt *)
From Verif Require Import Base BaseLemmas ModelSha ModelBig ModelRsa ModelHashed SpecEndian SpecBig SpecRsa SpecOaep SpecMsg
  SpecManger SpecHashed ProofManger ProofHashed ProofMsgWitness.
Local Open Scope N_scope.
Local Open Scope list_scope.

(** Without the record of its hashes it is [decrypt_message]. *)
Theorem c132_erase_decode : forall (P : profile) hn hasher label em k,
  snd (h_oaep_decode hn hasher label em k) = oaep_decode hn hasher label em k.
Proof. exact @er_oaep_decode. Qed.
Print Assumptions c132_erase_decode.

Theorem c132_erase : forall (P : profile) capf key ct,
  snd (h_decrypt_message capf key ct) = decrypt_message capf key ct rsa_padding.
Proof. exact @er_decrypt_message. Qed.
Print Assumptions c132_erase.

(** For every hash function: decoding hashes nothing if the first byte is not zero,
    and otherwise the same lengths for all encoded messages of one length, right or
    wrong. *)
Theorem c132_decode : forall hasher H hn limit, implements hasher H hn limit -> (0 < hn)%nat ->
  forall label em, bytes label -> bytes em -> oaep_sizes hn limit label (length em) ->
  (hn + 1 <= length em)%nat ->
  fst (h_oaep_decode hn hasher label em (length em)) = decode_hashes hn label em.
Proof. exact decode_hashes_ok. Qed.
Print Assumptions c132_decode.

(** So nothing is hashed exactly when the decrypted number is large. *)
Theorem c132_oracle : forall capf key ct, sized capf key -> bytes ct -> length ct = length (rsa_modulo key) ->
  nothing_hashed (fst (h_decrypt_message capf key ct)) =
  (256 ^ N.of_nat (length ct - 1) <=?
   rsa_power (be_num ct) (num (rsa_exponent key)) (num (rsa_modulo key))).
Proof. exact nothing_oracle. Qed.
Print Assumptions c132_oracle.

(** Every message encrypted for a key (whose modulus does not start with the byte
    1) can be read with the public key [enc] by who learns, for at most 4112
    ciphertexts for each byte of the modulus, whether the owner of [dec] hashed
    anything. The panic message is not needed. *)
Theorem c132_attack : forall capf p q enc dec msg ct,
  matching p q enc dec -> sized capf enc -> sized capf dec ->
  bytes msg -> encrypt_message capf enc msg rsa_padding = Ok ct ->
  let n := num (rsa_modulo enc) in let k := length (rsa_modulo enc) in
  2 * 256 ^ N.of_nat (k - 1) <= n ->
  forall x c, manger (fun f => nothing_hashed (fst (h_decrypt_message capf dec
      (be_bytes k ((f ^ num (rsa_exponent enc) * be_num ct) mod n)))))
    n (256 ^ N.of_nat (k - 1)) = (x, c) ->
  ps_decode rsa_padding [] (be_bytes k x) k = Ok (ROk msg) /\ c <= 8 * N.of_nat k * 514.
Proof. exact hashed_attack. Qed.
Print Assumptions c132_attack.

(** 67 bytes: the hashes for a first byte of 1, for one of 0 with nonsense behind it,
    and for a proper message. *)
Example c132_case :
  fst (h_oaep_decode 32 sha256 [] (1 :: repeat 7 66) 67) = [] /\
  h_oaep_decode 32 sha256 [] (0 :: repeat 7 66) 67 = ([0; 38; 36; 36]%nat, Ok (RErr WrongLabel)) /\
  (let* em := oaep_encode 32 sha256 [] [5] 67 in snd (h_oaep_decode 32 sha256 [] em 67)) = Ok (ROk [5]) /\
  (let* em := oaep_encode 32 sha256 [] [5] 67 in Ok (fst (h_oaep_decode 32 sha256 [] em 67))) =
    Ok [0; 38; 36; 36]%nat.
Proof. do 3 (split; [vm_compute; reflexivity|]). vm_compute. reflexivity. Qed.

(** n = 23 * 29, e = 3, d = 103: the number 200 from its ciphertext, as in C83. *)
Example c132_small :
  let dec := {| rsa_exponent := [103]; rsa_modulo := [155; 2] |} in
  rsa_power 200 3 667 = 2 /\
  manger (fun f => nothing_hashed (fst (h_decrypt_message (fun n => n) dec
      (be_bytes 2 ((f ^ 3 * 2) mod 667))))) 667 256 = (200, 21).
Proof. split; vm_compute; reflexivity. Qed.

(** A key that meets the hypotheses of [c132_attack]. *)
Example c132_key :
  matching wit_p wit_q (rsa_from_public wit_public) (rsa_from_private wit_private) /\
  sized (fun k => k) (rsa_from_public wit_public) /\ sized (fun k => k) (rsa_from_private wit_private) /\
  length wit_n = 67%nat /\ 2 * 256 ^ N.of_nat (length wit_n - 1) <= num wit_n.
Proof.
  split; [exact wit_matching|]. split; [exact wit_sized_public|]. split; [exact wit_sized_private|].
  split; [reflexivity|]. vm_compute. discriminate.
Qed.
