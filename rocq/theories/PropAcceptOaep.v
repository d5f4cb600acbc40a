(** * C135: how many strings OAEP accepts and how many it makes *)
From Verif Require Import Base BaseLemmas ModelRsa SpecEndian SpecBig SpecOaep SpecMsg SpecAccept ProofOaep
  ProofAcceptOaep ProofAcceptMsg ProofMsgWitness.
Local Open Scope N_scope.
Local Open Scope list_scope.

(** Decoding accepts the encodings of all messages with all seeds, all of them different, ... *)
Theorem c135_accepted : forall hasher H hn limit, implements hasher H hn limit -> (0 < hn)%nat ->
  forall label k, bytes label -> oaep_sizes hn limit label k ->
  number_of (fun em => block k em /\ exists m, oaep_decode hn hasher label em k = Ok (ROk m))
            (256 ^ N.of_nat hn * ((256 ^ N.of_nat (k - 2 * hn - 1) - 1) / 255)).
Proof. exact number_oaep_accepted. Qed.

(** ... and encoding makes one for each message that fits. *)
Theorem c135_produced : forall hasher H hn limit, implements hasher H hn limit -> (0 < hn)%nat ->
  forall label k, bytes label -> oaep_sizes hn limit label k ->
  number_of (fun em => exists m, bytes m /\ oaep_encode hn hasher label m k = Ok em)
            ((256 ^ N.of_nat (k - 2 * hn - 1) - 1) / 255).
Proof. exact number_oaep_produced. Qed.

(** With SHA-256, as the library uses it: 2^256 accepted strings for each that is made. *)
Theorem c135_rsa_padding : forall label k,
  bytes label -> N.of_nat (length label) < 2 ^ 61 -> N.of_nat k <= 2 ^ 37 + 1 ->
  number_of (fun em => block k em /\ exists m, ps_decode rsa_padding label em k = Ok (ROk m))
            (2 ^ 256 * ((256 ^ N.of_nat (k - 65) - 1) / 255)) /\
  number_of (fun em => exists m, bytes m /\ ps_encode rsa_padding label m k = Ok em)
            ((256 ^ N.of_nat (k - 65) - 1) / 255).
Proof. exact number_rsa_padding. Qed.

(** As many ciphertexts below the modulus are decrypted by decrypt_message. *)
Theorem c135_decrypt_message : forall capf p q enc dec, matching p q enc dec -> sized capf dec ->
  let k := length (rsa_modulo dec) in
  number_of (fun ct => block k ct /\ be_num ct < num (rsa_modulo dec) /\
                       exists m, decrypt_message capf dec ct rsa_padding = Ok m)
            (2 ^ 256 * ((256 ^ N.of_nat (k - 65) - 1) / 255)).
Proof. exact number_decrypt_message. Qed.

(** For a modulus of 128 bytes less than one string in 2^271 is accepted; one of 65 bytes is too short
    for any message. *)
Example c135_case :
  oaep_sizes 32 (2 ^ 61) [] 128 /\
  2 ^ 256 * ((256 ^ N.of_nat (128 - 65) - 1) / 255) < 256 ^ 128 / 2 ^ 271 /\
  2 ^ 256 * ((256 ^ N.of_nat (65 - 65) - 1) / 255) = 0 /\
  (256 ^ N.of_nat (67 - 65) - 1) / 255 = 1 + 256 /\
  matching wit_p wit_q (rsa_from_public wit_public) (rsa_from_private wit_private) /\
  sized (fun k => k) (rsa_from_private wit_private) /\ length (rsa_modulo (rsa_from_private wit_private)) = 67%nat.
Proof.
  split; [split; [|split]; vm_compute; congruence|].
  split; [vm_compute; reflexivity|]. split; [vm_compute; reflexivity|]. split; [vm_compute; reflexivity|].
  split; [exact wit_matching|]. split; [exact wit_sized_private|reflexivity].
Qed.

Print Assumptions c135_accepted.
Print Assumptions c135_produced.
Print Assumptions c135_rsa_padding.
Print Assumptions c135_decrypt_message.
