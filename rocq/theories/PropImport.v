(** * C105: key import does not check the numbers of the key *)
From Coq Require Import String.
From Verif Require Import Base BaseLemmas ModelBig ModelRsa ModelPem ModelKey SpecEndian SpecBig SpecRsa SpecMsg
  SpecText SpecPem SpecAsn1 SpecKey SpecImport ProofPem ProofPrime ProofImport ProofMsgWitness.
Local Open Scope N_scope.
Local Open Scope list_scope.

(** Only the modulus and the private exponent count: two files that agree in them give the same
    key, whatever their version, public exponent, primes, exponents and coefficient. *)
Theorem c105_private_ignored : forall data data' key key' v v' n n' e e' d d' p p' q q' dp dp' dq dq' qi qi',
  bytes data -> bytes data' ->
  lax (private_key_info key) data -> lax (rsa_private_key v n e d p q dp dq qi) key ->
  lax (private_key_info key') data' -> lax (rsa_private_key v' n' e' d' p' q' dp' dq' qi') key' ->
  be_num n = be_num n' -> be_num d = be_num d' ->
  exists k, private_key_try_from {| pem_label := text "PRIVATE KEY"; pem_data := data |} = Ok (ROk k) /\
    private_key_try_from {| pem_label := text "PRIVATE KEY"; pem_data := data' |} = Ok (ROk k).
Proof. exact private_ignores. Qed.
Print Assumptions c105_private_ignored.

(** So inconsistent keys are accepted. *)
Theorem c105_checked_refuted : exists n e d p q dp dq qi k,
  private_key_try_from {| pem_label := text "PRIVATE KEY"; pem_data := private_key_der n e d p q dp dq qi |} = Ok (ROk k) /\
  ~ consistent_key n e d p q dp dq qi.
Proof.
  exists 78, 7, 43, 7, 11, 1, 3, 2, {| priv_n := [78]; priv_d := [43] |}. split; [vm_compute; reflexivity|].
  intros (_ & _ & _ & H & _). discriminate H.
Qed.
Print Assumptions c105_checked_refuted.

(** A public key file with the exponent one is accepted for every modulus, and whoever sees a
    ciphertext made with it reads the message. *)
Theorem c105_exponent_one : forall capf n s msg, 1 < n -> allocates capf (digits n + 4) ->
  size (public_key_der n 1) < 2 ^ 64 -> pem_text s (text "PUBLIC KEY") (public_key_der n 1) ->
  bytes msg -> (length msg + 66 <= digits n)%nat ->
  exists pub ct, import_public s = Ok (Some pub) /\
    encrypt_message capf (rsa_from_public pub) msg rsa_padding = Ok ct /\
    ps_decode rsa_padding [] (be_bytes (digits n) (be_num ct)) (digits n) = Ok (ROk msg).
Proof. exact exponent_one. Qed.
Print Assumptions c105_exponent_one.

(** With the exponent zero every message is encrypted to the byte one, and so lost. *)
Theorem c105_exponent_zero : forall capf n s msg, 1 < n -> allocates capf (digits n + 4) ->
  size (public_key_der n 0) < 2 ^ 64 -> pem_text s (text "PUBLIC KEY") (public_key_der n 0) ->
  bytes msg -> (length msg + 66 <= digits n)%nat ->
  exists pub, import_public s = Ok (Some pub) /\
    encrypt_message capf (rsa_from_public pub) msg rsa_padding = Ok [1].
Proof. exact exponent_zero. Qed.
Print Assumptions c105_exponent_zero.

(** A modulus of less than 66 bytes is accepted, too, and no message can be encrypted with it; *)
Theorem c105_short_modulus : forall capf n e s msg, (digits n < length msg + 66)%nat -> 0 < n -> N.size n <= 2 ^ 32 - 8 ->
  size (public_key_der n e) < 2 ^ 64 -> pem_text s (text "PUBLIC KEY") (public_key_der n e) -> bytes msg ->
  exists pub, import_public s = Ok (Some pub) /\
    encrypt_message capf (rsa_from_public pub) msg rsa_padding = Panic PExplicit.
Proof. exact short_modulus. Qed.
Print Assumptions c105_short_modulus.

(** nor with the modulus zero. *)
Theorem c105_zero_modulus : forall capf e s msg,
  size (public_key_der 0 e) < 2 ^ 64 -> pem_text s (text "PUBLIC KEY") (public_key_der 0 e) -> bytes msg ->
  exists pub, import_public s = Ok (Some pub) /\
    encrypt_message capf (rsa_from_public pub) msg rsa_padding = Panic POverflow.
Proof. exact zero_modulus. Qed.
Print Assumptions c105_zero_modulus.

(** The key of asn1.rs:236-257 is consistent; it is also returned for other numbers in all the
    fields except the modulus and the private exponent. *)
Example c105_case :
  consistent_key 77 7 43 7 11 1 3 2 /\
  private_key_try_from {| pem_label := text "PRIVATE KEY"; pem_data := private_key_der 77 7 43 7 11 1 3 2 |} =
    Ok (ROk {| priv_n := [77]; priv_d := [43] |}) /\
  private_key_try_from {| pem_label := text "PRIVATE KEY"; pem_data := private_key_der 77 0 43 2 2 5 5 5 |} =
    Ok (ROk {| priv_n := [77]; priv_d := [43] |}) /\
  let s e := pem_fmt {| pem_label := text "PUBLIC KEY"; pem_data := public_key_der (num wit_n) e |} in
  pem_text (s 1) (text "PUBLIC KEY") (public_key_der (num wit_n) 1) /\ digits (num wit_n) = 67%nat /\
  (exists pub ct, import_public (s 1) = Ok (Some pub) /\
    encrypt_message (fun k => k) (rsa_from_public pub) [7] rsa_padding = Ok ct /\
    ps_decode rsa_padding [] (be_bytes 67 (be_num ct)) 67 = Ok (ROk [7])).
Proof.
  split.
  { split; [apply trial_prime; vm_compute; reflexivity|]. split; [apply trial_prime; vm_compute; reflexivity|].
    split; [discriminate|]. split; [reflexivity|]. split; [split; [discriminate|reflexivity]|].
    split; [vm_compute; reflexivity|]. split; [vm_compute; reflexivity|]. split; vm_compute; reflexivity. }
  split; [vm_compute; reflexivity|]. split; [vm_compute; reflexivity|].
  cbv zeta. assert (T : pem_text (pem_fmt {| pem_label := text "PUBLIC KEY"; pem_data := public_key_der (num wit_n) 1 |})
    (text "PUBLIC KEY") (public_key_der (num wit_n) 1)) by (apply decode_iff; vm_compute; reflexivity).
  split; [exact T|]. split; [vm_compute; reflexivity|].
  apply (c105_exponent_one (fun k => k) (num wit_n)).
  - vm_compute. reflexivity.
  - intros k Hk. change (digits (num wit_n)) with 67%nat in Hk. unfold capacity_ok. split; [apply le_n|].
    change (2 ^ 29 - 1) with 536870911. Lia.lia.
  - vm_compute. reflexivity.
  - exact T.
  - repeat constructor.
  - apply Nat.leb_le. vm_compute. reflexivity.
Qed.
