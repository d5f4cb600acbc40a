(** * C118: other encodings of the same ASN.1 value, src/pem/asn1.rs and src/rsa/asn1.rs *)
From Coq Require Import String.
From Verif Require Import Base BaseLemmas ModelBig ModelRsa ModelPem ModelKey SpecEndian SpecText SpecAsn1 SpecKey SpecReencode
  ProofReencode.
Local Open Scope N_scope.
Local Open Scope list_scope.

(** The claim "every value has one accepted encoding" is false for every
    value: the tag and the contents of any accepted input, with any of 2^64
    other lengths, are accepted as the same value. *)
Theorem c118_values : forall bs v, bytes bs -> asn1_try_from bs = Ok (ROk v) ->
  exists t l c, bs = t :: l ++ c /\
    (forall j, j < 2 ^ 64 -> asn1_try_from (with_length t c j) = Ok (ROk v)) /\
    (forall i j, i < 2 ^ 64 -> j < 2 ^ 64 -> with_length t c i = with_length t c j -> i = j).
Proof. exact many_encodings. Qed.
Print Assumptions c118_values.

(** So is "every key has one accepted file". *)
Theorem c118_private_keys : forall p k, bytes (pem_data p) -> private_key_try_from p = Ok (ROk k) ->
  exists f : N -> list N,
    (forall j, j < 2 ^ 64 -> private_key_try_from {| pem_label := pem_label p; pem_data := f j |} = Ok (ROk k)) /\
    (forall i j, i < 2 ^ 64 -> j < 2 ^ 64 -> f i = f j -> i = j).
Proof. exact many_private. Qed.
Print Assumptions c118_private_keys.

Theorem c118_public_keys : forall p k, bytes (pem_data p) -> public_key_try_from p = Ok (ROk k) ->
  exists f : N -> list N,
    (forall j, j < 2 ^ 64 -> public_key_try_from {| pem_label := pem_label p; pem_data := f j |} = Ok (ROk k)) /\
    (forall i j, i < 2 ^ 64 -> j < 2 ^ 64 -> f i = f j -> i = j).
Proof. exact many_public. Qed.
Print Assumptions c118_public_keys.

Theorem c118_one_encoding_refuted : exists bs bs' v, bytes bs /\ bytes bs' /\ bs <> bs' /\
  asn1_try_from bs = Ok (ROk v) /\ asn1_try_from bs' = Ok (ROk v).
Proof.
  exists [2; 1; 7], [2; 129; 1; 7], (Integer [7]).
  split; [repeat constructor|]. split; [repeat constructor|]. split; [discriminate|].
  split; vm_compute; reflexivity.
Qed.
Print Assumptions c118_one_encoding_refuted.

(** A public key, and the same with two other lengths. *)
Example c118_case :
  let c := skipn 2 (der (subject_public_key_info (der (rsa_public_key [77] [7])))) in
  let file data := {| pem_label := text "PUBLIC KEY"; pem_data := data |} in
  public_key_try_from (file (0x30 :: size c :: c)) = Ok (ROk {| pub_n := [77]; pub_e := [7] |}) /\
  with_length 0x30 c 1 = [0x30; 144; 0; 0; 0; 0; 0; 0; 0; 1; 0; 0; 0; 0; 0; 0; 0; size c] ++ c /\
  public_key_try_from (file (with_length 0x30 c 1)) = Ok (ROk {| pub_n := [77]; pub_e := [7] |}) /\
  public_key_try_from (file (with_length 0x30 c (2 ^ 64 - 1))) = Ok (ROk {| pub_n := [77]; pub_e := [7] |}).
Proof. cbv zeta. do 3 (split; [vm_compute; reflexivity|]). vm_compute. reflexivity. Qed.
