(** * C134: how many blocks and ciphertexts are accepted *)
From Verif Require Import Base BaseLemmas ModelPad ModelBlock ModelAes SpecPad SpecBlock SpecAccept
  ProofAccept ProofAesKey.
Local Open Scope N_scope.

(** The number is determined by the property. *)
Theorem c134_number : forall A (P : A -> Prop) j k, number_of P j -> number_of P k -> j = k.
Proof. exact @number_unique. Qed.

(** PKCS padding accepts n + 1 of 256 blocks. *)
Theorem c134_pkcs : forall n, (1 <= n)%nat ->
  number_of (fun b => block n b /\ exists k, pkcs_unpad n b = Ok k)
            (N.min (N.of_nat n + 1) 256 * 256 ^ (N.of_nat n - 1)).
Proof. exact number_pkcs. Qed.

(** Of these few are genuine: less than one of 255 blocks is. *)
Theorem c134_pkcs_genuine : forall n, (1 <= n <= 255)%nat ->
  number_of (fun b => block n b /\ pkcs_genuine n b) ((256 ^ N.of_nat n - 1) / 255).
Proof. exact number_pkcs_genuine. Qed.

(** Bit padding accepts all blocks in which the byte 128 occurs, ... *)
Theorem c134_bit : forall n,
  number_of (fun b => block n b /\ exists r, bit_unpad n b = Ok r) (256 ^ N.of_nat n - 255 ^ N.of_nat n).
Proof. exact number_bit. Qed.

(** ... of which as many are genuine as for PKCS padding. *)
Theorem c134_bit_genuine : forall n,
  number_of (fun b => block n b /\ exists p, (length p < n)%nat /\ b = bit_padded n p)
            ((256 ^ N.of_nat n - 1) / 255).
Proof. exact number_bit_genuine. Qed.

(** Ciphertexts of m + 1 blocks that are decrypted without an error, whatever the cipher. *)
Theorem c134_ecb : forall n cipher m, (1 <= n)%nat -> cipher_inverse n cipher -> cipher_inverse n (turned cipher) ->
  number_of (fun c => block (n * (m + 1)) c /\ exists p, be_decrypt n cipher ecb_mode tt c = (p, Ok tt))
            (N.min (N.of_nat n + 1) 256 * 256 ^ (N.of_nat (n * (m + 1)) - 1)).
Proof. exact number_ecb. Qed.

(** With AES it is 17 of 256, for every key. *)
Theorem c134_aes : forall nk key c m, nk = 4%nat \/ nk = 6%nat \/ nk = 8%nat ->
  length key = (4 * nk)%nat -> bytes key -> aes_make nk key = Ok c ->
  number_of (fun ct => block (16 * (m + 1)) ct /\ exists p, be_decrypt 16 (aes_cipher c) ecb_mode tt ct = (p, Ok tt))
            (17 * 256 ^ (16 * N.of_nat m + 15)).
Proof. exact number_aes. Qed.

(** The numbers for blocks of 16 bytes: PKCS padding accepts more than 16 times as many
    blocks as are genuine, bit padding more than 15 times as many. *)
Example c134_case :
  let all := 256 ^ 16 in
  let genuine := (all - 1) / 255 in
  17 * 256 ^ 15 / genuine = 16 /\ (all - 255 ^ 16) / genuine = 15 /\
  (exists c, aes_make 4 (repeat 1 16) = Ok c) /\
  pkcs_unpad 16 (repeat 7 15 ++ [0]) = Ok 16%nat /\
  bit_unpad 4 [1; 128; 2; 3] = Ok ([1; 0; 0; 0], 1%nat).
Proof.
  cbv zeta. split; [vm_compute; reflexivity|]. split; [vm_compute; reflexivity|].
  split; [eexists; vm_compute; reflexivity|]. split; vm_compute; reflexivity.
Qed.

Print Assumptions c134_number.
Print Assumptions c134_pkcs.
Print Assumptions c134_pkcs_genuine.
Print Assumptions c134_bit.
Print Assumptions c134_bit_genuine.
Print Assumptions c134_ecb.
Print Assumptions c134_aes.
