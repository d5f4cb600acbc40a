(** * C108: ECB gives away what is appended to a chosen text *)
From Verif Require Import Base BaseLemmas ModelPad ModelBlock ModelAes ModelRc SpecPad SpecBlock SpecEcb
  ProofEcb ProofAesKey ProofRc2 ProofRc5 PropBlock.
Local Open Scope N_scope.

(** C108. From the ciphertexts of [x ++ secret] for a few chosen [x], under any cipher whose
    decryption inverts its encryption, the secret follows. *)
Theorem c108_appended_secret : forall n cipher secret answer,
  (1 <= n <= 255)%nat -> cipher_inverse n cipher -> bytes secret ->
  (forall x, In x (questions n secret) -> answer x = fst (be_encrypt n cipher ecb_mode tt (x ++ secret))) ->
  appended_secret n answer = secret.
Proof. exact questions_enough. Qed.

(** The number of these texts. *)
Theorem c108_questions : forall n secret, length (questions n secret) = (n + 1 + 257 * length secret)%nat.
Proof. exact questions_count. Qed.

(** The ciphers of the library. *)
Theorem c108_aes : forall nk key c secret, nk = 4%nat \/ nk = 6%nat \/ nk = 8%nat ->
  length key = (4 * nk)%nat -> bytes key -> aes_make nk key = Ok c -> bytes secret ->
  appended_secret 16 (fun x => fst (be_encrypt 16 (aes_cipher c) ecb_mode tt (x ++ secret))) = secret.
Proof.
  exact (fun nk key c secret H1 H2 H3 H4 => appended_ok 16 (aes_cipher c) secret ltac:(lia)
    (aes_cipher_inverse nk key c H1 H2 H3 H4)).
Qed.

Theorem c108_rc2 : forall key t1 k secret, (1 <= length key <= 128)%nat -> bytes key -> 1 <= t1 <= 1024 ->
  rc2_from_key key t1 = Ok k -> bytes secret ->
  appended_secret 8 (fun x => fst (be_encrypt 8 (rc2_cipher k) ecb_mode tt (x ++ secret))) = secret.
Proof.
  exact (fun key t1 k secret H1 H2 H3 H4 => appended_ok 8 (rc2_cipher k) secret ltac:(lia)
    (rc2_cipher_inverse key t1 k H1 H2 H3 H4)).
Qed.

Theorem c108_rc5 : forall key r c secret, rc5_new key r = Ok c -> bytes secret ->
  appended_secret 8 (fun x => fst (be_encrypt 8 (rc5_cipher c) ecb_mode tt (x ++ secret))) = secret.
Proof.
  exact (fun key r c secret H => appended_ok 8 (rc5_cipher c) secret ltac:(lia)
    (rc5_cipher_inverse key r c H)).
Qed.

(** Blocks of four bytes. *)
Example c108_case :
  cipher_inverse 4 toy_cipher /\
  secret_length 4 (fun x => fst (be_encrypt 4 toy_cipher ecb_mode tt (x ++ [200; 7; 0; 255; 13]))) = 5%nat /\
  appended_secret 4 (fun x => fst (be_encrypt 4 toy_cipher ecb_mode tt (x ++ [200; 7; 0; 255; 13]))) = [200; 7; 0; 255; 13].
Proof. split; [exact (toy_inverse 4)|]. split; vm_compute; reflexivity. Qed.

Print Assumptions c108_appended_secret.
Print Assumptions c108_questions.
Print Assumptions c108_aes.
Print Assumptions c108_rc2.
Print Assumptions c108_rc5.
