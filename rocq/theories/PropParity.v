(** * C114: one bit of each decrypted number decrypts every ciphertext *)
From Verif Require Import Base BaseLemmas ModelBig ModelRsa SpecBig SpecRsa SpecMsg SpecParity ProofMsgWitness ProofParity.
Local Open Scope N_scope.

(** Whether the decrypted numbers are odd: as many questions as the modulus has bits. *)
Theorem c114_parity : forall capf p q enc dec m c,
  matching p q enc dec -> sized capf enc -> sized capf dec ->
  canonical m -> num m < num (rsa_modulo enc) -> N.odd (num (rsa_modulo enc)) = true ->
  rsa_encrypt capf enc m = Ok c ->
  read_off (fun i => odd_answer capf dec (((2 ^ i) ^ num (rsa_exponent enc) * num c) mod num (rsa_modulo enc)))
    (num (rsa_modulo enc)) = num m.
Proof. intros capf p q enc dec m c M Se Sd. exact (parity_attack capf p q enc dec M Se Sd m c). Qed.
Print Assumptions c114_parity.

(** Whether the decrypted numbers are at least half the modulus. *)
Theorem c114_half : forall capf p q enc dec m c,
  matching p q enc dec -> sized capf enc -> sized capf dec ->
  canonical m -> num m < num (rsa_modulo enc) ->
  rsa_encrypt capf enc m = Ok c ->
  read_off (fun i => half_answer capf dec (((2 ^ (i - 1)) ^ num (rsa_exponent enc) * num c) mod num (rsa_modulo enc)))
    (num (rsa_modulo enc)) = num m.
Proof. intros capf p q enc dec m c M Se Sd. exact (half_attack capf p q enc dec M Se Sd m c). Qed.
Print Assumptions c114_half.

(** The answers are those of the code: what it decrypts is the power. *)
Theorem c114_answers : forall capf key c, sized capf key -> c < num (rsa_modulo key) ->
  decrypts_to capf key c = rsa_power c (num (rsa_exponent key)) (num (rsa_modulo key)).
Proof. exact decrypts_power. Qed.
Print Assumptions c114_answers.

(** A program that discloses the remainder of what it decrypts after division by two. *)
Example c114_case :
  let enc := {| rsa_exponent := [17]; rsa_modulo := [161; 12] |} in
  let dec := {| rsa_exponent := [157; 1]; rsa_modulo := [161; 12] |} in
  rsa_encrypt (fun k => k) enc [65] = Ok [230; 10] /\
  answers (fun i => odd_answer (fun k => k) dec (((2 ^ i) ^ 17 * num [230; 10]) mod 3233)) 12 = 82 /\
  read_off (fun i => odd_answer (fun k => k) dec (((2 ^ i) ^ 17 * num [230; 10]) mod 3233)) 3233 = 65 /\
  read_off (fun i => half_answer (fun k => k) dec (((2 ^ (i - 1)) ^ 17 * num [230; 10]) mod 3233)) 3233 = 65.
Proof.
  split; [vm_compute; reflexivity|]. split; [vm_compute; reflexivity|]. split; vm_compute; reflexivity.
Qed.

(** A key that meets the hypotheses. *)
Example c114_key :
  matching wit_p wit_q (rsa_from_public wit_public) (rsa_from_private wit_private) /\
  sized (fun k => k) (rsa_from_public wit_public) /\ sized (fun k => k) (rsa_from_private wit_private) /\
  N.odd (num (rsa_modulo (rsa_from_public wit_public))) = true.
Proof.
  split; [exact wit_matching|]. split; [exact wit_sized_public|]. split; [exact wit_sized_private|].
  vm_compute. reflexivity.
Qed.
