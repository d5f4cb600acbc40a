(** * Property C91: exponents and messages for which RSA does nothing *)
From Verif Require Import Base BaseLemmas ModelBig ModelRsa SpecEndian SpecBig SpecRsa ProofPrime ProofExponent.
Local Open Scope N_scope.
Local Open Scope list_scope.

(** [create_keys] accepts the exponent one (RFC 8017, 3.1, requires at least three), and
    encryption under that key returns the message. *)
Theorem c91_exponent_one_refuted : forall capf p q m, canonical p -> canonical q ->
  prime_N (num p) -> prime_N (num q) -> num p * num q < 2 ^ 128 -> allocates capf 20 ->
  canonical m -> num m < num p * num q ->
  exists priv pub, create_keys p q [1] = Ok (priv, pub) /\ rsa_encrypt capf (rsa_from_public pub) m = Ok m.
Proof. exact exponent_one. Qed.
Print Assumptions c91_exponent_one_refuted.

(** So does every exponent that is one modulo the least common multiple. *)
Theorem c91_identity_exponent : forall capf k p q key m, prime_N p -> prime_N q -> p <> q ->
  num (rsa_modulo key) = p * q ->
  num (rsa_exponent key) mod N.lcm (p - 1) (q - 1) = 1 mod N.lcm (p - 1) (q - 1) ->
  canonical (rsa_exponent key) -> canonical (rsa_modulo key) -> canonical m -> countable (rsa_exponent key) ->
  (length m + 4 <= k)%nat -> (length (rsa_modulo key) + 4 <= k)%nat -> allocates capf k ->
  num m < num (rsa_modulo key) -> rsa_encrypt capf key m = Ok m.
Proof. exact identity_key. Qed.
Print Assumptions c91_identity_exponent.

(** Under every odd exponent 0, 1 and n - 1 are encrypted to themselves. *)
Theorem c91_fixed_messages : forall capf k key m,
  canonical (rsa_exponent key) -> canonical (rsa_modulo key) -> canonical m ->
  1 < num (rsa_modulo key) -> countable (rsa_exponent key) ->
  (length m + 4 <= k)%nat -> (length (rsa_modulo key) + 4 <= k)%nat -> allocates capf k ->
  num (rsa_exponent key) mod 2 = 1 -> num m = 0 \/ num m = 1 \/ num m = num (rsa_modulo key) - 1 ->
  rsa_encrypt capf key m = Ok m.
Proof. exact fixed_messages. Qed.
Print Assumptions c91_fixed_messages.

(** The primes 61 and 53: lcm(60, 52) = 780, so 781 does nothing either. *)
Example c91_case :
  (exists priv, create_keys [61] [53] [1] = Ok (priv, {| pub_n := [161; 12]; pub_e := [1] |})) /\
  (exists priv, create_keys [61] [53] [13; 3] = Ok (priv, {| pub_n := [161; 12]; pub_e := [13; 3] |})) /\
  rsa_encrypt (fun k => k) {| rsa_exponent := [13; 3]; rsa_modulo := [161; 12] |} [210; 4] = Ok [210; 4] /\
  rsa_encrypt (fun k => k) {| rsa_exponent := [17]; rsa_modulo := [161; 12] |} [160; 12] = Ok [160; 12] /\
  rsa_encrypt (fun k => k) {| rsa_exponent := [17]; rsa_modulo := [161; 12] |} [65] = Ok [230; 10].
Proof.
  split; [eexists; vm_compute; reflexivity|]. split; [eexists; vm_compute; reflexivity|].
  split; [vm_compute; reflexivity|]. split; vm_compute; reflexivity.
Qed.
