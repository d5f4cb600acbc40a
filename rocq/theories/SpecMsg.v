(** * Keys for message encryption *)
From Verif Require Import Base ModelBig ModelRsa SpecBig SpecRsa.
Local Open Scope N_scope.

(** The numbers of the key are canonical, the modulus is above one, and the
    lengths are within what [BigUint] can handle. *)
Definition sized (capf : nat -> nat) (key : rsa_encryption) : Prop :=
  canonical (rsa_exponent key) /\ canonical (rsa_modulo key) /\ 1 < num (rsa_modulo key) /\
  countable (rsa_exponent key) /\ allocates capf (length (rsa_modulo key) + 4).

(** The two keys of a pair over the primes [p] and [q]. *)
Definition matching (p q : N) (enc dec : rsa_encryption) : Prop :=
  prime_N p /\ prime_N q /\ p <> q /\ rsa_modulo enc = rsa_modulo dec /\
  num (rsa_modulo enc) = p * q /\ key_pair p q (num (rsa_exponent enc)) (num (rsa_exponent dec)).
