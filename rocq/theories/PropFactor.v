(** * C97: who knows both exponents of a key finds its primes *)
From Verif Require Import Base BaseLemmas ModelBig ModelRsa SpecBig SpecRsa SpecFactor ProofFactor ProofFactorKey.
From Coq Require Import List.
Import ListNotations.
Local Open Scope N_scope.

(** What the search finds is one of the primes. *)
Theorem c97_finds_a_prime : forall p q m a g, prime_N p -> prime_N q -> p <> q -> 2 < p -> 2 < q ->
  0 < m -> N.divide (p - 1) m -> N.divide (q - 1) m ->
  N.gcd a (p * q) = 1 -> factor_with (p * q) m a = Some g -> g = p \/ g = q.
Proof. intros p q m a g Pp Pq Hne P Q M D1 D2. exact (factor_sound p q m Pp Pq Hne P Q M D1 D2 a g). Qed.
Print Assumptions c97_finds_a_prime.

(** It succeeds for at least half of the units. *)
Theorem c97_half_of_the_units : forall p q m, prime_N p -> prime_N q -> p <> q -> 2 < p -> 2 < q ->
  0 < m -> N.divide (p - 1) m -> N.divide (q - 1) m ->
  (length (units (p * q)) <= 2 * length (successes (p * q) m))%nat.
Proof. exact at_least_half. Qed.
Print Assumptions c97_half_of_the_units.

(** Both for all keys that [create_keys] returns, with the product of the exponents. *)
Theorem c97_created_keys : forall p q e priv pub, canonical p -> canonical q -> canonical e ->
  prime_N (num p) -> prime_N (num q) -> num p <> num q -> 2 < num p -> 2 < num q -> 1 < num e ->
  create_keys p q e = Ok (priv, pub) ->
  let n := num (pub_n pub) in let m := num (pub_e pub) * num (priv_d priv) - 1 in
  (forall a g, N.gcd a n = 1 -> factor_with n m a = Some g -> g = num p \/ g = num q) /\
  (length (units n) <= 2 * length (successes n m))%nat /\
  exists a, a < n /\ (factor_with n m a = Some (num p) \/ factor_with n m a = Some (num q)).
Proof. exact created_keys_disclose. Qed.
Print Assumptions c97_created_keys.

(** The primes 5 and 7 with exponent 5: the private exponent is 5 as well. The base 2 finds
    the 7, the base 34 = -1 finds nothing; 18 of the 24 units find a prime. *)
Example c97_case :
  create_keys [5] [7] [5] = Ok ({| priv_n := [35]; priv_d := [5] |}, {| pub_n := [35]; pub_e := [5] |}) /\
  num [5] * num [5] - 1 = 24 /\ 24 mod (5 - 1) = 0 /\ 24 mod (7 - 1) = 0 /\
  factor_with 35 24 2 = Some 7 /\ factor_with 35 24 34 = None /\
  length (units 35) = 24%nat /\ length (successes 35 24) = 18%nat.
Proof. repeat (split; [vm_compute; reflexivity|]). vm_compute; reflexivity. Qed.
