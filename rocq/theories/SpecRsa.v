(** * RSA over the natural numbers *)
From Coq Require Import NArith ZArith Znumtheory.
Open Scope N_scope.

(** [N] has no predicate for primes; this is the one of the standard library. *)
Definition prime_N (p : N) : Prop := prime (Z.of_N p).

(** RFC 8017, 5.1: the primitives RSAEP and RSADP. *)
Definition rsa_power (m e n : N) : N := m ^ e mod n.

(** RFC 8017, 3.2: the exponents of a key pair match. *)
Definition key_pair (p q e d : N) : Prop :=
  (e * d) mod N.lcm (p - 1) (q - 1) = 1 mod N.lcm (p - 1) (q - 1).

(** For which [d = a^-1 mod n], 2^127 <= n < 2^128, a computation of the inverse
    with signed 128-bit coefficients stays within range. *)
Definition inverse_fits (n d : N) : bool :=
  if n =? 2 ^ 127 then (1 <? d) && (d <? 2 ^ 126)
  else (d =? 1) || ((d =? n - 1) && (2 ^ 127 + 1 <? n)).
