(** * C106: close primes follow from the modulus *)
From Verif Require Import Base BaseLemmas ModelBig ModelRsa SpecBig SpecRsa SpecFermat ProofPrime ProofFermat.
Local Open Scope N_scope.

(** For the keys that [create_keys] makes from odd primes, Fermat's method needs exactly as many
    attempts as the middle of the primes is above the root of the modulus (and one more); these are
    at most (p - q)^2 / (8 c). With fewer it finds nothing. *)
Theorem c106_created_keys : forall p q e priv pub k, canonical p -> canonical q -> canonical e ->
  prime_N (num p) -> prime_N (num q) -> 2 < num q -> num q <= num p -> create_keys p q e = Ok (priv, pub) ->
  let c := ceil_sqrt (num (pub_n pub)) in
  fermat k (num (pub_n pub)) = (if (num p + num q) / 2 <? c + N.of_nat k then Some (num q, num p) else None) /\
  8 * c * ((num p + num q) / 2 - c) <= (num p - num q) * (num p - num q).
Proof. exact fermat_created. Qed.
Print Assumptions c106_created_keys.

(** So one attempt suffices for primes that agree in somewhat more than their upper half, *)
Theorem c106_first_attempt : forall p q e priv pub, canonical p -> canonical q -> canonical e ->
  prime_N (num p) -> prime_N (num q) -> 2 < num q -> num q <= num p -> create_keys p q e = Ok (priv, pub) ->
  (num p - num q) * (num p - num q) < 8 * ceil_sqrt (num (pub_n pub)) ->
  fermat 1 (num (pub_n pub)) = Some (num q, num p).
Proof. exact fermat_first. Qed.
Print Assumptions c106_first_attempt.

(** and such primes are accepted like all others. *)
Theorem c106_accepted : forall p q e, canonical p -> canonical q -> canonical e ->
  prime_N (num p) -> prime_N (num q) -> 2 < num q -> num q <= num p -> num p * num q < 2 ^ 128 ->
  num e < 2 ^ 128 -> N.gcd (num e) (N.lcm (num p - 1) (num q - 1)) = 1 ->
  (num p - num q) * (num p - num q) < 8 * ceil_sqrt (num p * num q) ->
  exists priv pub, create_keys p q e = Ok (priv, pub) /\ fermat 1 (num (pub_n pub)) = Some (num q, num p).
Proof. exact fermat_accepted. Qed.
Print Assumptions c106_accepted.

(** What is found is right, for every number. *)
Theorem c106_sound : forall k n x y, fermat k n = Some (x, y) -> x * y = n /\ x <= y.
Proof. exact fermat_sound. Qed.
Print Assumptions c106_sound.

(** 1009 and 1013 are found at once, 101 and 227 at the thirteenth attempt. *)
Example c106_case :
  prime_N 1009 /\ prime_N 1013 /\
  create_keys [0xf5; 3] [0xf1; 3] [5] =
    Ok ({| priv_n := [0xa5; 0x98; 0xf]; priv_d := [0x3d; 0xc7] |}, {| pub_n := [0xa5; 0x98; 0xf]; pub_e := [5] |}) /\
  (1013 - 1009) * (1013 - 1009) < 8 * ceil_sqrt 1022117 /\ num [0xa5; 0x98; 0xf] = 1022117 /\
  fermat 1 1022117 = Some (1009, 1013) /\
  ceil_sqrt (101 * 227) = 152 /\ fermat 12 (101 * 227) = None /\ fermat 13 (101 * 227) = Some (101, 227).
Proof.
  split; [apply trial_prime; vm_compute; reflexivity|]. split; [apply trial_prime; vm_compute; reflexivity|].
  split; [vm_compute; reflexivity|]. split; [vm_compute; reflexivity|]. repeat split; vm_compute; reflexivity.
Qed.
