(** * C111: factors of the modulus that Pollard's p - 1 method finds; C112: the upper half of the private exponent *)
From Verif Require Import Base BaseLemmas ModelBig ModelRsa SpecBig SpecRsa SpecSmooth ProofPrime ProofSmooth.
Local Open Scope N_scope.

(** A prime [p] with [p - 1] dividing a small factorial is found from the modulus alone. *)
Theorem c111_pollard : forall b p q e priv pub, canonical p -> canonical q -> canonical e ->
  prime_N (num p) -> prime_N (num q) -> num p <> num q -> 2 < num p -> 2 < num q ->
  create_keys p q e = Ok (priv, pub) -> (num p - 1 | factorial b) -> 2 ^ factorial b mod num q <> 1 ->
  pollard b (num (pub_n pub)) = num p.
Proof. exact pollard_created. Qed.
Print Assumptions c111_pollard.

(** [create_keys] accepts such primes like any other. *)
Theorem c111_accepted : forall p q e b, canonical p -> canonical q -> canonical e ->
  prime_N (num p) -> prime_N (num q) -> num p <> num q -> 2 < num p -> 2 < num q -> num p * num q < 2 ^ 128 ->
  num e < 2 ^ 128 -> N.gcd (num e) (N.lcm (num p - 1) (num q - 1)) = 1 ->
  (num p - 1 | factorial b) -> 2 ^ factorial b mod num q <> 1 ->
  exists priv pub, create_keys p q e = Ok (priv, pub) /\ pollard b (num (pub_n pub)) = num p.
Proof. exact pollard_accepted. Qed.
Print Assumptions c111_accepted.

(** Primes of any size. *)
Theorem c111_any_modulus : forall b p q, prime_N p -> prime_N q -> p <> q -> 2 < p -> 2 < q ->
  (p - 1 | factorial b) -> 2 ^ factorial b mod q <> 1 -> pollard b (p * q) = p.
Proof. exact pollard_finds. Qed.
Print Assumptions c111_any_modulus.

(** What the method computes divides the number. *)
Theorem c111_sound : forall b n, n <> 0 -> (pollard b n | n).
Proof. exact pollard_sound. Qed.
Print Assumptions c111_sound.

(** The primes 61 and 107: 60 divides 5!, and 107 - 1 is twice a prime. *)
Example c111_case :
  prime_N 61 /\ prime_N 107 /\ (61 - 1 | factorial 5) /\ 2 ^ factorial 5 mod 107 <> 1 /\
  create_keys [61] [107] [7] =
    Ok ({| priv_n := [127; 25]; priv_d := [83; 5] |}, {| pub_n := [127; 25]; pub_e := [7] |}) /\
  num [127; 25] = 61 * 107 /\ pollard 5 (num [127; 25]) = 61.
Proof.
  split; [apply trial_prime; vm_compute; reflexivity|]. split; [apply trial_prime; vm_compute; reflexivity|].
  split; [exists 2; vm_compute; reflexivity|]. split; [vm_compute; discriminate|].
  split; [vm_compute; reflexivity|]. split; vm_compute; reflexivity.
Qed.

(** The private exponent is known up to a number of the size of the primes, given a number below [e]
    and the greatest common divisor of the two predecessors of the primes. *)
Theorem c112_upper_half : forall p q e priv pub, canonical p -> canonical q -> canonical e ->
  prime_N (num p) -> prime_N (num q) -> num p <> num q -> create_keys p q e = Ok (priv, pub) ->
  let g := N.gcd (num p - 1) (num q - 1) in
  exists k, k < num (pub_e pub) /\
    let x := k * num (pub_n pub) / (g * num (pub_e pub)) in
    num (priv_d priv) <= x + 1 /\ x <= num (priv_d priv) + (num p + num q) / g.
Proof. exact half_created. Qed.
Print Assumptions c112_upper_half.

(** The same for every key pair with an exponent no larger than lcm(p - 1, q - 1). *)
Theorem c112_any_key : forall p q e d, 2 <= p -> 2 <= q -> 1 < N.lcm (p - 1) (q - 1) -> key_pair p q e d ->
  d <= N.lcm (p - 1) (q - 1) ->
  let g := N.gcd (p - 1) (q - 1) in
  exists k, k < e /\ d <= k * (p * q) / (g * e) + 1 /\ k * (p * q) / (g * e) <= d + (p + q) / g.
Proof. exact upper_half. Qed.
Print Assumptions c112_any_key.

(** The exponent 3 with primes of 10 bits and the guess 1: d has 18 bits, and its upper part is known. *)
Example c112_case :
  prime_N 1019 /\ prime_N 941 /\ N.gcd 1018 940 = 2 /\
  create_keys [251; 3] [173; 3] [3] =
    Ok ({| priv_n := [159; 161; 14]; priv_d := [255; 110; 2] |}, {| pub_n := [159; 161; 14]; pub_e := [3] |}) /\
  1 * num [159; 161; 14] / (2 * 3) = num [255; 110; 2] + 326.
Proof.
  split; [apply trial_prime; vm_compute; reflexivity|]. split; [apply trial_prime; vm_compute; reflexivity|].
  split; [vm_compute; reflexivity|]. split; [vm_compute; reflexivity|]. vm_compute; reflexivity.
Qed.
