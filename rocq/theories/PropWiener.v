(** * C102: a small private exponent follows from the public key *)
From Verif Require Import Base BaseLemmas ModelBig ModelRsa SpecBig SpecRsa SpecWiener ProofRsa ProofPrime ProofWiener.
From Coq Require Import List NArith ZArith.
Import ListNotations.
Local Open Scope N_scope.

(** Every fraction in lowest terms that is near enough to e / n is one of the convergents. *)
Theorem c102_convergents : forall e n h k, 0 < n -> 1 <= k -> N.gcd h k = 1 ->
  (2 * Z.of_N k * Z.abs (Z.of_N e * Z.of_N k - Z.of_N n * Z.of_N h) < Z.of_N n)%Z ->
  In (h, k) (convergents (N.size_nat e + N.size_nat n + 1) e n 1 0 0 1).
Proof. exact approximation_listed. Qed.
Print Assumptions c102_convergents.

(** The attack never gives a wrong answer. *)
Theorem c102_sound : forall n e x y, wiener n e = Some (x, y) -> x * y = n /\ 1 < x /\ 1 < y.
Proof. exact wiener_sound. Qed.
Print Assumptions c102_sound.

(** It finds the primes of every key of [create_keys] with a small private exponent. *)
Theorem c102_created_keys : forall p q e priv pub, canonical p -> canonical q -> canonical e ->
  prime_N (num p) -> prime_N (num q) -> 2 < num p -> 2 < num q ->
  create_keys p q e = Ok (priv, pub) ->
  num e < N.lcm (num p - 1) (num q - 1) -> (num p - 1) * (num q - 1) + 1 < num e * num (priv_d priv) ->
  2 * N.gcd (num p - 1) (num q - 1) * (num (priv_d priv) * num (priv_d priv)) * (num p + num q) <= num p * num q ->
  exists x y, wiener (num (pub_n pub)) (num (pub_e pub)) = Some (x, y) /\
    ((x = num p /\ y = num q) \/ (x = num q /\ y = num p)).
Proof. exact wiener_created. Qed.
Print Assumptions c102_created_keys.

(** [create_keys] does not reject such keys: every unit is the private exponent of some key. *)
Theorem c102_any_private : forall p q d, canonical p -> canonical q -> prime_N (num p) -> prime_N (num q) ->
  2 < num p -> 2 < num q -> num p * num q < 2 ^ 128 ->
  0 < d < N.lcm (num p - 1) (num q - 1) -> N.gcd d (N.lcm (num p - 1) (num q - 1)) = 1 ->
  exists e priv pub, canonical e /\ num e < N.lcm (num p - 1) (num q - 1) /\
    create_keys p q e = Ok (priv, pub) /\ num (priv_d priv) = d.
Proof. exact any_private. Qed.
Print Assumptions c102_any_private.

(** The primes 227 and 233 with private exponent 5; the fourth convergent gives them away. *)
Example c102_case :
  prime_N 227 /\ prime_N 233 /\ N.gcd 226 232 = 2 /\ N.lcm 226 232 = 26216 /\
  create_keys [227] [233] [0xed; 0x51] =
    Ok ({| priv_n := [0x9b; 0xce]; priv_d := [5] |}, {| pub_n := [0x9b; 0xce]; pub_e := [0xed; 0x51] |}) /\
  num [0xed; 0x51] = 20973 /\ 20973 < 26216 /\ 226 * 232 + 1 < 20973 * 5 /\
  2 * 2 * (5 * 5) * (227 + 233) <= 227 * 233 /\
  wiener 52891 20973 = Some (227, 233) /\
  firstn 4 (convergents 40 20973 52891 1 0 0 1) = [(0, 1); (1, 2); (1, 3); (2, 5)] /\
  map (wiener_try 52891 20973) [(0, 1); (1, 2); (1, 3); (2, 5)] = [None; None; None; Some (227, 233)].
Proof.
  split; [apply trial_prime; vm_compute; reflexivity|]. split; [apply trial_prime; vm_compute; reflexivity|].
  do 6 (split; [vm_compute; reflexivity|]). split; [vm_compute; discriminate|].
  split; [vm_compute; reflexivity|]. split; vm_compute; reflexivity.
Qed.
