(** * C110: encrypting again and again decrypts *)
From Verif Require Import Base BaseLemmas ModelBig ModelRsa SpecBig SpecRsa SpecCycle ProofPrime ProofCycle.
Local Open Scope N_scope.

(** For every key pair there is a number of encryptions with the public key after which every message
    is itself again; one fewer decrypts. *)
Theorem c110_cycle : forall capf k p q e priv pub, canonical p -> canonical q -> canonical e ->
  prime_N (num p) -> prime_N (num q) -> num p <> num q -> create_keys p q e = Ok (priv, pub) ->
  allocates capf k -> (20 <= k)%nat ->
  exists j, (0 < j)%nat /\ N.of_nat j <= N.lcm (num p - 1) (num q - 1) /\
    forall m, canonical m -> num m < num p * num q -> again (rsa_encrypt capf (rsa_from_public pub)) j m = Ok m.
Proof. exact cycle_created. Qed.
Print Assumptions c110_cycle.

(** Nothing secret is needed to notice it: before the ciphertext comes back, the message has been
    reached. *)
Theorem c110_attack : forall capf k p q e priv pub m c j, canonical p -> canonical q -> canonical e ->
  prime_N (num p) -> prime_N (num q) -> num p <> num q -> create_keys p q e = Ok (priv, pub) ->
  allocates capf k -> (20 <= k)%nat -> canonical m -> num m < num p * num q ->
  rsa_encrypt capf (rsa_from_public pub) m = Ok c -> again (rsa_encrypt capf (rsa_from_public pub)) (S j) c = Ok c ->
  again (rsa_encrypt capf (rsa_from_public pub)) j c = Ok m.
Proof. exact passes_created. Qed.
Print Assumptions c110_attack.

(** The same for keys of any size. *)
Theorem c110_cycle_any_key : forall capf k p q e n d, prime_N p -> prime_N q -> p <> q ->
  key_pair p q (num e) (num d) -> num n = p * q -> canonical n -> canonical e -> countable e ->
  allocates capf k -> (length n + 4 <= k)%nat ->
  exists j, (0 < j)%nat /\ N.of_nat j <= N.lcm (p - 1) (q - 1) /\ forall m, canonical m -> num m < p * q ->
    again (rsa_encrypt capf {| rsa_exponent := e; rsa_modulo := n |}) j m = Ok m.
Proof. exact cycle_key. Qed.
Print Assumptions c110_cycle_any_key.

(** The primes 61 and 53 with the exponent 17: twelve encryptions. *)
Example c110_case :
  prime_N 61 /\ prime_N 53 /\
  create_keys [61] [53] [17] =
    Ok ({| priv_n := [161; 12]; priv_d := [157; 1] |}, {| pub_n := [161; 12]; pub_e := [17] |}) /\
  again (rsa_encrypt (fun k => k) {| rsa_exponent := [17]; rsa_modulo := [161; 12] |}) 12 [65] = Ok [65] /\
  again (rsa_encrypt (fun k => k) {| rsa_exponent := [17]; rsa_modulo := [161; 12] |}) 1 [65] = Ok [230; 10] /\
  again (rsa_encrypt (fun k => k) {| rsa_exponent := [17]; rsa_modulo := [161; 12] |}) 11 [230; 10] = Ok [65].
Proof.
  split; [apply trial_prime; vm_compute; reflexivity|]. split; [apply trial_prime; vm_compute; reflexivity|].
  split; [vm_compute; reflexivity|]. repeat split; vm_compute; reflexivity.
Qed.
