(** * C129: the private exponents that belong to a public key, src/rsa/mod.rs *)
From Verif Require Import Base BaseLemmas ModelBig ModelRsa SpecBig SpecRsa ProofWorking.
Local Open Scope N_scope.

(** The condition of RFC 8017 on the exponents is not only sufficient: they decrypt
    every message exactly if it holds. *)
Theorem c129_exponents : forall p q, prime_N p -> prime_N q -> p <> q -> forall e d,
  (forall m, m < p * q -> rsa_power (rsa_power m e (p * q)) d (p * q) = m) <-> key_pair p q e d.
Proof. exact working_iff. Qed.
Print Assumptions c129_exponents.

Theorem c129_code : forall capf k p q e n d, prime_N p -> prime_N q -> p <> q -> num n = p * q ->
  canonical n -> canonical d -> canonical e -> countable e -> countable d -> allocates capf k ->
  (length n + 4 <= k)%nat ->
  (forall m, canonical m -> num m < p * q ->
     exists c, rsa_encrypt capf {| rsa_exponent := e; rsa_modulo := n |} m = Ok c /\
       rsa_decrypt capf {| rsa_exponent := d; rsa_modulo := n |} c = Ok m) <->
  key_pair p q (num e) (num d).
Proof. exact working_code. Qed.
Print Assumptions c129_code.

(** The exponents that decrypt what a key of [create_keys] encrypts: the one that
    it returns is the smallest, and the others follow in steps of lcm(p - 1, q - 1). *)
Theorem c129_create_keys : forall capf k p q e priv pub d', canonical p -> canonical q -> canonical e ->
  prime_N (num p) -> prime_N (num q) -> num p <> num q ->
  create_keys p q e = Ok (priv, pub) -> canonical d' -> countable d' ->
  allocates capf k -> (20 <= k)%nat ->
  (forall m, canonical m -> num m < num p * num q ->
     exists c, rsa_encrypt capf (rsa_from_public pub) m = Ok c /\
       rsa_decrypt capf {| rsa_exponent := d'; rsa_modulo := priv_n priv |} c = Ok m) <->
  exists i, num d' = num (priv_d priv) + i * N.lcm (num p - 1) (num q - 1).
Proof. exact created_least. Qed.
Print Assumptions c129_create_keys.

(** The primes 61 and 53: 413 and 413 + 780 decrypt, 413 + 390 does not. *)
Example c129_case :
  (exists pub, create_keys [61] [53] [17] = Ok ({| priv_n := [161; 12]; priv_d := [157; 1] |}, pub)) /\
  N.lcm 60 52 = 780 /\
  let enc := rsa_encrypt (fun k => k) {| rsa_exponent := [17]; rsa_modulo := [161; 12] |} [65] in
  let dec d := let* c := enc in rsa_decrypt (fun k => k) {| rsa_exponent := d; rsa_modulo := [161; 12] |} c in
  dec [157; 1] = Ok [65] /\ dec [169; 4] = Ok [65] /\ num [169; 4] = 413 + 780 /\
  num [35; 3] = 413 + 390 /\ dec [35; 3] <> Ok [65].
Proof.
  split; [eexists; vm_compute; reflexivity|]. split; [reflexivity|]. cbv zeta.
  split; [vm_compute; reflexivity|]. split; [vm_compute; reflexivity|].
  split; [reflexivity|]. split; [reflexivity|]. vm_compute. discriminate.
Qed.
