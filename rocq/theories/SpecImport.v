(** * When the numbers of an RSA key belong together (RFC 8017, 3.1 and 3.2) *)
From Verif Require Import Base SpecRsa.
Local Open Scope N_scope.

Definition consistent_key (n e d p q dp dq qi : N) : Prop :=
  prime_N p /\ prime_N q /\ p <> q /\ n = p * q /\ 3 <= e < n /\ key_pair p q e d /\
  dp = d mod (p - 1) /\ dq = d mod (q - 1) /\ (qi * q) mod p = 1.
