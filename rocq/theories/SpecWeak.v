(** * States and round numbers to avoid *)
From Coq Require Import List NArith.
From Verif Require Import ModelRc.
Local Open Scope N_scope.

(** The RC4 states described by Finney (1994): they lie on short cycles. *)
Definition finney (ks : rc4) : Prop :=
  rc4_y ks = (rc4_x ks + 1) mod 256 /\ nth (N.to_nat (rc4_y ks)) (rc4_state ks) 0 = 1.
