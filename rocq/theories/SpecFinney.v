(** * C128: the states in the short cycles of RC4 *)
From Verif Require Import Base ModelRc.
Local Open Scope N_scope.

(** Finney's condition ("An RC4 cycle that can't happen", 1994): the second index is
    one ahead of the first, and the table holds 1 there. *)
Definition finney (ks : rc4) : Prop :=
  rc4_y ks = (rc4_x ks + 1) mod 256 /\ nth (N.to_nat (rc4_y ks)) (rc4_state ks) 0 = 1.
