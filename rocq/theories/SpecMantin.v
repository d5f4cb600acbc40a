(** * C133: tables of RC4 with a predictable second byte *)
From Verif Require Import Base ModelRc.
Local Open Scope N_scope.

(** Mantin and Shamir, "A practical attack on broadcast RC4" (2001): the table
    holds 0 at position 2 and not 2 at position 1. *)
Definition mantin (ks : rc4) : Prop :=
  nth 2 (rc4_state ks) 0 = 0 /\ nth 1 (rc4_state ks) 0 <> 2.
