(** * Values of [BigUint] with a zero as most significant byte *)
From Verif Require Import Base SpecBig.
Local Open Scope N_scope.

(** Bytes, but not [canonical]. *)
Definition spoiled (a : list N) : Prop := bytes a /\ a <> [] /\ last a 1 = 0.
