(** * C134: how many blocks are accepted *)
From Verif Require Import Base ModelBlock.
Local Open Scope N_scope.

(** Exactly [k] values have the property [P]. *)
Definition number_of {A} (P : A -> Prop) (k : N) : Prop :=
  exists l, NoDup l /\ (forall x, In x l <-> P x) /\ N.of_nat (length l) = k.

(** A block of [n] bytes. *)
Definition block (n : nat) (b : list N) : Prop := length b = n /\ bytes b.

(** The cipher with its two directions exchanged. *)
Definition turned (c : block_cipher) : block_cipher :=
  {| bc_encrypt := bc_decrypt c; bc_decrypt := bc_encrypt c |}.
