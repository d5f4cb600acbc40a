(** * What an observer of panics learns from block decryption *)
From Coq Require Import List NArith.
From Verif Require Import Base ModelBlock.
Import ListNotations.
Local Open Scope N_scope.

Definition panics {A} (r : out A) : bool := match snd r with Ok _ => false | Panic _ => true end.

(** Every block can be decrypted. *)
Definition decrypts (n : nat) (cipher : block_cipher) : Prop :=
  forall b, length b = n -> bytes b ->
  exists o, bc_decrypt cipher b = Ok o /\ length o = n /\ bytes o.

(** The bytes [x] for which the answers [o v] are those of "[x] xor [v] is more than
    [n]", from all 256 questions [v]. *)
Definition all_bytes : list N := map N.of_nat (seq 0 256).
Definition candidates (n : nat) (o : N -> bool) : list N :=
  filter (fun x => forallb (fun v => Bool.eqb (o v) (N.of_nat n <? N.lxor x v)) all_bytes) all_bytes.

(** The questions for the block [c]: a block of zeros and [v], then [c]. *)
Definition question (n : nat) (v : N) (c : list N) : list N := repeat 0 (n - 1) ++ [v] ++ c.
