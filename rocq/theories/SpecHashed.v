(** * What the hashes of OAEP tell *)
From Coq Require Import List NArith Arith.
From Verif Require Import Base.
Import ListNotations.
Local Open Scope N_scope.

(** The lengths of the inputs that decoding [em] hashes, for hashes of [hn] bytes:
    none if the first byte is not zero, and otherwise the label, the masked data
    block with a counter, and the seed with as many counters as the data block
    needs. *)
Definition decode_hashes (hn : nat) (label em : list N) : list nat :=
  if hd 1 em =? 0 then
    length label :: (length em - hn - 1 + 4)%nat ::
    repeat (hn + 4)%nat ((length em - hn - 1 + hn - 1) / hn)
  else [].

(** What the attacker looks for: not even the label was hashed. *)
Definition nothing_hashed (l : list nat) : bool := match l with [] => true | _ => false end.
