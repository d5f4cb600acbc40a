(** * Malleability

    Ciphertext blocks in a new order. *)
From Coq Require Import List NArith.
Import ListNotations.

(** The blocks with the indices [is], one after the other. *)
Definition pick (bs : list (list N)) (is : list nat) : list N :=
  concat (map (fun i => nth i bs []) is).
