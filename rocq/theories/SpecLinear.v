(** * Linear approximations of a function on bytes *)
From Coq Require Import List NArith.
Import ListNotations.
Local Open Scope N_scope.

(** The xor of the bits of [x] that the mask [u] selects. *)
Definition dot (u x : N) : bool :=
  fold_left (fun acc i => xorb acc (andb (N.testbit u i) (N.testbit x i))) [0; 1; 2; 3; 4; 5; 6; 7] false.

(** For how many of the 256 inputs [x] the bits of [x] selected by [u] and the bits
    of [f x] selected by [v] have the same xor. 128 would be no relation at all. *)
Definition agreements (f : N -> N) (u v : N) : nat :=
  length (filter (fun x => Bool.eqb (dot u x) (dot v (f x))) (map N.of_nat (seq 0 256))).
