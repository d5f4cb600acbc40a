(** * Other lengths for the same contents *)
From Coq Require Import List NArith.
Import ListNotations.
From Verif Require Import Base SpecEndian SpecAsn1 ModelPem.
Open Scope N_scope.

(** The tag, then the length of the contents plus [j] times 2^64 in 16 digits, then the contents. *)
Definition with_length (t : N) (c : list N) (j : N) : list N :=
  t :: 144 :: be_bytes 16 (size c + 2 ^ 64 * j) ++ c.
