(** * What the two padding schemes should be *)
From Coq Require Import List NArith.
Import ListNotations.
Open Scope N_scope.

(** PKCS#7 (RFC 5652, 6.3): [p] extended to [n] bytes by [n - |p|] copies of the
    byte [n - |p|]. *)
Definition pkcs_padded (n : nat) (p : list N) : list N :=
  p ++ repeat (N.of_nat (n - length p)) (n - length p).

(** [b] is a block that a conforming padder can produce. *)
Definition pkcs_genuine (n : nat) (b : list N) : Prop :=
  exists p, (length p < n)%nat /\ b = pkcs_padded n p.

(** ISO/IEC 9797-1 padding method 2: a 0x80 byte and then zeros. *)
Definition bit_padded (n : nat) (p : list N) : list N :=
  p ++ 128 :: repeat 0 (n - length p - 1).
