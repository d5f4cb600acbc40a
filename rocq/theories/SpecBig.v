(** * Arbitrary-precision naturals: what the operations should compute

    The specification is [N] itself; a little-endian byte string stands for
    [le_num] of it. *)
From Coq Require Import List NArith Arith.
From Verif Require Import SpecEndian.
Import ListNotations.
Open Scope N_scope.

(** The number a stored value stands for. *)
Definition num (a : list N) : N := le_num a.

(** The representation the code relies on: bytes, and the last one (the most
    significant) is not zero; the number zero is the empty string. *)
Definition canonical (a : list N) : Prop :=
  Forall (fun b => b < 256) a /\ last a 1 <> 0.

(** Number of binary digits: 0 has none, [2^k .. 2^(k+1)-1] have [k+1]. *)
Definition bit_length (n : N) : N := if n =? 0 then 0 else N.log2 n + 1.

(** Bit counts are [u32] in the code; they stay below [2^32] for fewer than
    [2^29] bytes (512 MiB). *)
Definition countable (a : list N) : Prop := N.of_nat (length a) < 2 ^ 29.

(** What [Vec::with_capacity] may return: at least what was asked for; and
    small enough that the bits of the sum in the subtraction can be counted. *)
Definition capacity_ok (cap : nat) : Prop := N.of_nat cap < 2 ^ 29 - 1.
Definition allocates (capf : nat -> nat) (n : nat) : Prop :=
  forall k, (k <= n)%nat -> (k <= capf k)%nat /\ capacity_ok (capf k).
