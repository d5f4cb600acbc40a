(** * Reading an exponent from results with one wrong bit in it *)
From Coq Require Import NArith.
Open Scope N_scope.

(** Whether the result [m] is the faulty result [m'] times [c^(2^i)]. *)
Definition was_set (n c m m' i : N) : bool := m =? (m' * c ^ (2 ^ i)) mod n.

(** The number with the bits [o 0], ..., [o (k - 1)]. *)
Fixpoint with_bits (o : N -> bool) (k : nat) : N :=
  match k with
  | O => 0
  | S k' => with_bits o k' + (if o (N.of_nat k') then 2 ^ N.of_nat k' else 0)
  end.
