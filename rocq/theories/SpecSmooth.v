(** * Pollard's p - 1 method, and the upper half of the private exponent *)
From Coq Require Import NArith.
Local Open Scope N_scope.

Fixpoint factorial (b : nat) : N :=
  match b with
  | O => 1
  | S k => N.of_nat (S k) * factorial k
  end.

(** 2^(b!) modulo [n], with [b] small powers. *)
Fixpoint power_of_two (b : nat) (n : N) : N :=
  match b with
  | O => 2 mod n
  | S k => power_of_two k n ^ N.of_nat (S k) mod n
  end.

(** A divisor of [n]. *)
Definition pollard (b : nat) (n : N) : N := N.gcd (power_of_two b n - 1) n.
