(** * Factoring a modulus with a multiple of the order of its units *)
From Coq Require Import List NArith.
Import ListNotations.
Local Open Scope N_scope.

(** [a] to the power [m], [m/2], [m/4], ... modulo [n], as long as these are one and the
    exponent is even. The first one that is neither one nor minus one is a square
    root of one and gives a divisor of [n]. *)
Fixpoint split_at (fuel : nat) (n a m : N) : option N :=
  match fuel with
  | O => None
  | S fuel =>
      if N.odd m then None
      else let x := a ^ (m / 2) mod n in
           if x =? 1 then split_at fuel n a (m / 2)
           else if x =? n - 1 then None
           else Some (N.gcd (x - 1) n)
  end.
Definition factor_with (n m a : N) : option N := split_at (N.size_nat m) n a m.

(** The numbers below [n] that are coprime to it. *)
Definition units (n : N) : list N :=
  filter (fun a => N.gcd a n =? 1) (map N.of_nat (seq 0 (N.to_nat n))).

Definition successes (n m : N) : list N :=
  filter (fun a => match factor_with n m a with Some _ => true | None => false end) (units n).
