(** * Fermat's method: a number as the difference of two squares *)
From Coq Require Import NArith.
Local Open Scope N_scope.

(** The least number whose square is at least [n]. *)
Definition ceil_sqrt (n : N) : N := let r := N.sqrt n in if r * r =? n then r else r + 1.

(** [n = a^2 - b^2] for the first [a], from the given one on, that allows it: its two factors.
    [attempts] numbers are tried. *)
Fixpoint fermat_from (attempts : nat) (n a : N) : option (N * N) :=
  match attempts with
  | O => None
  | S k =>
      let b := N.sqrt (a * a - n) in
      if a * a - b * b =? n then Some (a - b, a + b) else fermat_from k n (a + 1)
  end.
Definition fermat (attempts : nat) (n : N) : option (N * N) := fermat_from attempts n (ceil_sqrt n).
