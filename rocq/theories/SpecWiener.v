(** * A small private exponent from the public key (Wiener 1990) *)
From Coq Require Import List NArith.
Import ListNotations.
Local Open Scope N_scope.

(** The convergents of the continued fraction of [a / b], as numerators and denominators;
    [(h, k)] and [(h0, k0)] are the two before. *)
Fixpoint convergents (fuel : nat) (a b h k h0 k0 : N) : list (N * N) :=
  match fuel with
  | O => []
  | S fuel =>
      if b =? 0 then []
      else let q := a / b in
           let h1 := q * h + h0 in let k1 := q * k + k0 in
           (h1, k1) :: convergents fuel b (a mod b) h1 k1 h k
  end.

(** If [k / d] has the form of a quotient with [e d = 1 + k (p - 1) (q - 1)] or nearly so, the sum
    of the primes follows, and they are the roots of a quadratic equation. *)
Definition wiener_try (n e : N) (c : N * N) : option (N * N) :=
  let (k, d) := c in
  if k =? 0 then None
  else
    let phi := e * d / k in
    let s := n + 1 - phi in
    let r := N.sqrt (s * s - 4 * n) in
    let p := (s - r) / 2 in let q := (s + r) / 2 in
    if ((p * q =? n) && (1 <? p) && (1 <? q))%bool then Some (p, q) else None.

(** The first convergent that works. The fuel is enough for all of them. *)
Definition wiener (n e : N) : option (N * N) :=
  fold_right (fun c r => match wiener_try n e c with Some f => Some f | None => r end) None
    (convergents (N.size_nat e + N.size_nat n + 1) e n 1 0 0 1).
