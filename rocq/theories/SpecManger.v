(** * Manger's attack on OAEP (CRYPTO 2001), simplified

    The attacker asks about factors [f]: [o f] tells whether [f * m mod n] is at
    least [B], for the unknown [m < B]. Counts its questions. *)
From Coq Require Import NArith.
From Verif Require Import Base ModelRsa.
Local Open Scope N_scope.

Section Attack.
  Context (o : N -> bool) (n B : N).

  (** The largest power of two [g] with [g * m < B]. *)
  Fixpoint grow (fuel : nat) (g q : N) : N * N :=
    match fuel with
    | O => (g, q)
    | S fuel => if o (2 * g) then (g, q + 1) else grow fuel (2 * g) (q + 1)
    end.

  (** Adds [g] to [f] until the product has passed the next multiple of [n]. *)
  Fixpoint advance (fuel : nat) (g f q : N) : N * N :=
    match fuel with
    | O => (f, q)
    | S fuel => if o (f + g) then advance fuel g (f + g) (q + 1) else (f + g, q + 1)
    end.

  (** With [j * n <= f * m < j * n + B], until [f >= B] leaves one [m]. *)
  Fixpoint refine (fuel : nat) (g f j q : N) : N * N :=
    if B <=? f then ((j * n + (f - 1)) / f, q)
    else match fuel with
    | O => (0, q)
    | S fuel =>
        if o (2 * f) then
          let (f', q') := advance (N.to_nat (2 * n / B + 1)) g (2 * f) (q + 1) in
          refine fuel g f' (2 * j + 1) q'
        else refine fuel g (2 * f) (2 * j) (q + 1)
    end.

  (** The recovered [m] and the number of questions. *)
  Definition manger : N * N :=
    let (g, q) := grow (N.to_nat (N.size B)) 1 0 in
    refine (N.to_nat (N.size B)) g g 0 q.
End Attack.

(** What the attacker looks for in the panic message. *)
Definition first_byte_reported (r : res (result (list N) oaep_error)) : bool :=
  match r with Ok (RErr FirstByteNotZero) => true | _ => false end.
