(** * Two builds of the same program *)
From Verif Require Import Base.

(** [d] is the outcome of a computation when overflows are checked, [r] the
    outcome when they are not. *)
Definition agrees {A} (d r : res A) : Prop := d = Panic POverflow \/ r = d.

(** The same outcome, except that an index out of bounds stops the computation
    where the checked build reports the overflow. *)
Definition index_for_overflow {A} (d : res A) : res A :=
  match d with Panic POverflow => Panic PIndex | _ => d end.

(** A subtraction modulo 2^128. *)
Definition minus1_u128 (x : N) : N := (x + 2 ^ 128 - 1) mod 2 ^ 128.

(** What the release build takes for the modulus and for lcm(p-1, q-1). *)
Definition wrapped_modulus (p q : N) : N := (p * q) mod 2 ^ 128.
Definition wrapped_lambda (p q : N) : N :=
  let a := minus1_u128 p in let b := minus1_u128 q in
  ((a * b) mod 2 ^ 128) / N.gcd a b.
