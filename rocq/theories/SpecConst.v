(** * Where the constants of the hash functions and of RC5 come from *)
From Coq Require Import NArith ZArith List Reals.
From Verif Require Import SpecRsa.

Definition real (n : N) : R := IZR (Z.of_N n).

(** [n] is the integer part of the real number [x >= 0]. *)
Definition is_floor (x : R) (n : N) : Prop := (real n <= x < real n + 1)%R.

(** [n] consists of the first [b] bits of the fractional part of [x]. *)
Definition frac_bits (b : N) (x : R) (n : N) : Prop := is_floor (real (2 ^ b) * frac_part x) n.

(** [n] is the odd integer nearest to [x]; the greater one if there are two. *)
Definition nearest_odd (x : R) (n : N) : Prop :=
  N.odd n = true /\ (-1 < real n - x <= 1)%R.

Definition cube_root_of (n : N) : R := Rpower (real n) (/ 3).

(** Prime number [i], counted from 0: exactly [i] primes are smaller. *)
Definition nth_prime (i : nat) (p : N) : Prop :=
  prime_N p /\ exists l, length l = i /\ NoDup l /\ forall q, In q l <-> prime_N q /\ (q < p)%N.

Definition golden_ratio : R := ((1 + sqrt 5) / 2)%R.
