(** * Arithmetic on words of [w] bits, as the standards write it *)
From Coq Require Import List NArith.
Import ListNotations.
Open Scope N_scope.

(** Addition modulo [2^w]. *)
Definition plus_w (w a b : N) : N := (a + b) mod 2 ^ w.
(** Bitwise complement of a word. *)
Definition not_w (w a : N) : N := 2 ^ w - 1 - a.
(** Rotation left by [s] positions: the word times [2^s], the bits pushed out
    returning at the low end. *)
Definition rol (w x s : N) : N :=
  let s := s mod w in (x * 2 ^ s) mod 2 ^ w + x / 2 ^ (w - s).
(** Rotation right. *)
Definition ror (w x s : N) : N :=
  let s := s mod w in x / 2 ^ s + (x mod 2 ^ s) * 2 ^ (w - s).
(** Replacing element [i] of a table. *)
Definition put {A} (l : list A) (i : nat) (v : A) : list A := firstn i l ++ v :: skipn (S i) l.
