(** * Bytes and numbers, as the standards write them *)
From Coq Require Import List NArith Arith.
Import ListNotations.
Open Scope N_scope.

(** The [k] base-256 digits of [v], most significant first. *)
Definition be_bytes (k : nat) (v : N) : list N :=
  map (fun i => v / 256 ^ N.of_nat (k - 1 - i) mod 256) (seq 0 k).
(** Least significant first. *)
Definition le_bytes (k : nat) (v : N) : list N :=
  map (fun i => v / 256 ^ N.of_nat i mod 256) (seq 0 k).
(** The number with the given base-256 digits, most significant first. *)
Definition be_num (l : list N) : N := fold_left (fun acc b => acc * 256 + b) l 0.
(** Least significant first. *)
Definition le_num (l : list N) : N := fold_right (fun b acc => b + 256 * acc) 0 l.

(** Consecutive groups of [k] elements ([length l] a multiple of [k]). *)
Definition groups {A} (k : nat) (l : list A) : list (list A) :=
  map (fun i => firstn k (skipn (k * i) l)) (seq 0 (length l / k)).
