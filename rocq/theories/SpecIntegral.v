(** * Sets of 256 blocks *)
From Coq Require Import List NArith Arith.
From Verif Require Import SpecAes.
Import ListNotations.
Local Open Scope N_scope.

(** 256 states that differ in the byte [i] and agree in all others. *)
Definition lambda_set (S : N -> list N) (i : nat) : Prop :=
  forall v v', v < 256 -> v' < 256 ->
    (nth i (S v) 0 = nth i (S v') 0 -> v = v') /\
    forall j, (j < 16)%nat -> j <> i -> nth j (S v) 0 = nth j (S v') 0.

(** The sum of the bytes [j] of 256 states. *)
Definition byte_sum (S : N -> list N) (j : nat) : N :=
  fold_left N.lxor (map (fun v => nth j (S v) 0) all_bytes) 0.
