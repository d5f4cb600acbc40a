(** * Operations spelled by the bits of a number; depth of a value *)
From Coq Require Import List NArith Arith.
From Verif Require Import SpecBig ModelPem ModelCost.
Import ListNotations.
Local Open Scope N_scope.

(** The bits of [e], lowest first. *)
Definition bits (e : N) : list bool := map (fun i => N.testbit e (N.of_nat i)) (seq 0 (N.to_nat (bit_length e))).

(** For each bit: [y], and [x] before it if the bit is set. *)
Definition spells (x y : op) (e : N) : list op := flat_map (fun b : bool => if b then [x; y] else [y]) (bits e).

Definition ones (e : N) : nat := length (filter (fun b => b) (bits e)).

(** The number of values around and including the innermost one. *)
Fixpoint depth (a : asn1) : nat :=
  match a with
  | Sequence es => S (fold_right Nat.max 0%nat (map depth es))
  | _ => 1%nat
  end.
