(** * Decimal numerals *)
From Coq Require Import List NArith.
Import ListNotations.
Local Open Scope N_scope.

(** The value of decimal digits (as characters), most significant first. *)
Definition numeral_value (s : list N) : N := fold_left (fun v c => 10 * v + (c - 48)) s 0.

(** The decimal numeral of a number: digits with its value and no leading zero. *)
Definition numeral (n : N) (s : list N) : Prop :=
  Forall (fun c => 48 <= c <= 57) s /\ s <> [] /\ (hd 0 s = 48 -> s = [48]) /\ numeral_value s = n.
