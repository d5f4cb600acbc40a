(** * Encrypting again and again *)
From Verif Require Import Base.

(** [f] applied [j] times. *)
Fixpoint again (f : list N -> res (list N)) (j : nat) (m : list N) : res (list N) :=
  match j with
  | O => Ok m
  | S j => let* c := f m in again f j c
  end.
