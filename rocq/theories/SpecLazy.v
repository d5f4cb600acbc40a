(** * Pulling bytes out of an iterator one at a time *)
From Verif Require Import Base ModelBlock.
Local Open Scope N_scope.

(** [n] calls of [next], stopping after the first [None]. The bytes delivered,
    then the state reached or the panic. *)
Fixpoint pull {A} (next : key_iter A) (n : nat) (s : A) : list N * res A :=
  match n with
  | O => ([], Ok s)
  | S n =>
      match next s with
      | Panic r => ([], Panic r)
      | Ok (None, s) => ([], Ok s)
      | Ok (Some b, s) => let (bs, r) := pull next n s in (b :: bs, r)
      end
  end.

(** The iterator over a list. *)
Definition list_iter : key_iter (list N) := fun l =>
  Ok (match l with [] => (None, []) | b :: l => (Some b, l) end).
