(** * Compression functions of the Davies-Meyer kind *)
From Verif Require Import Base ModelMd SpecWord.
Local Open Scope N_scope.

(** States of [n] words of [w] bits, and their addition word by word. *)
Definition is_state (w : N) (n : nat) (h : list N) : Prop := length h = n /\ Forall (fun x => x < 2 ^ w) h.
Definition add_state (w : N) (h t : list N) : list N :=
  map (fun p => plus_w w (fst p) (snd p)) (combine h t).

(** With the block [b], the compression function [f] adds every value to exactly one state. *)
Definition adds_each (f : list N -> list N -> res (list N)) (w : N) (n : nat) (b : list N) : Prop :=
  forall t, is_state w n t ->
  exists h, is_state w n h /\ f h b = Ok (add_state w h t) /\
    forall h', is_state w n h' -> f h' b = Ok (add_state w h' t) -> h' = h.

(** In particular it adds zero to exactly one. *)
Definition one_fixed_point (f : list N -> list N -> res (list N)) (w : N) (n : nat) (b : list N) : Prop :=
  exists h, is_state w n h /\ f h b = Ok h /\ forall h', is_state w n h' -> f h' b = Ok h' -> h' = h.

(** One block through the hasher of MD4 or MD5 that has consumed [n] bytes: the four words
    before and after it. *)
Definition md_chunk (process : md_process) (n : N) (h b : list N) : res (list N) :=
  match h with
  | [x; y; z; u] =>
      let* r := md_process_block process
        {| md_unprocessed_bytes := b; md_bytes_consumed := n; md_a := x; md_b := y; md_c := z; md_d := u |} in
      Ok [md_a r; md_b r; md_c r; md_d r]
  | _ => Panic PIndex
  end.
