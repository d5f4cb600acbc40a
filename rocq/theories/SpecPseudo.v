(** * Pseudo-collisions of MD5 (den Boer and Bosselaers, 1993) *)
From Coq Require Import List NArith Arith Bool.
From Verif Require Import SpecEndian SpecWord SpecMd.
Import ListNotations.
Open Scope N_scope.

(** The top bit of a word, and its inversion in all four words of a state. *)
Definition top (x : N) : bool := N.testbit x 31.
Definition flip_top (x : N) : N := N.lxor x 0x80000000.
Definition flip4 (st : state4) : state4 :=
  let '(a, b, c, d) := st in (flip_top a, flip_top b, flip_top c, flip_top d).

(** The state after the first [i] of the 64 operations on a block of words. *)
Definition after (x : list N) (st : state4) (i : nat) : state4 := fold_left (md5_step x) (firstn i md5_ops) st.

(** What operation number [i] (counted from 0) asks of the top bits. *)
Definition asks (i : nat) (st : state4) : bool :=
  let '(a, b, c, d) := st in
  if (i <? 16)%nat then eqb (top c) (top d)
  else if (i <? 32)%nat then eqb (top b) (top c)
  else if (i <? 48)%nat then true
  else eqb (top b) (top d).

(** Every operation gets what it asks for. *)
Definition good_path (x : list N) (st : state4) : bool :=
  forallb (fun i => asks i (after x st i)) (seq 0 64).
