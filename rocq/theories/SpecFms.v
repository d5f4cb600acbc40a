(** * The attack of Fluhrer, Mantin and Shamir on RC4 keys with a known beginning *)
From Coq Require Import List NArith Arith.
From Verif Require Import SpecRc.
Import ListNotations.
Local Open Scope N_scope.

(** Table and pointer after the first [n] steps of the key scheduling. *)
Definition setup (key : list N) (n : nat) : list N * N :=
  fold_left (fun '(s, j) i =>
      let j := (j + nth i s 0 + nth (i mod length key) key 0) mod 256 in
      (exchange s i (N.to_nat j), j))
    (seq 0 n) (map N.of_nat (seq 0 256), 0).

(** The pointer in step [i]. *)
Definition pointer (key : list N) (i : nat) : N := snd (setup key (S i)).

(** Where [z] is in the table. *)
Fixpoint place (z : N) (s : list N) : N :=
  match s with
  | [] => 0
  | x :: s => if x =? z then 0 else place z s + 1
  end.

(** The key byte after the [known] ones, computed from them and the first byte [z] of the
    key stream. *)
Definition fms (known : list N) (z : N) : N :=
  let (s, j) := setup known (length known) in
  (place z s + 512 - j - nth (length known) s 0) mod 256.

(** The known bytes lead to a table that discloses the next one. *)
Definition resolved (known : list N) : Prop :=
  let s := fst (setup known (length known)) in
  let x := nth 1 s 0 in
  x < N.of_nat (length known) /\ (x + nth (N.to_nat x) s 0) mod 256 = N.of_nat (length known).

(** The pointer is not one of [ps] in the steps from [a] to before [b]. *)
Definition avoids (key : list N) (a b : nat) (ps : list N) : Prop :=
  forall i, (a <= i < b)%nat -> ~ In (pointer key i) ps.
