(** * Many messages with one digest (Joux 2004) *)
From Verif Require Import Base SpecEndian SpecMerkle.
Local Open Scope N_scope.

(** All messages that consist of one part of each pair. *)
Fixpoint choices (ps : list (list N * list N)) : list (list N) :=
  match ps with
  | [] => [[]]
  | (a, b) :: ps => map (fun m => a ++ m) (choices ps) ++ map (fun m => b ++ m) (choices ps)
  end.

(** Successive collisions: each pair consists of different parts of the same whole number of blocks
    of [n] bytes, and both lead from the state reached by the pairs before to one and the same
    state. *)
Inductive chain {A} (f : A -> list N -> res A) (n : nat) : A -> list (list N * list N) -> Prop :=
| chain_nil h : chain f n h []
| chain_cons h s q a b ps :
    a <> b -> length a = (q * n)%nat -> length b = (q * n)%nat -> bytes a -> bytes b ->
    run f (groups n a) h = Ok s -> run f (groups n b) h = Ok s -> chain f n s ps ->
    chain f n h ((a, b) :: ps).

(** The length of each of the messages. *)
Definition chain_length (ps : list (list N * list N)) : nat := length (concat (map fst ps)).

(** All choices followed by [x] have the same digest, and they are 2^k different messages. *)
Definition multicollision (hash : list N -> res (list N)) (ps : list (list N * list N)) (x : list N) : Prop :=
  (exists d, forall m, In m (choices ps) -> hash (m ++ x) = Ok d) /\
  NoDup (choices ps) /\ length (choices ps) = (2 ^ length ps)%nat.

(** MD4: the published pair, and two pairs found by the same method from the states that follow. *)
Definition md4_chain : list (list N * list N) :=
  [md4_pair;
   (words4 [
     0x0270bc54; 0x52d9fc14; 0xe2abbde5; 0xd2a1c0d4; 0x35152dad; 0xcfe02e46; 0xec339723; 0xcd7b78f2;
     0xfb7cb036; 0x389899db; 0x747ca1fc; 0x609a1895; 0xefcb6f45; 0xec39bccc; 0x25daa79b; 0xc88c5557],
    words4 [
     0x0270bc54; 0x52d9fc94; 0xe2abbd55; 0xd2a1c0d4; 0x35152dad; 0xcfe02e46; 0xec339723; 0xcd7b78f2;
     0xfb7cb036; 0x389899db; 0x747ca1fc; 0x609a1895; 0xefcb6e45; 0xec39bccc; 0x25daa79b; 0xc88c5557]);
   (words4 [
     0x28c44b63; 0x12ff3ff2; 0x6680e554; 0xf1c6e5a3; 0x7ab4785a; 0xc270e250; 0xde27214f; 0x0aee91b8;
     0x7b7540f8; 0x311ec110; 0x382d7f14; 0xe4f29844; 0x934fee50; 0x9ae7c093; 0x0ee2d03a; 0x593f4fba],
    words4 [
     0x28c44b63; 0x12ff3f72; 0x6680e5c4; 0xf1c6e5a3; 0x7ab4785a; 0xc270e250; 0xde27214f; 0x0aee91b8;
     0x7b7540f8; 0x311ec110; 0x382d7f14; 0xe4f29844; 0x934fed50; 0x9ae7c093; 0x0ee2d03a; 0x593f4fba])].
