(** * What several ciphertexts of one message say together *)
From Coq Require Import List NArith.
From Verif Require Import Base ModelRsa SpecBig.
Local Open Scope N_scope.

(** The product of some moduli. *)
Definition product (ns : list N) : N := fold_right N.mul 1 ns.

(** No two of them have a common factor. *)
Definition pairwise_coprime (ns : list N) : Prop := ForallOrdPairs (fun a b => N.gcd a b = 1) ns.

(** [x] has the given residues: the problem of the Chinese remainder theorem. *)
Definition solves (x : N) (ns cs : list N) : Prop := Forall2 (fun n c => x mod n = c) ns cs.

(** The moduli of some keys. *)
Definition moduli (keys : list rsa_encryption) : list N := map (fun k => num (rsa_modulo k)) keys.
