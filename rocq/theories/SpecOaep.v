(** * MGF1 and EME-OAEP (RFC 8017) *)
From Coq Require Import List NArith Arith.
From Verif Require Import Base SpecEndian.
Import ListNotations.
Open Scope N_scope.

(** [hasher] computes [H], with [hn] bytes of output, for inputs shorter than [limit]. *)
Definition implements (hasher : list N -> res (list N)) (H : list N -> list N) (hn : nat)
    (limit : N) : Prop :=
  forall x, bytes x -> N.of_nat (length x) < limit ->
    hasher x = Ok (H x) /\ length (H x) = hn /\ bytes (H x).

(** RFC 8017, B.2.1. [H] is the hash function, [hn] the length of its output. *)
Definition mgf1_spec (H : list N -> list N) (hn : nat) (seed : list N) (len : nat) : list N :=
  firstn len (concat (map (fun i => H (seed ++ be_bytes 4 (N.of_nat i)))
                          (seq 0 ((len + hn - 1) / hn)))).

Definition xor_bytes (a b : list N) : list N := map (fun p => N.lxor (fst p) (snd p)) (combine a b).

(** RFC 8017, 7.1.1 step 2: the data block and the encoded message for a [seed]
    of [hn] bytes and a modulus of [k] bytes. *)
Definition data_block (H : list N -> list N) (hn : nat) (label m : list N) (k : nat) : list N :=
  H label ++ repeat 0 (k - length m - 2 * hn - 2)%nat ++ [1] ++ m.

Definition oaep_spec (H : list N -> list N) (hn : nat) (seed label m : list N) (k : nat) : list N :=
  let masked_db := xor_bytes (data_block H hn label m k) (mgf1_spec H hn seed (k - hn - 1)) in
  let masked_seed := xor_bytes seed (mgf1_spec H hn masked_db hn) in
  [0] ++ masked_seed ++ masked_db.

(** The messages that fit: RFC 8017, 7.1.1 step 1b. *)
Definition oaep_fits (hn : nat) (m : list N) (k : nat) : Prop := (length m + 2 * hn + 2 <= k)%nat.

(** [em] is an encoding of [m] under [label] with some seed. *)
Definition oaep_encodes (H : list N -> list N) (hn : nat) (label m em : list N) : Prop :=
  exists seed, length seed = hn /\ Forall (fun b => b < 256) seed /\
    oaep_fits hn m (length em) /\ em = oaep_spec H hn seed label m (length em).

(** RFC 8017, 7.1.2 step 3: the data block that an encoded message hides. *)
Definition oaep_unmask (H : list N -> list N) (hn : nat) (em : list N) : list N :=
  let masked_seed := firstn hn (skipn 1 em) in
  let masked_db := skipn (1 + hn) em in
  let seed := xor_bytes masked_seed (mgf1_spec H hn masked_db hn) in
  xor_bytes masked_db (mgf1_spec H hn seed (length masked_db)).

(** The lengths the hash function and the counter of MGF1 can take. *)
Definition oaep_sizes (hn : nat) (limit : N) (label : list N) (k : nat) : Prop :=
  N.of_nat (length label) < limit /\ N.of_nat k + 4 < limit /\
  N.of_nat k <= 2 ^ 32 * N.of_nat hn + 1.
