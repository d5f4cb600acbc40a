(** * Key spaces: which keys give the same cipher *)
From Coq Require Import List NArith Arith.
From Verif Require Import SpecEndian SpecRc.
Import ListNotations.
Local Open Scope N_scope.

(** RC2 with [t1] effective bits: the schedule for the number [x < 2^t1]. Its last
    [t8 - 1] bytes are the end of the buffer, what is left of it is the byte that
    the mask cuts. *)
Definition rc2_effective (t1 x : N) : list N :=
  let t8 := N.to_nat ((t1 + 7) / 8) in
  map le_num (groups 2 (rc2_extend_back t8 (128 - t8)
    (pi_at (x / 256 ^ N.of_nat (t8 - 1)) :: le_bytes (t8 - 1) x))).

(** The key bytes that RC4 key scheduling reads. *)
Definition rc4_key_bytes (key : list N) : list N := map (fun i => nth (i mod length key) key 0) (seq 0 256).
