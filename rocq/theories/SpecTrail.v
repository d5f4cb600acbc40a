(** * Differences of two AES encryptions under one key *)
From Coq Require Import List NArith Arith.
From Verif Require Import SpecAes.
Import ListNotations.
Local Open Scope N_scope.

(** The input of SubBytes in round [r] (from 1), in [fips_cipher]. *)
Definition sbox_input (w : list (list N)) (x : list N) (r : nat) : list N :=
  fold_left (fun s r => add_round_key (round_key w r) (mix_columns (shift_rows (sub_bytes s))))
    (seq 1 (r - 1)) (add_round_key (round_key w 0) x).

(** The number of bytes in which two states differ: S-boxes with different inputs. *)
Definition active (s t : list N) : nat :=
  length (filter (fun i => negb (nth i s 0 =? nth i t 0)) (seq 0 16)).

(** Bytes of a column that are not zero. *)
Definition weight (l : list N) : nat := length (filter (fun b => negb (b =? 0)) l).

(** One column through MixColumns. *)
Definition mix_column (a b c d : N) : list N := firstn 4 (mix_columns [a; b; c; d; 0; 0; 0; 0; 0; 0; 0; 0; 0; 0; 0; 0]).
