(** * Other ways to write AES

    The equivalent inverse cipher of FIPS 197 (section 5.3.5, figure 15) and the tables of the Rijndael
    proposal (Daemen and Rijmen, section 5.2.1). *)
From Coq Require Import List NArith Arith.
Import ListNotations.
From Verif Require Import SpecAes.
Open Scope N_scope.

(** The round keys of decryption: those of encryption, all but the first and the last passed through
    InvMixColumns. *)
Definition dec_round_key (nr : nat) (w : list (list N)) (r : nat) : list N :=
  if ((r =? 0) || (r =? nr))%nat%bool then round_key w r else inv_mix_columns (round_key w r).

(** The same order of operations as in encryption. *)
Definition eq_inv_cipher (nr : nat) (w : list (list N)) (input : list N) : list N :=
  let s := add_round_key (dec_round_key nr w nr) input in
  let s := fold_left (fun s r =>
             add_round_key (dec_round_key nr w r) (inv_mix_columns (inv_shift_rows (inv_sub_bytes s))))
             (rev (seq 1 (nr - 1))) s in
  add_round_key (dec_round_key nr w 0) (inv_shift_rows (inv_sub_bytes s)).

(** Four tables of 256 words: SubBytes and MixColumns of a byte in row [r]. *)
Definition table (r : nat) (a : N) : list N :=
  map (fun i => gmul (nth ((r + 4 - i) mod 4) [2; 3; 1; 1] 0) (sub_byte a)) (seq 0 4).

(** Column [c] after a round with the round key [k]: four lookups and four xors. *)
Definition table_column (k s : list N) (c : nat) : list N :=
  xor_word (xor_word (xor_word (xor_word
    (table 0 (at_ s 0 c))
    (table 1 (at_ s 1 ((c + 1) mod 4))))
    (table 2 (at_ s 2 ((c + 2) mod 4))))
    (table 3 (at_ s 3 ((c + 3) mod 4))))
    (firstn 4 (skipn (4 * c) k)).
Definition table_round (k s : list N) : list N := concat (map (table_column k s) (seq 0 4)).

Definition table_cipher (nr : nat) (w : list (list N)) (input : list N) : list N :=
  let s := add_round_key (round_key w 0) input in
  let s := fold_left (fun s r => table_round (round_key w r) s) (seq 1 (nr - 1)) s in
  add_round_key (round_key w nr) (shift_rows (sub_bytes s)).
