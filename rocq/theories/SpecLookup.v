(** * What the table lookups of AES disclose *)
From Verif Require Import Base SpecAes.
Local Open Scope N_scope.

(** The state of FIPS 197 before SubBytes of round [r + 1]. *)
Fixpoint enc_state (w : list (list N)) (b : list N) (r : nat) : list N :=
  match r with
  | O => add_round_key (round_key w 0) b
  | S r' => add_round_key (round_key w r) (mix_columns (shift_rows (sub_bytes (enc_state w b r'))))
  end.

(** The state before the [r + 1]st InvSubBytes of decryption. *)
Fixpoint dec_state (nr : nat) (w : list (list N)) (b : list N) (r : nat) : list N :=
  match r with
  | O => inv_shift_rows (add_round_key (round_key w nr) b)
  | S r' => inv_shift_rows (inv_mix_columns (add_round_key (round_key w (nr - r)) (inv_sub_bytes (dec_state nr w b r'))))
  end.

(** The first two round keys follow from the block and the first 32 lookups, and they begin with
    the key. *)
Definition key_of_lookups (nk : nat) (block t : list N) : list N :=
  let s0 := firstn 16 t in
  let s1 := firstn 16 (skipn 16 t) in
  firstn (4 * nk) (add_round_key block s0 ++ add_round_key (mix_columns (shift_rows (sub_bytes s0))) s1).
