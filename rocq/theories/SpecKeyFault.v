(** * C130: inverted bits in the stored round keys of AES *)
From Verif Require Import Base SpecAes.
Local Open Scope N_scope.

(** [l] with bit [a] of byte [j] inverted. *)
Definition invert_bit (l : list N) (j : nat) (a : N) : list N :=
  map (fun i => if (i =? j)%nat then N.lxor (nth i l 0) (2 ^ a) else nth i l 0) (seq 0 (length l)).
(** The round keys with bit [a] of byte [j] of round key [r] inverted. *)
Definition invert_key_bit (keys : list (list N)) (r j : nat) (a : N) : list (list N) :=
  map (fun i => if (i =? r)%nat then invert_bit (nth i keys []) j a else nth i keys [])
      (seq 0 (length keys)).

(** The byte of the state that ShiftRows takes to place [i]. *)
Definition source (i : nat) : nat := (i mod 4 + 4 * ((i / 4 + i mod 4) mod 4))%nat.

(** A byte [k] of the last round key fits to the byte [c] of a ciphertext and the byte [c'] that
    comes out when bit [a] of the input of the S-box is inverted. *)
Definition fits (a c c' k : N) : bool :=
  N.lxor (sub_byte (N.lxor (inv_sub_byte (N.lxor c k)) (2 ^ a))) k =? c'.

Definition fitting (a b c c1 c2 : N) : N :=
  match find (fun k => (fits a c c1 k && fits b c c2 k)%bool) all_bytes with Some k => k | None => 0 end.

(** The last round key from a ciphertext [c] and, for each byte [j] of the state, the ciphertexts
    [f j] and [g j] with bit [a j] and bit [b j] inverted. *)
Definition last_key (a b : nat -> N) (c : list N) (f g : nat -> list N) : list N :=
  map (fun i => let j := source i in
                fitting (a j) (b j) (nth i c 0) (nth i (f j) 0) (nth i (g j) 0)) (seq 0 16).

(** AES-128: round key [r - 1] from round key [r], and back to the key. *)
Definition key_before (r : nat) (k : list N) : list N :=
  let w i := firstn 4 (skipn (4 * i) k) in
  let v1 := xor_word (w 1%nat) (w 0%nat) in
  let v2 := xor_word (w 2%nat) (w 1%nat) in
  let v3 := xor_word (w 3%nat) (w 2%nat) in
  xor_word (w 0%nat) (xor_word (sub_word (rot_word v3)) (rcon r)) ++ v1 ++ v2 ++ v3.
Fixpoint first_key (r : nat) (k : list N) : list N :=
  match r with O => k | S r' => first_key r' (key_before r k) end.
