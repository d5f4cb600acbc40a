(** * FIPS 197 (Advanced Encryption Standard), written from the standard *)
From Coq Require Import List NArith Arith Bool.
Import ListNotations.
Open Scope N_scope.

(** ** Section 4: the field GF(2^8)

    A byte is the polynomial over GF(2) whose coefficients are its bits. *)

(** Product of polynomials over GF(2): the sum (xor) of [a * x^i] over the bits
    [i] of [b] (bytes, so [i < 8]). *)
Definition poly_mul (a b : N) : N :=
  fold_left (fun acc i => if N.testbit b i then N.lxor acc (a * 2 ^ i) else acc)
            [0; 1; 2; 3; 4; 5; 6; 7] 0.

(** Remainder modulo x^8 + x^4 + x^3 + x + 1 of a polynomial of degree < 15. *)
Definition poly_mod (a : N) : N :=
  fold_left (fun acc i => if N.testbit acc i then N.lxor acc (0x11b * 2 ^ (i - 8)) else acc)
            [14; 13; 12; 11; 10; 9; 8] a.

(** 4.2: multiplication in GF(2^8). *)
Definition gmul (a b : N) : N := poly_mod (poly_mul a b).

Definition all_bytes : list N := map N.of_nat (seq 0 256).

(** The multiplicative inverse; 0 is mapped to itself (5.1.1). *)
Definition ginv (a : N) : N :=
  match find (fun b => gmul a b =? 1) all_bytes with
  | Some b => b
  | None => 0
  end.

(** ** Section 5.1.1: SubBytes *)

(** Equation (5.1), bit by bit. *)
Definition affine (b : N) : N :=
  let bit i := N.testbit b (i mod 8) in
  let bit' i := xorb (xorb (xorb (xorb (xorb (bit i) (bit (i + 4))) (bit (i + 5)))
                     (bit (i + 6))) (bit (i + 7))) (N.testbit 0x63 i) in
  fold_left (fun acc i => if bit' i then acc + 2 ^ i else acc) [0; 1; 2; 3; 4; 5; 6; 7] 0.

Definition sub_byte (b : N) : N := affine (ginv b).

(** 5.3.2: the inverse of the S-box. *)
Definition inv_sub_byte (b : N) : N :=
  match find (fun a => sub_byte a =? b) all_bytes with
  | Some a => a
  | None => 0
  end.

(** ** The state: byte [r + 4c] of the list is in row [r], column [c] (3.4) *)

Definition at_ (s : list N) (r c : nat) : N := nth (r + 4 * c) s 0.
Definition make_state (f : nat -> nat -> N) : list N :=
  map (fun i => f (i mod 4)%nat (i / 4)%nat) (seq 0 16).

Definition sub_bytes (s : list N) : list N := map sub_byte s.
Definition inv_sub_bytes (s : list N) : list N := map inv_sub_byte s.

(** 5.1.2 and 5.3.1. *)
Definition shift_rows (s : list N) : list N :=
  make_state (fun r c => at_ s r ((c + r) mod 4)).
Definition inv_shift_rows (s : list N) : list N :=
  make_state (fun r c => at_ s r ((c + 4 - r) mod 4)).

(** 5.1.3 and 5.3.3: every column is multiplied by a circulant matrix with first
    row [m0 m1 m2 m3]. *)
Definition mix_with (m0 m1 m2 m3 : N) (s : list N) : list N :=
  make_state (fun r c =>
    N.lxor (N.lxor (N.lxor
      (gmul m0 (at_ s r c))
      (gmul m1 (at_ s ((r + 1) mod 4) c)))
      (gmul m2 (at_ s ((r + 2) mod 4) c)))
      (gmul m3 (at_ s ((r + 3) mod 4) c))).
Definition mix_columns := mix_with 2 3 1 1.
Definition inv_mix_columns := mix_with 14 11 13 9.

(** 5.1.4. *)
Definition add_round_key (k s : list N) : list N :=
  map (fun i => N.lxor (nth i s 0) (nth i k 0)) (seq 0 16).

(** ** Section 5.2: key expansion; words are lists of four bytes *)

Definition xor_word (a b : list N) : list N :=
  map (fun i => N.lxor (nth i a 0) (nth i b 0)) (seq 0 4).
Definition rot_word (w : list N) : list N :=
  map (fun i => nth ((i + 1) mod 4)%nat w 0) (seq 0 4).
Definition sub_word (w : list N) : list N := map sub_byte w.

(** [x^n] in the field. *)
Fixpoint xpow (n : nat) : N :=
  match n with O => 1 | S n' => gmul 2 (xpow n') end.
(** [Rcon[i] = [x^(i-1), 0, 0, 0]]. *)
Definition rcon (i : nat) : list N := [xpow (i - 1); 0; 0; 0].

(** The first [n] words of the key schedule. *)
Fixpoint key_words (nk : nat) (key : list N) (n : nat) : list (list N) :=
  match n with
  | O => []
  | S i =>
      let w := key_words nk key i in
      let word_i :=
        if (i <? nk)%nat then firstn 4 (skipn (4 * i) key)
        else
          let temp := nth (i - 1) w [] in
          let temp :=
            if (i mod nk =? 0)%nat then xor_word (sub_word (rot_word temp)) (rcon (i / nk))
            else if ((6 <? nk)%nat && (i mod nk =? 4)%nat)%bool then sub_word temp
            else temp in
          xor_word (nth (i - nk) w []) temp
      in w ++ [word_i]
  end.

(** The round key of round [r]: words [4r .. 4r+3]. *)
Definition round_key (w : list (list N)) (r : nat) : list N :=
  concat (firstn 4 (skipn (4 * r) w)).

(** ** Sections 5.1 and 5.3: Cipher and InvCipher *)

Definition fips_cipher (nr : nat) (w : list (list N)) (input : list N) : list N :=
  let s := add_round_key (round_key w 0) input in
  let s := fold_left (fun s r =>
             add_round_key (round_key w r) (mix_columns (shift_rows (sub_bytes s))))
             (seq 1 (nr - 1)) s in
  add_round_key (round_key w nr) (shift_rows (sub_bytes s)).

Definition fips_inv_cipher (nr : nat) (w : list (list N)) (input : list N) : list N :=
  let s := add_round_key (round_key w nr) input in
  let s := fold_left (fun s r =>
             inv_mix_columns (add_round_key (round_key w r) (inv_sub_bytes (inv_shift_rows s))))
             (rev (seq 1 (nr - 1))) s in
  add_round_key (round_key w 0) (inv_sub_bytes (inv_shift_rows s)).

(** The three standard instances (figure 4): [nr = nk + 6]. *)
Definition aes_spec_encrypt (nk : nat) (key block : list N) : list N :=
  let nr := (nk + 6)%nat in fips_cipher nr (key_words nk key (4 * (nr + 1))) block.
Definition aes_spec_decrypt (nk : nat) (key block : list N) : list N :=
  let nr := (nk + 6)%nat in fips_inv_cipher nr (key_words nk key (4 * (nr + 1))) block.

(** FIPS 197 appendix B and C as a check of this transcription. *)
Example fips_c1 : aes_spec_encrypt 4 (map N.of_nat (seq 0 16))
  [0x00; 0x11; 0x22; 0x33; 0x44; 0x55; 0x66; 0x77; 0x88; 0x99; 0xaa; 0xbb; 0xcc; 0xdd; 0xee; 0xff]
  = [0x69; 0xc4; 0xe0; 0xd8; 0x6a; 0x7b; 0x04; 0x30; 0xd8; 0xcd; 0xb7; 0x80; 0x70; 0xb4; 0xc5; 0x5a].
Proof. vm_compute. reflexivity. Qed.
Example fips_c2 : aes_spec_encrypt 6 (map N.of_nat (seq 0 24))
  [0x00; 0x11; 0x22; 0x33; 0x44; 0x55; 0x66; 0x77; 0x88; 0x99; 0xaa; 0xbb; 0xcc; 0xdd; 0xee; 0xff]
  = [0xdd; 0xa9; 0x7c; 0xa4; 0x86; 0x4c; 0xdf; 0xe0; 0x6e; 0xaf; 0x70; 0xa0; 0xec; 0x0d; 0x71; 0x91].
Proof. vm_compute. reflexivity. Qed.
Example fips_c3 : aes_spec_encrypt 8 (map N.of_nat (seq 0 32))
  [0x00; 0x11; 0x22; 0x33; 0x44; 0x55; 0x66; 0x77; 0x88; 0x99; 0xaa; 0xbb; 0xcc; 0xdd; 0xee; 0xff]
  = [0x8e; 0xa2; 0xb7; 0xca; 0x51; 0x67; 0x45; 0xbf; 0xea; 0xfc; 0x49; 0x90; 0x4b; 0x49; 0x60; 0x89].
Proof. vm_compute. reflexivity. Qed.
