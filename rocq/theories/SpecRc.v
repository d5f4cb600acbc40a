(** * RC2 (RFC 2268), RC4 and RC5 (Rivest, "The RC5 encryption algorithm") *)
From Coq Require Import List NArith Arith.
From Verif Require Import SpecEndian SpecWord.
Import ListNotations.
Open Scope N_scope.

(** ** RC2 *)

(** RFC 2268, section 2, the table PITABLE. *)
Definition pi_table : list N := [
  0xd9; 0x78; 0xf9; 0xc4; 0x19; 0xdd; 0xb5; 0xed; 0x28; 0xe9; 0xfd; 0x79; 0x4a; 0xa0; 0xd8; 0x9d;
  0xc6; 0x7e; 0x37; 0x83; 0x2b; 0x76; 0x53; 0x8e; 0x62; 0x4c; 0x64; 0x88; 0x44; 0x8b; 0xfb; 0xa2;
  0x17; 0x9a; 0x59; 0xf5; 0x87; 0xb3; 0x4f; 0x13; 0x61; 0x45; 0x6d; 0x8d; 0x09; 0x81; 0x7d; 0x32;
  0xbd; 0x8f; 0x40; 0xeb; 0x86; 0xb7; 0x7b; 0x0b; 0xf0; 0x95; 0x21; 0x22; 0x5c; 0x6b; 0x4e; 0x82;
  0x54; 0xd6; 0x65; 0x93; 0xce; 0x60; 0xb2; 0x1c; 0x73; 0x56; 0xc0; 0x14; 0xa7; 0x8c; 0xf1; 0xdc;
  0x12; 0x75; 0xca; 0x1f; 0x3b; 0xbe; 0xe4; 0xd1; 0x42; 0x3d; 0xd4; 0x30; 0xa3; 0x3c; 0xb6; 0x26;
  0x6f; 0xbf; 0x0e; 0xda; 0x46; 0x69; 0x07; 0x57; 0x27; 0xf2; 0x1d; 0x9b; 0xbc; 0x94; 0x43; 0x03;
  0xf8; 0x11; 0xc7; 0xf6; 0x90; 0xef; 0x3e; 0xe7; 0x06; 0xc3; 0xd5; 0x2f; 0xc8; 0x66; 0x1e; 0xd7;
  0x08; 0xe8; 0xea; 0xde; 0x80; 0x52; 0xee; 0xf7; 0x84; 0xaa; 0x72; 0xac; 0x35; 0x4d; 0x6a; 0x2a;
  0x96; 0x1a; 0xd2; 0x71; 0x5a; 0x15; 0x49; 0x74; 0x4b; 0x9f; 0xd0; 0x5e; 0x04; 0x18; 0xa4; 0xec;
  0xc2; 0xe0; 0x41; 0x6e; 0x0f; 0x51; 0xcb; 0xcc; 0x24; 0x91; 0xaf; 0x50; 0xa1; 0xf4; 0x70; 0x39;
  0x99; 0x7c; 0x3a; 0x85; 0x23; 0xb8; 0xb4; 0x7a; 0xfc; 0x02; 0x36; 0x5b; 0x25; 0x55; 0x97; 0x31;
  0x2d; 0x5d; 0xfa; 0x98; 0xe3; 0x8a; 0x92; 0xae; 0x05; 0xdf; 0x29; 0x10; 0x67; 0x6c; 0xba; 0xc9;
  0xd3; 0x00; 0xe6; 0xcf; 0xe1; 0x9e; 0xa8; 0x2c; 0x63; 0x16; 0x01; 0x3f; 0x58; 0xe2; 0x89; 0xa9;
  0x0d; 0x38; 0x34; 0x1b; 0xab; 0x33; 0xff; 0xb0; 0xbb; 0x48; 0x0c; 0x5f; 0xb9; 0xb1; 0xcd; 0x2e;
  0xc5; 0xf3; 0xdb; 0x47; 0xe5; 0xa5; 0x9c; 0x77; 0x0a; 0xa6; 0x20; 0x68; 0xfe; 0x7f; 0xc1; 0xad ].

Definition pi_at (b : N) : N := nth (N.to_nat b) pi_table 0.

(** First loop: [for i = T, ..., 127: L[i] = PITABLE[L[i-1] + L[i-T]]], adding
    [n] bytes to the end of the buffer. *)
Fixpoint rc2_extend (t n : nat) (l : list N) : list N :=
  match n with
  | O => l
  | S n' =>
      let i := length l in
      rc2_extend t n' (l ++ [pi_at ((nth (i - 1) l 0 + nth (i - t) l 0) mod 256)])
  end.

(** Second loop: [for i = 127-T8, ..., 0: L[i] = PITABLE[L[i+1] xor L[i+T8]]].
    The argument is the part of the buffer already final, [L[i+1], ..., L[127]]. *)
Fixpoint rc2_extend_back (t8 n : nat) (l : list N) : list N :=
  match n with
  | O => l
  | S n' => rc2_extend_back t8 n' (pi_at (N.lxor (nth 0 l 0) (nth (t8 - 1) l 0)) :: l)
  end.

(** Key buffer: [T = length key], [T8 = ceil (T1 / 8)], [TM = 255 mod 2^(8+T1-8*T8)]. *)
Definition rc2_key_buffer (key : list N) (t1 : N) : list N :=
  let t := length key in
  let t8 := (t1 + 7) / 8 in
  let tm := 255 mod 2 ^ (8 + t1 - 8 * t8) in
  let l := rc2_extend t (128 - t) key in
  let s := (128 - N.to_nat t8)%nat in
  rc2_extend_back (N.to_nat t8) s (pi_at (N.land (nth s l 0) tm) :: skipn (S s) l).

(** [K[i] = L[2i] + 256 * L[2i+1]]. *)
Definition rc2_schedule (key : list N) (t1 : N) : list N :=
  map le_num (groups 2 (rc2_key_buffer key t1)).

(** Section 3.1-3.3. "Mix up R[i]". *)
Definition mixup (k : list N) (s : N) (j : nat) (r r1 r2 r3 : N) : N :=
  rol 16 ((r + nth j k 0 + N.land r1 r2 + N.land (not_w 16 r1) r3) mod 2 ^ 16) s.

(** The state: R[0..3] and the global counter j. *)
Definition rc2_state : Type := (N * N * N * N * nat)%type.

Definition mixing_round (k : list N) (st : rc2_state) : rc2_state :=
  let '(r0, r1, r2, r3, j) := st in
  let r0 := mixup k 1 j r0 r3 r2 r1 in
  let r1 := mixup k 2 (j + 1) r1 r0 r3 r2 in
  let r2 := mixup k 3 (j + 2) r2 r1 r0 r3 in
  let r3 := mixup k 5 (j + 3) r3 r2 r1 r0 in
  (r0, r1, r2, r3, (j + 4)%nat).

(** "Mash R[i]": R[i] = R[i] + K[R[i-1] & 63]. *)
Definition mash (k : list N) (r r1 : N) : N := plus_w 16 r (nth (N.to_nat (N.land r1 63)) k 0).

Definition mashing_round (k : list N) (st : rc2_state) : rc2_state :=
  let '(r0, r1, r2, r3, j) := st in
  let r0 := mash k r0 r3 in
  let r1 := mash k r1 r0 in
  let r2 := mash k r2 r1 in
  let r3 := mash k r3 r2 in
  (r0, r1, r2, r3, j).

(** The encryption operation. *)
Definition rc2_rounds (k : list N) (st : rc2_state) : rc2_state :=
  let mix n := Nat.iter n (mixing_round k) in
  mix 5%nat (mashing_round k (mix 6%nat (mashing_round k (mix 5%nat st)))).

Definition rc2_spec_encrypt (k block : list N) : list N :=
  let w := map le_num (groups 2 block) in
  let '(r0, r1, r2, r3, _) := rc2_rounds k (nth 0 w 0, nth 1 w 0, nth 2 w 0, nth 3 w 0, O) in
  concat (map (le_bytes 2) [r0; r1; r2; r3]).

(** RFC 2268, section 5: the eight test vectors (key, effective bits,
    plaintext, ciphertext), as big-endian numbers. *)
Definition rc2_vector (keylen : nat) (key t1 pt ct : N) : bool :=
  if list_eq_dec N.eq_dec
       (rc2_spec_encrypt (rc2_schedule (be_bytes keylen key) t1) (be_bytes 8 pt)) (be_bytes 8 ct)
  then true else false.
Example rfc2268_vectors :
  rc2_vector 8 0x0000000000000000 63 0x0000000000000000 0xebb773f993278eff = true /\
  rc2_vector 8 0xffffffffffffffff 64 0xffffffffffffffff 0x278b27e42e2f0d49 = true /\
  rc2_vector 8 0x3000000000000000 64 0x1000000000000001 0x30649edf9be7d2c2 = true /\
  rc2_vector 1 0x88 64 0x0000000000000000 0x61a8a244adacccf0 = true /\
  rc2_vector 7 0x88bca90e90875a 64 0x0000000000000000 0x6ccf4308974c267f = true /\
  rc2_vector 16 0x88bca90e90875a7f0f79c384627bafb2 64 0x0000000000000000 0x1a807d272bbe5db1 = true /\
  rc2_vector 16 0x88bca90e90875a7f0f79c384627bafb2 128 0x0000000000000000 0x2269552ab0f85ca6 = true /\
  rc2_vector 33 0x88bca90e90875a7f0f79c384627bafb216f80a6f85920584c42fceb0be255daf1e
    129 0x0000000000000000 0x5b78d3a43dfff1f1 = true.
Proof. vm_compute. repeat split. Qed.

(** ** RC4 *)

(** Exchanging two entries of the table. *)
Definition exchange (s : list N) (i j : nat) : list N :=
  map (fun k => if (k =? i)%nat then nth j s 0 else if (k =? j)%nat then nth i s 0 else nth k s 0)
      (seq 0 (length s)).

(** Key scheduling. *)
Definition rc4_ksa (key : list N) : list N :=
  fst (fold_left (fun '(s, j) i =>
         let j := (j + nth i s 0 + nth (i mod length key) key 0) mod 256 in
         (exchange s i (N.to_nat j), j))
       (seq 0 256) (map N.of_nat (seq 0 256), 0)).

(** One step of the generator: state (S, i, j). *)
Definition rc4_prga (st : list N * N * N) : N * (list N * N * N) :=
  let '(s, i, j) := st in
  let i := (i + 1) mod 256 in
  let j := (j + nth (N.to_nat i) s 0) mod 256 in
  let s := exchange s (N.to_nat i) (N.to_nat j) in
  let k := nth (N.to_nat ((nth (N.to_nat i) s 0 + nth (N.to_nat j) s 0) mod 256)) s 0 in
  (k, (s, i, j)).

(** The first [n] bytes from a state, and the state reached. *)
Fixpoint rc4_run (n : nat) (st : list N * N * N) : list N * (list N * N * N) :=
  match n with
  | O => ([], st)
  | S n' => let (k, st') := rc4_prga st in let (ks, st'') := rc4_run n' st' in (k :: ks, st'')
  end.
Definition rc4_stream (key : list N) (n : nat) : list N := fst (rc4_run n (rc4_ksa key, 0, 0)).

(** RFC 6229, 40-bit key 0102030405, offset 0. *)
Example rfc6229_stream : rc4_stream [1; 2; 3; 4; 5] 16 = be_bytes 16 0xb2396305f03dc027ccc3524a0a1118a8.
Proof. vm_compute. reflexivity. Qed.

(** ** RC5 with 32-bit words *)

Definition rc5_p : N := 0xb7e15163.
Definition rc5_q : N := 0x9e3779b9.

(** The key as [c = max 1 (ceil (b / 4))] little-endian words, padded with zeros. *)
Definition rc5_words (key : list N) : list N :=
  let c := Nat.max 1 ((length key + 3) / 4) in
  map (fun j => le_num (map (fun k => nth (4 * j + k) key 0) (seq 0 4))) (seq 0 c).

(** The initial table of [t] words: S[0] = P, S[i] = S[i-1] + Q. *)
Definition rc5_init (t : nat) : list N :=
  map (fun i => (rc5_p + N.of_nat i * rc5_q) mod 2 ^ 32) (seq 0 t).

(** One mixing step on (S, L, i, j, A, B). *)
Definition rc5_step (st : list N * list N * nat * nat * N * N) :=
  let '(s, l, i, j, a, b) := st in
  let a := rol 32 ((nth i s 0 + a + b) mod 2 ^ 32) 3 in
  let s := put s i a in
  let b := rol 32 ((nth j l 0 + a + b) mod 2 ^ 32) ((a + b) mod 2 ^ 32) in
  let l := put l j b in
  (s, l, ((i + 1) mod length s)%nat, ((j + 1) mod length l)%nat, a, b).

Definition rc5_table (key : list N) (r : nat) : list N :=
  let t := (2 * (r + 1))%nat in
  let l := rc5_words key in
  let '(s, _, _, _, _, _) :=
    Nat.iter (3 * Nat.max t (length l)) rc5_step (rc5_init t, l, O, O, 0, 0) in s.

(** Encryption of (A, B). *)
Definition rc5_round (s : list N) (ab : N * N) (i : nat) : N * N :=
  let (a, b) := ab in
  let a := plus_w 32 (rol 32 (N.lxor a b) b) (nth (2 * i) s 0) in
  let b := plus_w 32 (rol 32 (N.lxor b a) a) (nth (2 * i + 1) s 0) in
  (a, b).
Definition rc5_spec_encrypt (s : list N) (r : nat) (block : list N) : list N :=
  let w := map le_num (groups 4 block) in
  let (a, b) := fold_left (rc5_round s) (seq 1 r)
                  (plus_w 32 (nth 0 w 0) (nth 0 s 0), plus_w 32 (nth 1 w 0) (nth 1 s 0)) in
  le_bytes 4 a ++ le_bytes 4 b.

(** The first two examples of Rivest's paper (RC5-32/12/16), as little-endian
    words: key 0, plaintext 0 gives EEDBA521 6D8F4B15, which is the second
    plaintext, under the key 91 5F 46 ... *)
Example rivest_example_1 :
  rc5_spec_encrypt (rc5_table (repeat 0 16) 12) 12 (repeat 0 8)
    = le_bytes 4 0xeedba521 ++ le_bytes 4 0x6d8f4b15.
Proof. vm_compute. reflexivity. Qed.
Example rivest_example_2 :
  rc5_spec_encrypt
    (rc5_table (be_bytes 16 0x915f4619be41b2516355a50110a9ce91) 12) 12
    (le_bytes 4 0xeedba521 ++ le_bytes 4 0x6d8f4b15)
    = le_bytes 4 0xac13c0f7 ++ le_bytes 4 0x52892b5b.
Proof. vm_compute. reflexivity. Qed.
(** RFC 2040, section 9: no rounds, the one-byte key 00. *)
Example rfc2040_r0 :
  rc5_spec_encrypt (rc5_table [0] 0) 0 (repeat 0 8) = be_bytes 8 0x7a7bba4d79111d1e.
Proof. vm_compute. reflexivity. Qed.
