(** * MD2 (RFC 1319), MD4 (RFC 1320) and MD5 (RFC 1321) *)
From Coq Require Import List NArith Arith.
From Verif Require Import SpecEndian SpecWord.
Import ListNotations.
Open Scope N_scope.

(** ** MD2 *)

(** "a random permutation of 0..255 constructed from the digits of pi": the
    permutation is the result of a shuffle that takes its random numbers from
    the decimal digits of pi. *)

(** The first 722 decimal digits of pi, as one number (PropConst.v proves that
    it is [floor (pi * 10^721)]). *)
Definition pi_722 : N := 31415926535897932384626433832795028841971693993751058209749445923078164062862089986280348253421170679821480865132823066470938446095505822317253594081284811174502841027019385211055596446229489549303819644288109756659334461284756482337867831652712019091456485669234603486104543266482133936072602491412737245870066063155881748815209209628292540917153643678925903600113305305488204665213841469519415116094330572703657595919530921861173819326117931051185480744623799627495673518857527248912279381830119491298336733624406566430860213949463952247371907021798609437027705392171762931767523846748184676694051320005681271452635608277857713427577896091736371787214684409012249534301465495853710507922796892589235420199561121290219608.

Fixpoint decimal_digits (fuel : nat) (n : N) (acc : list N) : list N :=
  match fuel with
  | O => acc
  | S f => decimal_digits f (n / 10) (n mod 10 :: acc)
  end.

(** A number below [n] from the stream of digits: one digit for [n <= 10], two
    for [n <= 100], otherwise three; values that would make the result uneven
    are rejected. *)
Fixpoint digit_random (fuel : nat) (n : N) (ds : list N) : N * list N :=
  match fuel with
  | O => (0, ds)
  | S f =>
      let k := if n <=? 10 then 1%nat else if n <=? 100 then 2%nat else 3%nat in
      let x := fold_left (fun acc d => acc * 10 + d) (firstn k ds) 0 in
      let ds := skipn k ds in
      if x <? n * (10 ^ N.of_nat k / n) then (x mod n, ds) else digit_random f n ds
  end.

(** The shuffle of 0..255. *)
Definition md2_table : list N :=
  fst (fold_left (fun '(s, ds) i =>
         let (j, ds) := digit_random 1000 (N.of_nat i + 1) ds in
         let j := N.to_nat j in
         (put (put s i (nth j s 0)) j (nth i s 0), ds))
       (seq 1 255) (map N.of_nat (seq 0 256), decimal_digits 722 pi_722 [])).

Definition md2_s (b : N) : N := nth (N.to_nat b) md2_table 0.

(** 3.1: padding with [i] bytes of value [i], [1 <= i <= 16]. *)
Definition md2_pad (m : list N) : list N :=
  let i := (16 - length m mod 16)%nat in m ++ repeat (N.of_nat i) i.

(** 3.2: one block into the checksum (with the correction of the errata: the
    table entry is xored into C[j]); [l] is the last byte computed. *)
Fixpoint md2_checksum_block (c : list N) (block : list N) (l : N) : list N * N :=
  match c, block with
  | cj :: c', b :: block' =>
      let cj := N.lxor cj (md2_s (N.lxor b l)) in
      let (c'', l) := md2_checksum_block c' block' cj in (cj :: c'', l)
  | _, _ => ([], l)
  end.
Definition md2_checksum_step (cl : list N * N) (block : list N) : list N * N :=
  md2_checksum_block (fst cl) block (snd cl).
Definition md2_checksum (m : list N) : list N :=
  fst (fold_left md2_checksum_step (groups 16 m) (repeat 0 16, 0)).

(** 3.4: one pass over the 48 bytes, and one block. *)
Fixpoint md2_round (x : list N) (t : N) : list N * N :=
  match x with
  | [] => ([], t)
  | v :: x' => let v := N.lxor v (md2_s t) in
               let (x'', t) := md2_round x' v in (v :: x'', t)
  end.
Definition md2_pass_j (st : list N * N) (j : nat) : list N * N :=
  let '(x, t) := st in let (x, t) := md2_round x t in (x, (t + N.of_nat j) mod 256).
Definition md2_block (x block : list N) : list N :=
  let old := firstn 16 x in
  let x := old ++ block ++ map (fun j => N.lxor (nth j block 0) (nth j old 0)) (seq 0 16) in
  fst (fold_left md2_pass_j (seq 0 18) (x, 0)).

Definition md2_spec (m : list N) : list N :=
  let p := md2_pad m in
  firstn 16 (fold_left md2_block (groups 16 (p ++ md2_checksum p)) (repeat 0 48)).

(** RFC 1319, appendix A.5: "", "abc" and the 62 letters and digits. *)
Definition ascii_range (a n : nat) : list N := map N.of_nat (seq a n).
Definition alphanumeric : list N := ascii_range 65 26 ++ ascii_range 97 26 ++ ascii_range 48 10.
Example rfc1319_vectors :
  md2_spec [] = be_bytes 16 0x8350e5a3e24c153df2275c9f80692773 /\
  md2_spec [97; 98; 99] = be_bytes 16 0xda853b0d3f88d99b30283a69e6ded6bb /\
  md2_spec alphanumeric = be_bytes 16 0xda33def2a42df13975352846c30338cd.
Proof. vm_compute. repeat split. Qed.

(** ** Common to MD4 and MD5 *)

(** 3.1, 3.2: padding to 56 modulo 64 and the length in bits modulo [2^64], low
    order byte first. *)
Definition md_pad (m : list N) : list N :=
  let zeros := ((119 - length m mod 64) mod 64)%nat in
  m ++ 0x80 :: repeat 0 zeros ++ le_bytes 8 (8 * N.of_nat (length m) mod 2 ^ 64).

Definition state4 : Type := (N * N * N * N)%type.

(** 3.3. *)
Definition md_init : state4 :=
  (le_num [0x01; 0x23; 0x45; 0x67], le_num [0x89; 0xab; 0xcd; 0xef],
   le_num [0xfe; 0xdc; 0xba; 0x98], le_num [0x76; 0x54; 0x32; 0x10]).

(** An operation [abcd k s t] with auxiliary function [f]; the roles of the four
    words rotate after every operation. *)
Definition md_op : Type := ((N -> N -> N -> N) * nat * N * N)%type.

(** 3.4: one block of 16 words, then the addition of the old state. *)
Definition md_compress (step : list N -> state4 -> md_op -> state4) (ops : list md_op)
    (st : state4) (block : list N) : state4 :=
  let '(a0, b0, c0, d0) := st in
  let '(a, b, c, d) := fold_left (step (map le_num (groups 4 block))) ops st in
  (plus_w 32 a0 a, plus_w 32 b0 b, plus_w 32 c0 c, plus_w 32 d0 d).

Definition md_output (st : state4) : list N :=
  let '(a, b, c, d) := st in concat (map (le_bytes 4) [a; b; c; d]).

Definition md_spec step ops (m : list N) : list N :=
  md_output (fold_left (md_compress step ops) (groups 64 (md_pad m)) md_init).

(** ** MD4 *)

Definition F4 (x y z : N) : N := N.lor (N.land x y) (N.land (not_w 32 x) z).
Definition G4 (x y z : N) : N := N.lor (N.lor (N.land x y) (N.land x z)) (N.land y z).
Definition H4 (x y z : N) : N := N.lxor (N.lxor x y) z.

(** [a = (a + f(b,c,d) + X[k] + t) <<< s]. *)
Definition md4_step (x : list N) (st : state4) (op : md_op) : state4 :=
  let '(a, b, c, d) := st in
  let '(f, k, s, t) := op in
  (d, rol 32 ((a + f b c d + nth k x 0 + t) mod 2 ^ 32) s, b, c).

Definition md4_ops : list md_op :=
  map (fun i => (F4, i, nth (i mod 4) [3; 7; 11; 19] 0, 0)) (seq 0 16) ++
  map (fun i => (G4, (4 * (i mod 4) + i / 4)%nat, nth (i mod 4) [3; 5; 9; 13] 0, 0x5a827999))
      (seq 0 16) ++
  map (fun i => (H4, nth i [0; 8; 4; 12; 2; 10; 6; 14; 1; 9; 5; 13; 3; 11; 7; 15]%nat O,
                 nth (i mod 4) [3; 9; 11; 15] 0, 0x6ed9eba1)) (seq 0 16).

Definition md4_spec : list N -> list N := md_spec md4_step md4_ops.

(** RFC 1320, appendix A.5. *)
Example rfc1320_vectors :
  md4_spec [] = be_bytes 16 0x31d6cfe0d16ae931b73c59d7e0c089c0 /\
  md4_spec [97; 98; 99] = be_bytes 16 0xa448017aaf21d8525fc10ae87aa6729d /\
  md4_spec alphanumeric = be_bytes 16 0x043f8582f241db351ce627e153e7f0e4.
Proof. vm_compute. repeat split. Qed.

(** ** MD5 *)

Definition F5 (x y z : N) : N := N.lor (N.land x y) (N.land (not_w 32 x) z).
Definition G5 (x y z : N) : N := N.lor (N.land x z) (N.land y (not_w 32 z)).
Definition H5 (x y z : N) : N := N.lxor (N.lxor x y) z.
Definition I5 (x y z : N) : N := N.lxor y (N.lor x (not_w 32 z)).

(** [T[i]], the integer part of [2^32 * abs (sin i)], i = 1, ..., 64 (PropConst.v
    proves that these are the integer parts). *)
Definition md5_t : list N := [
  0xd76aa478; 0xe8c7b756; 0x242070db; 0xc1bdceee; 0xf57c0faf; 0x4787c62a; 0xa8304613; 0xfd469501;
  0x698098d8; 0x8b44f7af; 0xffff5bb1; 0x895cd7be; 0x6b901122; 0xfd987193; 0xa679438e; 0x49b40821;
  0xf61e2562; 0xc040b340; 0x265e5a51; 0xe9b6c7aa; 0xd62f105d; 0x02441453; 0xd8a1e681; 0xe7d3fbc8;
  0x21e1cde6; 0xc33707d6; 0xf4d50d87; 0x455a14ed; 0xa9e3e905; 0xfcefa3f8; 0x676f02d9; 0x8d2a4c8a;
  0xfffa3942; 0x8771f681; 0x6d9d6122; 0xfde5380c; 0xa4beea44; 0x4bdecfa9; 0xf6bb4b60; 0xbebfbc70;
  0x289b7ec6; 0xeaa127fa; 0xd4ef3085; 0x04881d05; 0xd9d4d039; 0xe6db99e5; 0x1fa27cf8; 0xc4ac5665;
  0xf4292244; 0x432aff97; 0xab9423a7; 0xfc93a039; 0x655b59c3; 0x8f0ccc92; 0xffeff47d; 0x85845dd1;
  0x6fa87e4f; 0xfe2ce6e0; 0xa3014314; 0x4e0811a1; 0xf7537e82; 0xbd3af235; 0x2ad7d2bb; 0xeb86d391 ].

(** [a = b + ((a + f(b,c,d) + X[k] + T[i]) <<< s)]. *)
Definition md5_step (x : list N) (st : state4) (op : md_op) : state4 :=
  let '(a, b, c, d) := st in
  let '(f, k, s, t) := op in
  (d, plus_w 32 b (rol 32 ((a + f b c d + nth k x 0 + t) mod 2 ^ 32) s), b, c).

Definition md5_ops : list md_op :=
  map (fun i => (F5, i, nth (i mod 4) [7; 12; 17; 22] 0, nth i md5_t 0)) (seq 0 16) ++
  map (fun i => (G5, ((1 + 5 * i) mod 16)%nat, nth (i mod 4) [5; 9; 14; 20] 0, nth (16 + i) md5_t 0))
      (seq 0 16) ++
  map (fun i => (H5, ((5 + 3 * i) mod 16)%nat, nth (i mod 4) [4; 11; 16; 23] 0, nth (32 + i) md5_t 0))
      (seq 0 16) ++
  map (fun i => (I5, ((7 * i) mod 16)%nat, nth (i mod 4) [6; 10; 15; 21] 0, nth (48 + i) md5_t 0))
      (seq 0 16).

Definition md5_spec : list N -> list N := md_spec md5_step md5_ops.

(** RFC 1321, appendix A.5. *)
Example rfc1321_vectors :
  md5_spec [] = be_bytes 16 0xd41d8cd98f00b204e9800998ecf8427e /\
  md5_spec [97; 98; 99] = be_bytes 16 0x900150983cd24fb0d6963f7d28e17f72 /\
  md5_spec alphanumeric = be_bytes 16 0xd174ab98d277d9f5a5611c2c9f419d9f.
Proof. vm_compute. repeat split. Qed.
