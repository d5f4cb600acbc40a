(** * The Secure Hash Standard, FIPS 180-4 *)
From Coq Require Import String.
From Verif Require Import Base SpecEndian SpecWord SpecText.
Local Open Scope N_scope.
Local Open Scope list_scope.

(** ** 5.1 Padding *)

(** Blocks of [n] bytes, a length field of [l] bytes: [m], one 1 bit, the
    least number of zero bits that makes the total a multiple of the block
    size, the length in bits. *)
Definition sha_pad (n l : nat) (m : list N) : list N :=
  m ++ 0x80 :: repeat 0 ((2 * n - 1 - l - length m mod n) mod n)%nat
    ++ be_bytes l (8 * N.of_nat (length m)).

(** ** Constants: primes and integer roots *)

(** No divisor [d] with [d^2 <= n]. The 80th prime is 409. *)
Definition is_prime (n : N) : bool :=
  (2 <=? n) && forallb (fun d => (n <? d * d) || negb (n mod d =? 0)) (map N.of_nat (seq 2 19)).
Definition first_primes (n : nat) : list N := firstn n (filter is_prime (map N.of_nat (seq 0 410))).

(** The greatest [r < 2^k] with [r^3 <= n]. *)
Definition cube_root (k : nat) (n : N) : N :=
  fold_left (fun r i => let r' := r + 2 ^ N.of_nat i in if r' ^ 3 <=? n then r' else r) (rev (seq 0 k)) 0.

(** The first [b] bits of the fractional parts of the cube and square
    roots ([p < 2^9], so the cube root is below [2^3]). *)
Definition cube_root_bits (b p : N) : N := cube_root (N.to_nat b + 3) (p * 2 ^ (3 * b)) mod 2 ^ b.
Definition square_root_bits (b p : N) : N := N.sqrt (p * 2 ^ (2 * b)) mod 2 ^ b.

(** ** SHA-1 *)

(** 4.1.1, 4.2.1. *)
Definition sha1_f (t : nat) (x y z : N) : N :=
  if (t <? 20)%nat then N.lxor (N.land x y) (N.land (not_w 32 x) z)
  else if (t <? 40)%nat then N.lxor (N.lxor x y) z
  else if (t <? 60)%nat then N.lxor (N.lxor (N.land x y) (N.land x z)) (N.land y z)
  else N.lxor (N.lxor x y) z.
(** floor(2^30 sqrt k) for k = 2, 3, 5, 10. *)
Definition sha1_k (t : nat) : N := N.sqrt (nth (t / 20) [2; 3; 5; 10] 0 * 2 ^ 60).

(** 5.3.1. *)
Definition sha1_init : list N := [0x67452301; 0xefcdab89; 0x98badcfe; 0x10325476; 0xc3d2e1f0].

(** 6.1.2, step 1: the first [16 + n] words of the message schedule. *)
Definition sha1_expand (w : list N) : N :=
  let t := length w in
  rol 32 (N.lxor (N.lxor (N.lxor (nth (t - 3) w 0) (nth (t - 8) w 0)) (nth (t - 14) w 0)) (nth (t - 16) w 0)) 1.
Fixpoint sha1_schedule (n : nat) (block : list N) : list N :=
  match n with
  | O => map be_num (groups 4 block)
  | S n => let w := sha1_schedule n block in w ++ [sha1_expand w]
  end.

(** Steps 2-4. *)
Definition state5 : Type := N * N * N * N * N.
Definition sha1_round (w : list N) (st : state5) (t : nat) : state5 :=
  let '(a, b, c, d, e) := st in
  ((rol 32 a 5 + sha1_f t b c d + e + sha1_k t + nth t w 0) mod 2 ^ 32, a, rol 32 b 30, c, d).
Definition sha1_compress (h : list N) (block : list N) : list N :=
  match h with
  | [h0; h1; h2; h3; h4] =>
      let '(a, b, c, d, e) := fold_left (sha1_round (sha1_schedule 64 block)) (seq 0 80) (h0, h1, h2, h3, h4) in
      [plus_w 32 h0 a; plus_w 32 h1 b; plus_w 32 h2 c; plus_w 32 h3 d; plus_w 32 h4 e]
  | _ => []
  end.
Definition sha1_spec (m : list N) : list N :=
  concat (map (be_bytes 4) (fold_left sha1_compress (groups 64 (sha_pad 64 8 m)) sha1_init)).

(** ** SHA-2 *)

(** Word size in bytes, number of rounds, and the rotation amounts of
    4.1.2 and 4.1.3. *)
Record sha2_kind : Set := {
  s2_word : nat;
  s2_rounds : nat;
  s2_big0 : N * N * N;
  s2_big1 : N * N * N;
  s2_small0 : N * N * N;
  s2_small1 : N * N * N }.
Definition s2_bits (k : sha2_kind) : N := 8 * N.of_nat (s2_word k).

Definition sha256_kind : sha2_kind := {|
  s2_word := 4; s2_rounds := 64;
  s2_big0 := (2, 13, 22); s2_big1 := (6, 11, 25);
  s2_small0 := (7, 18, 3); s2_small1 := (17, 19, 10) |}.
Definition sha512_kind : sha2_kind := {|
  s2_word := 8; s2_rounds := 80;
  s2_big0 := (28, 34, 39); s2_big1 := (14, 18, 41);
  s2_small0 := (1, 8, 7); s2_small1 := (19, 61, 6) |}.

Definition sha2_ch (w x y z : N) : N := N.lxor (N.land x y) (N.land (not_w w x) z).
Definition sha2_maj (x y z : N) : N := N.lxor (N.lxor (N.land x y) (N.land x z)) (N.land y z).
(** Three rotations; two rotations and a shift. *)
Definition sha2_big (w : N) (r : N * N * N) (x : N) : N :=
  let '(i, j, k) := r in N.lxor (N.lxor (ror w x i) (ror w x j)) (ror w x k).
Definition sha2_small (w : N) (r : N * N * N) (x : N) : N :=
  let '(i, j, k) := r in N.lxor (N.lxor (ror w x i) (ror w x j)) (x / 2 ^ k).

(** 4.2.2, 4.2.3. *)
Definition sha2_k (k : sha2_kind) : list N := map (cube_root_bits (s2_bits k)) (first_primes (s2_rounds k)).

(** 5.3.2-5.3.5. The initial value of SHA-224 is the low half of SHA-384's. *)
Definition sha256_init : list N := map (square_root_bits 32) (first_primes 8).
Definition sha512_init : list N := map (square_root_bits 64) (first_primes 8).
Definition sha384_init : list N := map (square_root_bits 64) (skipn 8 (first_primes 16)).
Definition sha224_init : list N := map (fun x => x mod 2 ^ 32) sha384_init.

(** 6.2.2 and 6.4.2. *)
Definition sha2_expand (k : sha2_kind) (w : list N) : N :=
  let t := length w in
  (sha2_small (s2_bits k) (s2_small1 k) (nth (t - 2) w 0) + nth (t - 7) w 0 +
   sha2_small (s2_bits k) (s2_small0 k) (nth (t - 15) w 0) + nth (t - 16) w 0) mod 2 ^ s2_bits k.
Fixpoint sha2_schedule (k : sha2_kind) (n : nat) (block : list N) : list N :=
  match n with
  | O => map be_num (groups (s2_word k) block)
  | S n => let w := sha2_schedule k n block in w ++ [sha2_expand k w]
  end.

Definition state8 : Type := N * N * N * N * N * N * N * N.
Definition sha2_round (k : sha2_kind) (st : state8) (kw : N * N) : state8 :=
  let '(a, b, c, d, e, f, g, h) := st in
  let t1 := h + sha2_big (s2_bits k) (s2_big1 k) e + sha2_ch (s2_bits k) e f g + fst kw + snd kw in
  let t2 := sha2_big (s2_bits k) (s2_big0 k) a + sha2_maj a b c in
  ((t1 + t2) mod 2 ^ s2_bits k, a, b, c, (d + t1) mod 2 ^ s2_bits k, e, f, g).

(** [kt]: the round constants. *)
Definition sha2_compress (k : sha2_kind) (kt h block : list N) : list N :=
  match h with
  | [h0; h1; h2; h3; h4; h5; h6; h7] =>
      let '(a, b, c, d, e, f, g, h) :=
        fold_left (sha2_round k) (combine kt (sha2_schedule k (s2_rounds k - 16) block))
          (h0, h1, h2, h3, h4, h5, h6, h7) in
      let w := s2_bits k in
      [plus_w w h0 a; plus_w w h1 b; plus_w w h2 c; plus_w w h3 d;
       plus_w w h4 e; plus_w w h5 f; plus_w w h6 g; plus_w w h7 h]
  | _ => []
  end.

(** [n] words of the final value are the digest. *)
Definition sha2_spec (k : sha2_kind) (init : list N) (n : nat) (m : list N) : list N :=
  let kt := sha2_k k in
  concat (map (be_bytes (s2_word k)) (firstn n
    (fold_left (sha2_compress k kt) (groups (16 * s2_word k) (sha_pad (16 * s2_word k) (2 * s2_word k) m)) init))).

Definition sha224_spec : list N -> list N := sha2_spec sha256_kind sha224_init 7.
Definition sha256_spec : list N -> list N := sha2_spec sha256_kind sha256_init 8.
Definition sha384_spec : list N -> list N := sha2_spec sha512_kind sha384_init 6.
Definition sha512_spec : list N -> list N := sha2_spec sha512_kind sha512_init 8.

(** The vectors of FIPS 180-2 appendices A-D (one and two blocks). *)
Definition two_blocks : list N := text "abcdbcdecdefdefgefghfghighijhijkijkljklmklmnlmnomnopnopq".
Example fips_sha1 :
  sha1_spec (text "abc") = be_bytes 20 0xa9993e364706816aba3e25717850c26c9cd0d89d /\
  sha1_spec two_blocks = be_bytes 20 0x84983e441c3bd26ebaae4aa1f95129e5e54670f1.
Proof. vm_compute. split; reflexivity. Qed.
Example fips_sha256 :
  sha256_spec (text "abc")
    = be_bytes 32 0xba7816bf8f01cfea414140de5dae2223b00361a396177a9cb410ff61f20015ad /\
  sha256_spec two_blocks
    = be_bytes 32 0x248d6a61d20638b8e5c026930c3e6039a33ce45964ff2167f6ecedd419db06c1 /\
  sha224_spec (text "abc")
    = be_bytes 28 0x23097d223405d8228642a477bda255b32aadbce4bda0b3f7e36c9da7.
Proof. vm_compute. repeat split; reflexivity. Qed.
Example fips_sha512 :
  sha512_spec (text "abc")
    = be_bytes 64 0xddaf35a193617abacc417349ae20413112e6fa4e89a97ea20a9eeee64b55d39a2192992a274fc1a836ba3c23a3feebbd454d4423643ce80e2a9ac94fa54ca49f /\
  sha384_spec (text "abc")
    = be_bytes 48 0xcb00753f45a35e8bb5a03d699ac65007272c32ab0eded1631a8b605a43ff5bed8086072ba1e7cc2358baeca134c825a7.
Proof. vm_compute. repeat split; reflexivity. Qed.
