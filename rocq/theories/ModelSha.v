(** * Model of src/sha/: hash.rs, pad.rs, sha1.rs, sha2.rs *)
From Verif Require Import Base.

Section Profile.
Context {P : profile}.

(** ** src/sha/hash.rs: a [HashValue<N>] is a list of [N] bytes *)

(** [u32s_to_bytes::<W, B>], hash.rs:100-106. [b] is [B]. *)
Definition u32s_to_bytes (b : nat) (words : list N) : res (list N) :=
  forM (enumerate words) (fun '(i, w) bytes =>
      copy_range bytes (4 * i) (4 * i + 4) (to_be 4 w)) (repeat 0 b).

(** [u64s_to_bytes::<W, B>], hash.rs:108-114. *)
Definition u64s_to_bytes (b : nat) (words : list N) : res (list N) :=
  forM (enumerate words) (fun '(i, w) bytes =>
      copy_range bytes (8 * i) (8 * i + 8) (to_be 8 w)) (repeat 0 b).

(** [bytes_to_u32s::<B, W>], hash.rs:116-123. [w] is [W]. *)
Definition bytes_to_u32s (w : nat) (bytes : list N) : res (list N) :=
  let* (cs, _) := chunks_exact 4 bytes in
  forM (enumerate cs) (fun '(i, chunk) words =>
      let* chunk := to_array 4 chunk in
      upd words i (from_be chunk)) (repeat 0 w).

(** [bytes_to_u64s::<B, W>], hash.rs:125-132 (with its [chunks_exact(4)]). *)
Definition bytes_to_u64s (w : nat) (bytes : list N) : res (list N) :=
  let* (cs, _) := chunks_exact 4 bytes in
  forM (enumerate cs) (fun '(i, chunk) words =>
      let* chunk := to_array 8 chunk in
      upd words i (from_be chunk)) (repeat 0 w).

(** [From<[u32; 5]> for Hash160] .. [From<[u64; 8]> for Hash512], hash.rs:14-42. *)
Definition hash160_from_words : list N -> res (list N) := u32s_to_bytes 20.
Definition hash224_from_words : list N -> res (list N) := u32s_to_bytes 28.
Definition hash256_from_words : list N -> res (list N) := u32s_to_bytes 32.
Definition hash384_from_words : list N -> res (list N) := u64s_to_bytes 48.
Definition hash512_from_words : list N -> res (list N) := u64s_to_bytes 64.

(** [From<Hash160> for [u32; 5]] .. [From<Hash512> for [u64; 8]], hash.rs:46-74. *)
Definition hash160_to_words : list N -> res (list N) := bytes_to_u32s 5.
Definition hash224_to_words : list N -> res (list N) := bytes_to_u32s 7.
Definition hash256_to_words : list N -> res (list N) := bytes_to_u32s 8.
Definition hash384_to_words : list N -> res (list N) := bytes_to_u64s 6.
Definition hash512_to_words : list N -> res (list N) := bytes_to_u64s 8.

(** The [hex] crate's [val]: the value of a hexadecimal digit (either case),
    documented behaviour of the dependency. *)
Definition hex_val (c : N) : option N :=
  if (48 <=? c) && (c <=? 57) then Some (c - 48)
  else if (97 <=? c) && (c <=? 102) then Some (c - 97 + 10)
  else if (65 <=? c) && (c <=? 70) then Some (c - 65 + 10)
  else None.

(** [hex::FromHexError]. *)
Inductive hex_error : Set :=
| InvalidHexCharacter (c : N) (index : nat)
| OddLength
| InvalidStringLength.

(** The pairs of digits, from index [i] on ([Vec::<u8>::from_hex] reports the
    first bad character). *)
Fixpoint hex_pairs (i : nat) (s : list N) : result (list N) hex_error :=
  match s with
  | h :: l :: s' =>
      match hex_val h with
      | None => RErr (InvalidHexCharacter h i)
      | Some a =>
          match hex_val l with
          | None => RErr (InvalidHexCharacter l (i + 1))
          | Some b =>
              match hex_pairs (i + 2) s' with
              | RErr e => RErr e
              | ROk bs => ROk ((a * 16 + b) :: bs)
              end
          end
      end
  | _ => ROk []
  end.
(** [Vec::<u8>::from_hex] of the [hex] crate. *)
Definition vec_from_hex (s : list N) : result (list N) hex_error :=
  if (length s mod 2 =? 0)%nat then hex_pairs 0 s else RErr OddLength.

(** [HashValue<N>::from_hex], hash.rs:89-95. *)
Definition hash_from_hex (n : nat) (s : list N) : res (result (list N) hex_error) :=
  match vec_from_hex s with
  | RErr e => Ok (RErr e)
  | ROk bytes =>
      if negb (length bytes =? n)%nat then Ok (RErr InvalidStringLength)
      else let* a := to_array n bytes in Ok (ROk a)
  end.

(** ** src/sha/pad.rs *)

(** [sha1_padding], pad.rs:3-17. [message_length] is a [u64]. *)
Definition sha1_padding (src : list N) (message_length : N)
    : res (list N * option (list N)) :=
  let last := repeat 0 64 in
  let extra := repeat 0 64 in
  let* last := copy_range last 0 (length src) src in
  let* last := upd last (length src) 0x80 in
  if (length src <? 64 - 8)%nat then
    let* bits := cmul 64 message_length 8 in
    let* last := copy_range last (64 - 8) 64 (to_be 8 bits) in
    Ok (last, None)
  else
    let* bits := cmul 64 message_length 8 in
    let* extra := copy_range extra (64 - 8) 64 (to_be 8 bits) in
    Ok (last, Some extra).

(** ** src/sha/sha1.rs *)

(** [process_chunk], sha1.rs:16-56. The array pattern [let [a, b, c, d, e]]
    always matches a [[u32; 5]]. *)
Definition sha1_process_chunk (hash chunk : list N) : res (list N) :=
  let* w := forM (range 0 16) (fun i w =>
      let* t := slice_from chunk (4 * i) in
      let* t := slice_to t 4 in
      let* word := to_array 4 t in
      upd w i (from_be word)) (repeat 0 80) in
  let* w := forM (range 16 80) (fun i w =>
      let* w3 := idx w (i - 3) in
      let* w8 := idx w (i - 8) in
      let* w14 := idx w (i - 14) in
      let* w16 := idx w (i - 16) in
      upd w i (rotl 32 (N.lxor (N.lxor (N.lxor w3 w8) w14) w16) 1)) w in
  match hash with
  | [a; b; c; d; e] =>
    let* (a, b, c, d, e) := forM (enumerate w) (fun '(i, w) '(a, b, c, d, e) =>
        let* (k, f) :=
          if (i <? 20)%nat then
            Ok (0x5A827999, N.lor (N.land b c) (N.land (wnot 32 b) d))
          else if (i <? 40)%nat then
            Ok (0x6ED9EBA1, N.lxor (N.lxor b c) d)
          else if (i <? 60)%nat then
            Ok (0x8F1BBCDC, N.lor (N.lor (N.land b c) (N.land b d)) (N.land c d))
          else if (i <? 80)%nat then
            Ok (0xCA62C1D6, N.lxor (N.lxor b c) d)
          else Panic PExplicit in
        let temp := wadd 32 (wadd 32 (wadd 32 (wadd 32 (rotl 32 a 5) f) e) k) w in
        Ok (temp, a, rotl 32 b 30, c, d)) (a, b, c, d, e) in
    match hash with
    | [h0; h1; h2; h3; h4] =>
        Ok [wadd 32 h0 a; wadd 32 h1 b; wadd 32 h2 c; wadd 32 h3 d; wadd 32 h4 e]
    | _ => Panic PIndex
    end
  | _ => Panic PIndex
  end.

(** The chunk loop shared by all the hash functions, sha1.rs:65-72,
    sha2.rs:94-101, 113-120, 132-139, 151-158: [n] is the block size. *)
Definition sha_chunk_loop (n : nat) (process : list N -> list N -> res (list N))
    (chunks : list (list N)) (last_chunk : list N) (extra_chunk : option (list N))
    (hash : list N) : res (list N) :=
  let* hash := forM chunks (fun chunk hash =>
      let* chunk := to_array n chunk in
      process hash chunk) hash in
  let* hash := process hash last_chunk in
  match extra_chunk with
  | Some extra_chunk => process hash extra_chunk
  | None => Ok hash
  end.

(** The initial value of [hash] in [sha1], sha1.rs:63. *)
Definition INITIAL_HASH_SHA1 : list N :=
  [0x67452301; 0xEFCDAB89; 0x98BADCFE; 0x10325476; 0xC3D2E1F0].

(** [sha1], sha1.rs:58-75. *)
Definition sha1 (message : list N) : res (list N) :=
  let* (chunks, remaining_bytes) := chunks_exact 64 message in
  let* (last_chunk, extra_chunk) :=
    sha1_padding remaining_bytes (N.of_nat (length message)) in
  let hash := INITIAL_HASH_SHA1 in
  let* hash := sha_chunk_loop 64 sha1_process_chunk chunks last_chunk extra_chunk hash in
  hash160_from_words hash.

(** ** src/sha/sha2.rs *)

(** sha2.rs:9-12. *)
Definition INITIAL_HASH_224 : list N := [
  0xc1059ed8; 0x367cd507; 0x3070dd17; 0xf70e5939;
  0xffc00b31; 0x68581511; 0x64f98fa7; 0xbefa4fa4 ].
(** sha2.rs:15-18. *)
Definition INITIAL_HASH_256 : list N := [
  0x6a09e667; 0xbb67ae85; 0x3c6ef372; 0xa54ff53a;
  0x510e527f; 0x9b05688c; 0x1f83d9ab; 0x5be0cd19 ].
(** sha2.rs:21-24. *)
Definition INITIAL_HASH_384 : list N := [
  0xcbbb9d5dc1059ed8; 0x629a292a367cd507; 0x9159015a3070dd17; 0x152fecd8f70e5939;
  0x67332667ffc00b31; 0x8eb44a8768581511; 0xdb0c2e0d64f98fa7; 0x47b5481dbefa4fa4 ].
(** sha2.rs:27-30. *)
Definition INITIAL_HASH_512 : list N := [
  0x6a09e667f3bcc908; 0xbb67ae8584caa73b; 0x3c6ef372fe94f82b; 0xa54ff53a5f1d36f1;
  0x510e527fade682d1; 0x9b05688c2b3e6c1f; 0x1f83d9abfb41bd6b; 0x5be0cd19137e2179 ].
(** sha2.rs:33-50. *)
Definition ROUND_CONSTANTS : list N := [
  0x428a2f98; 0x71374491; 0xb5c0fbcf; 0xe9b5dba5;
  0x3956c25b; 0x59f111f1; 0x923f82a4; 0xab1c5ed5;
  0xd807aa98; 0x12835b01; 0x243185be; 0x550c7dc3;
  0x72be5d74; 0x80deb1fe; 0x9bdc06a7; 0xc19bf174;
  0xe49b69c1; 0xefbe4786; 0x0fc19dc6; 0x240ca1cc;
  0x2de92c6f; 0x4a7484aa; 0x5cb0a9dc; 0x76f988da;
  0x983e5152; 0xa831c66d; 0xb00327c8; 0xbf597fc7;
  0xc6e00bf3; 0xd5a79147; 0x06ca6351; 0x14292967;
  0x27b70a85; 0x2e1b2138; 0x4d2c6dfc; 0x53380d13;
  0x650a7354; 0x766a0abb; 0x81c2c92e; 0x92722c85;
  0xa2bfe8a1; 0xa81a664b; 0xc24b8b70; 0xc76c51a3;
  0xd192e819; 0xd6990624; 0xf40e3585; 0x106aa070;
  0x19a4c116; 0x1e376c08; 0x2748774c; 0x34b0bcb5;
  0x391c0cb3; 0x4ed8aa4a; 0x5b9cca4f; 0x682e6ff3;
  0x748f82ee; 0x78a5636f; 0x84c87814; 0x8cc70208;
  0x90befffa; 0xa4506ceb; 0xbef9a3f7; 0xc67178f2 ].
(** sha2.rs:53-74. *)
Definition ROUND_CONSTANTS_BIG : list N := [
  0x428a2f98d728ae22; 0x7137449123ef65cd; 0xb5c0fbcfec4d3b2f; 0xe9b5dba58189dbbc;
  0x3956c25bf348b538; 0x59f111f1b605d019; 0x923f82a4af194f9b; 0xab1c5ed5da6d8118;
  0xd807aa98a3030242; 0x12835b0145706fbe; 0x243185be4ee4b28c; 0x550c7dc3d5ffb4e2;
  0x72be5d74f27b896f; 0x80deb1fe3b1696b1; 0x9bdc06a725c71235; 0xc19bf174cf692694;
  0xe49b69c19ef14ad2; 0xefbe4786384f25e3; 0x0fc19dc68b8cd5b5; 0x240ca1cc77ac9c65;
  0x2de92c6f592b0275; 0x4a7484aa6ea6e483; 0x5cb0a9dcbd41fbd4; 0x76f988da831153b5;
  0x983e5152ee66dfab; 0xa831c66d2db43210; 0xb00327c898fb213f; 0xbf597fc7beef0ee4;
  0xc6e00bf33da88fc2; 0xd5a79147930aa725; 0x06ca6351e003826f; 0x142929670a0e6e70;
  0x27b70a8546d22ffc; 0x2e1b21385c26c926; 0x4d2c6dfc5ac42aed; 0x53380d139d95b3df;
  0x650a73548baf63de; 0x766a0abb3c77b2a8; 0x81c2c92e47edaee6; 0x92722c851482353b;
  0xa2bfe8a14cf10364; 0xa81a664bbc423001; 0xc24b8b70d0f89791; 0xc76c51a30654be30;
  0xd192e819d6ef5218; 0xd69906245565a910; 0xf40e35855771202a; 0x106aa07032bbd1b8;
  0x19a4c116b8d2d0c8; 0x1e376c085141ab53; 0x2748774cdf8eeb99; 0x34b0bcb5e19b48a8;
  0x391c0cb3c5c95a63; 0x4ed8aa4ae3418acb; 0x5b9cca4f7763e373; 0x682e6ff3d6b2b8a3;
  0x748f82ee5defb2fc; 0x78a5636f43172f60; 0x84c87814a1f0ab72; 0x8cc702081a6439ec;
  0x90befffa23631e28; 0xa4506cebde82bde9; 0xbef9a3f7b2c67915; 0xc67178f2e372532b;
  0xca273eceea26619c; 0xd186b8c721c0c207; 0xeada7dd6cde0eb1e; 0xf57d4f7fee6ed178;
  0x06f067aa72176fba; 0x0a637dc5a2c898a6; 0x113f9804bef90dae; 0x1b710b35131c471b;
  0x28db77f523047d84; 0x32caab7b40c72493; 0x3c9ebe0a15c9bebc; 0x431d67c49c100d4c;
  0x4cc5d4becb3e42b6; 0x597f299cfc657e2a; 0x5fcb6fab3ad6faec; 0x6c44198c4a475817 ].

(** [sha2_padding], sha2.rs:163-166. *)
Definition sha2_padding := sha1_padding.

(** [sha2_padding_big], sha2.rs:168-182. [message_length] is a [u128]. *)
Definition sha2_padding_big (src : list N) (message_length : N)
    : res (list N * option (list N)) :=
  let last := repeat 0 128 in
  let extra := repeat 0 128 in
  let* last := copy_range last 0 (length src) src in
  let* last := upd last (length src) 0x80 in
  if (length src <? 128 - 16)%nat then
    let* bits := cmul 128 message_length 8 in
    let* last := copy_range last (128 - 16) 128 (to_be 16 bits) in
    Ok (last, None)
  else
    let* bits := cmul 128 message_length 8 in
    let* extra := copy_range extra (128 - 16) 128 (to_be 16 bits) in
    Ok (last, Some extra).

(** [process_chunk], sha2.rs:184-235. *)
Definition sha2_process_chunk (hash chunk : list N) : res (list N) :=
  let k := ROUND_CONSTANTS in
  let* (cs, _) := chunks_exact 4 chunk in
  let* w := forM (enumerate cs) (fun '(i, word) w =>
      let* word := to_array 4 word in
      upd w i (from_be word)) (repeat 0 64) in
  let* w := forM (range 16 64) (fun i w =>
      let* w15 := idx w (i - 15) in
      let s0 := N.lxor (N.lxor (rotr 32 w15 7) (rotr 32 w15 18)) (wshr w15 3) in
      let* w2 := idx w (i - 2) in
      let s1 := N.lxor (N.lxor (rotr 32 w2 17) (rotr 32 w2 19)) (wshr w2 10) in
      let* w16 := idx w (i - 16) in
      let* w7 := idx w (i - 7) in
      upd w i (wadd 32 (wadd 32 (wadd 32 w16 s0) w7) s1)) w in
  match hash with
  | [a; b; c; d; e; f; g; h] =>
    let* (a, b, c, d, e, f, g, h) :=
      forM (range 0 64) (fun i '(a, b, c, d, e, f, g, h) =>
        let s1 := N.lxor (N.lxor (rotr 32 e 6) (rotr 32 e 11)) (rotr 32 e 25) in
        let ch := N.lxor (N.land e f) (N.land (wnot 32 e) g) in
        let* ki := idx k i in
        let* wi := idx w i in
        let temp1 := wadd 32 (wadd 32 (wadd 32 (wadd 32 h s1) ch) ki) wi in
        let s0 := N.lxor (N.lxor (rotr 32 a 2) (rotr 32 a 13)) (rotr 32 a 22) in
        let maj := N.lxor (N.lxor (N.land a b) (N.land a c)) (N.land b c) in
        let temp2 := wadd 32 s0 maj in
        Ok (wadd 32 temp1 temp2, a, b, c, wadd 32 d temp1, e, f, g))
      (a, b, c, d, e, f, g, h) in
    match hash with
    | [h0; h1; h2; h3; h4; h5; h6; h7] =>
        Ok [wadd 32 h0 a; wadd 32 h1 b; wadd 32 h2 c; wadd 32 h3 d;
            wadd 32 h4 e; wadd 32 h5 f; wadd 32 h6 g; wadd 32 h7 h]
    | _ => Panic PIndex
    end
  | _ => Panic PIndex
  end.

(** [process_big_chunk], sha2.rs:237-288. *)
Definition sha2_process_big_chunk (hash chunk : list N) : res (list N) :=
  let k := ROUND_CONSTANTS_BIG in
  let* (cs, _) := chunks_exact 8 chunk in
  let* w := forM (enumerate cs) (fun '(i, word) w =>
      let* word := to_array 8 word in
      upd w i (from_be word)) (repeat 0 80) in
  let* w := forM (range 16 80) (fun i w =>
      let* w15 := idx w (i - 15) in
      let s0 := N.lxor (N.lxor (rotr 64 w15 1) (rotr 64 w15 8)) (wshr w15 7) in
      let* w2 := idx w (i - 2) in
      let s1 := N.lxor (N.lxor (rotr 64 w2 19) (rotr 64 w2 61)) (wshr w2 6) in
      let* w16 := idx w (i - 16) in
      let* w7 := idx w (i - 7) in
      upd w i (wadd 64 (wadd 64 (wadd 64 w16 s0) w7) s1)) w in
  match hash with
  | [a; b; c; d; e; f; g; h] =>
    let* (a, b, c, d, e, f, g, h) :=
      forM (range 0 80) (fun i '(a, b, c, d, e, f, g, h) =>
        let s1 := N.lxor (N.lxor (rotr 64 e 14) (rotr 64 e 18)) (rotr 64 e 41) in
        let ch := N.lxor (N.land e f) (N.land (wnot 64 e) g) in
        let* ki := idx k i in
        let* wi := idx w i in
        let temp1 := wadd 64 (wadd 64 (wadd 64 (wadd 64 h s1) ch) ki) wi in
        let s0 := N.lxor (N.lxor (rotr 64 a 28) (rotr 64 a 34)) (rotr 64 a 39) in
        let maj := N.lxor (N.lxor (N.land a b) (N.land a c)) (N.land b c) in
        let temp2 := wadd 64 s0 maj in
        Ok (wadd 64 temp1 temp2, a, b, c, wadd 64 d temp1, e, f, g))
      (a, b, c, d, e, f, g, h) in
    match hash with
    | [h0; h1; h2; h3; h4; h5; h6; h7] =>
        Ok [wadd 64 h0 a; wadd 64 h1 b; wadd 64 h2 c; wadd 64 h3 d;
            wadd 64 h4 e; wadd 64 h5 f; wadd 64 h6 g; wadd 64 h7 h]
    | _ => Panic PIndex
    end
  | _ => Panic PIndex
  end.

(** [sha224], sha2.rs:87-104. *)
Definition sha224 (message : list N) : res (list N) :=
  let* (chunks, remaining_bytes) := chunks_exact 64 message in
  let* (last_chunk, extra_chunk) :=
    sha2_padding remaining_bytes (N.of_nat (length message)) in
  let hash := INITIAL_HASH_224 in
  let* hash := sha_chunk_loop 64 sha2_process_chunk chunks last_chunk extra_chunk hash in
  let* h := slice_to hash 7 in
  let* h := to_array 7 h in
  hash224_from_words h.

(** [sha256], sha2.rs:106-123. *)
Definition sha256 (message : list N) : res (list N) :=
  let* (chunks, remaining_bytes) := chunks_exact 64 message in
  let* (last_chunk, extra_chunk) :=
    sha2_padding remaining_bytes (N.of_nat (length message)) in
  let hash := INITIAL_HASH_256 in
  let* hash := sha_chunk_loop 64 sha2_process_chunk chunks last_chunk extra_chunk hash in
  hash256_from_words hash.

(** [sha384], sha2.rs:125-142. *)
Definition sha384 (message : list N) : res (list N) :=
  let* (chunks, remaining_bytes) := chunks_exact 128 message in
  let* (last_chunk, extra_chunk) :=
    sha2_padding_big remaining_bytes (N.of_nat (length message)) in
  let hash := INITIAL_HASH_384 in
  let* hash := sha_chunk_loop 128 sha2_process_big_chunk chunks last_chunk extra_chunk hash in
  let* h := slice_to hash 6 in
  let* h := to_array 6 h in
  hash384_from_words h.

(** [sha512], sha2.rs:144-161. *)
Definition sha512 (message : list N) : res (list N) :=
  let* (chunks, remaining_bytes) := chunks_exact 128 message in
  let* (last_chunk, extra_chunk) :=
    sha2_padding_big remaining_bytes (N.of_nat (length message)) in
  let hash := INITIAL_HASH_512 in
  let* hash := sha_chunk_loop 128 sha2_process_big_chunk chunks last_chunk extra_chunk hash in
  hash512_from_words hash.

End Profile.
