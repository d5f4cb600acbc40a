(** * The hash functions and the RC ciphers again, with what an observer of the
    machine can see

    The definitions of [ModelSha], [ModelMd] and [ModelRc], in a monad that also
    records the positions of all accesses to arrays, the outcome of all
    branches and the iterations of all loops.  The lines of /repo are cited
    again beside each definition.  Not recorded: the operands of arithmetic
    and of rotations (which take the same time for all operands on the usual
    processors), and the position at which a byte is appended to a [Vec], which
    is its length. *)
From Verif Require Import Base ModelBlock ModelSha ModelMd ModelRc.

(** What is observed. *)
Inductive event : Set :=
| EAt (i : nat)           (* access to position [i] of an array *)
| ESlice (a b : nat)      (* access to the positions [a..b] of an array *)
| EIf (b : bool)          (* a branch *)
| EIter                   (* a loop makes one more iteration *)
| EDone.                  (* a loop ends *)

(** A program with its observation. *)
Definition tr (A : Type) : Type := (list event * res A)%type.
Definition tret {A} (a : A) : tr A := ([], Ok a).
Definition tpanic {A} (r : panic_reason) : tr A := ([], Panic r).
Definition tsee (e : event) : tr unit := ([e], Ok tt).
Definition tbind {A B} (m : tr A) (f : A -> tr B) : tr B :=
  match m with
  | (e, Ok a) => let (e', r) := f a in (e ++ e', r)
  | (e, Panic p) => (e, Panic p)
  end.
Notation "'let^' x ':=' m 'in' k" := (tbind m (fun x => k))
  (at level 200, x pattern, m at level 100, k at level 200, right associativity).
(** An operation of the standard library and the events it causes. *)
Definition tlog {A} (e : list event) (r : res A) : tr A := (e, r).
(** [if c { a } else { b }]. *)
Definition tif {A} (c : bool) (a b : tr A) : tr A :=
  let^ _ := tsee (EIf c) in if c then a else b.
Notation "'if^' c 'then' a 'else' b" := (tif c a b)
  (at level 200, c at level 200, a at level 200, b at level 200).

(** The operations of [Base]. *)
Definition t_idx {A} (l : list A) (i : nat) : tr A := tlog [EAt i] (idx l i).
Definition t_upd {A} (l : list A) (i : nat) (v : A) : tr (list A) :=
  tlog [EAt i] (upd l i v).
Definition t_slice {A} (l : list A) (a b : nat) : tr (list A) :=
  tlog [ESlice a b] (slice l a b).
Definition t_slice_to {A} (l : list A) (b : nat) : tr (list A) :=
  tlog [ESlice 0 b] (slice_to l b).
Definition t_slice_from {A} (l : list A) (a : nat) : tr (list A) :=
  tlog [ESlice a (length l)] (slice_from l a).
Definition t_copy_range {A} (l : list A) (a b : nat) (src : list A) : tr (list A) :=
  tlog [ESlice a b; ESlice 0 (length src)] (copy_range l a b src).
Definition t_to_array {A} (n : nat) (l : list A) : tr (list A) :=
  tlog [EIf (length l =? n)%nat] (to_array n l).
Definition t_swap {A} (l : list A) (i j : nat) : tr (list A) :=
  tlog [EAt i; EAt j] (swap l i j).
Definition t_chunks_exact {A} (n : nat) (l : list A) : tr (list (list A) * list A) :=
  tlog [ESlice 0 (length l)] (chunks_exact n l).
Definition t_chunks {A} (n : nat) (l : list A) : tr (list (list A)) :=
  tlog [ESlice 0 (length l)] (chunks n l).
Fixpoint t_forM {A S} (l : list A) (f : A -> S -> tr S) (s : S) : tr S :=
  match l with
  | [] => let^ _ := tsee EDone in tret s
  | a :: l' =>
      let^ _ := tsee EIter in
      let^ s' := f a s in
      t_forM l' f s'
  end.
Fixpoint t_mapM {A B} (f : A -> tr B) (l : list A) : tr (list B) :=
  match l with
  | [] => let^ _ := tsee EDone in tret []
  | a :: l' =>
      let^ _ := tsee EIter in
      let^ b := f a in
      let^ bs := t_mapM f l' in
      tret (b :: bs)
  end.
(** Checked arithmetic branches on the overflow. *)
Definition t_cadd {P : profile} (w a b : N) : tr N :=
  tlog [EIf (a + b <? 2 ^ w)] (cadd w a b).
Definition t_csub {P : profile} (w a b : N) : tr N := tlog [EIf (b <=? a)] (csub w a b).
Definition t_cmul {P : profile} (w a b : N) : tr N :=
  tlog [EIf (a * b <? 2 ^ w)] (cmul w a b).
Definition t_nsub {P : profile} (a b : nat) : tr nat :=
  tlog [EIf (b <=? a)%nat] (nsub a b).

Section Profile.
Context {P : profile}.

(** ** src/sha/ *)

(** [u32s_to_bytes::<W, B>], hash.rs:100-106. [b] is [B]. *)
Definition t_u32s_to_bytes (b : nat) (words : list N) : tr (list N) :=
  t_forM (enumerate words) (fun '(i, w) bytes =>
      t_copy_range bytes (4 * i) (4 * i + 4) (to_be 4 w)) (repeat 0 b).

(** [u64s_to_bytes::<W, B>], hash.rs:108-114. *)
Definition t_u64s_to_bytes (b : nat) (words : list N) : tr (list N) :=
  t_forM (enumerate words) (fun '(i, w) bytes =>
      t_copy_range bytes (8 * i) (8 * i + 8) (to_be 8 w)) (repeat 0 b).

(** [From<[u32; 5]> for Hash160] .. [From<[u64; 8]> for Hash512], hash.rs:14-42. *)
Definition t_hash160_from_words : list N -> tr (list N) := t_u32s_to_bytes 20.

Definition t_hash224_from_words : list N -> tr (list N) := t_u32s_to_bytes 28.

Definition t_hash256_from_words : list N -> tr (list N) := t_u32s_to_bytes 32.

Definition t_hash384_from_words : list N -> tr (list N) := t_u64s_to_bytes 48.

Definition t_hash512_from_words : list N -> tr (list N) := t_u64s_to_bytes 64.

(** [sha1_padding], pad.rs:3-17. [message_length] is a [u64]. *)
Definition t_sha1_padding (src : list N) (message_length : N)
    : tr (list N * option (list N)) :=
  let last := repeat 0 64 in
  let extra := repeat 0 64 in
  let^ last := t_copy_range last 0 (length src) src in
  let^ last := t_upd last (length src) 0x80 in
  if^ (length src <? 64 - 8)%nat then
    let^ bits := t_cmul 64 message_length 8 in
    let^ last := t_copy_range last (64 - 8) 64 (to_be 8 bits) in
    tret (last, None)
  else
    let^ bits := t_cmul 64 message_length 8 in
    let^ extra := t_copy_range extra (64 - 8) 64 (to_be 8 bits) in
    tret (last, Some extra).

(** [process_chunk], sha1.rs:16-56. The array pattern [let [a, b, c, d, e]]
    always matches a [[u32; 5]]. *)
Definition t_sha1_process_chunk (hash chunk : list N) : tr (list N) :=
  let^ w := t_forM (range 0 16) (fun i w =>
      let^ t := t_slice_from chunk (4 * i) in
      let^ t := t_slice_to t 4 in
      let^ word := t_to_array 4 t in
      t_upd w i (from_be word)) (repeat 0 80) in
  let^ w := t_forM (range 16 80) (fun i w =>
      let^ w3 := t_idx w (i - 3) in
      let^ w8 := t_idx w (i - 8) in
      let^ w14 := t_idx w (i - 14) in
      let^ w16 := t_idx w (i - 16) in
      t_upd w i (rotl 32 (N.lxor (N.lxor (N.lxor w3 w8) w14) w16) 1)) w in
  match hash with
  | [a; b; c; d; e] =>
    let^ (a, b, c, d, e) := t_forM (enumerate w) (fun '(i, w) '(a, b, c, d, e) =>
        let^ (k, f) :=
          if^ (i <? 20)%nat then
            tret (0x5A827999, N.lor (N.land b c) (N.land (wnot 32 b) d))
          else if^ (i <? 40)%nat then
            tret (0x6ED9EBA1, N.lxor (N.lxor b c) d)
          else if^ (i <? 60)%nat then
            tret (0x8F1BBCDC, N.lor (N.lor (N.land b c) (N.land b d)) (N.land c d))
          else if^ (i <? 80)%nat then
            tret (0xCA62C1D6, N.lxor (N.lxor b c) d)
          else tpanic PExplicit in
        let temp := wadd 32 (wadd 32 (wadd 32 (wadd 32 (rotl 32 a 5) f) e) k) w in
        tret (temp, a, rotl 32 b 30, c, d)) (a, b, c, d, e) in
    match hash with
    | [h0; h1; h2; h3; h4] =>
        tret [wadd 32 h0 a; wadd 32 h1 b; wadd 32 h2 c; wadd 32 h3 d; wadd 32 h4 e]
    | _ => tpanic PIndex
    end
  | _ => tpanic PIndex
  end.

(** The chunk loop shared by all the hash functions, sha1.rs:65-72,
    sha2.rs:94-101, 113-120, 132-139, 151-158: [n] is the block size. *)
Definition t_sha_chunk_loop (n : nat) (process : list N -> list N -> tr (list N))
    (chunks : list (list N)) (last_chunk : list N) (extra_chunk : option (list N))
    (hash : list N) : tr (list N) :=
  let^ hash := t_forM chunks (fun chunk hash =>
      let^ chunk := t_to_array n chunk in
      process hash chunk) hash in
  let^ hash := process hash last_chunk in
  match extra_chunk with
  | Some extra_chunk => process hash extra_chunk
  | None => tret hash
  end.

(** [sha1], sha1.rs:58-75. *)
Definition t_sha1 (message : list N) : tr (list N) :=
  let^ (chunks, remaining_bytes) := t_chunks_exact 64 message in
  let^ (last_chunk, extra_chunk) :=
    t_sha1_padding remaining_bytes (N.of_nat (length message)) in
  let hash := INITIAL_HASH_SHA1 in
  let^ hash := t_sha_chunk_loop 64 t_sha1_process_chunk chunks last_chunk extra_chunk hash in
  t_hash160_from_words hash.

(** [sha2_padding], sha2.rs:163-166. *)
Definition t_sha2_padding := t_sha1_padding.

(** [sha2_padding_big], sha2.rs:168-182. [message_length] is a [u128]. *)
Definition t_sha2_padding_big (src : list N) (message_length : N)
    : tr (list N * option (list N)) :=
  let last := repeat 0 128 in
  let extra := repeat 0 128 in
  let^ last := t_copy_range last 0 (length src) src in
  let^ last := t_upd last (length src) 0x80 in
  if^ (length src <? 128 - 16)%nat then
    let^ bits := t_cmul 128 message_length 8 in
    let^ last := t_copy_range last (128 - 16) 128 (to_be 16 bits) in
    tret (last, None)
  else
    let^ bits := t_cmul 128 message_length 8 in
    let^ extra := t_copy_range extra (128 - 16) 128 (to_be 16 bits) in
    tret (last, Some extra).

(** [process_chunk], sha2.rs:184-235. *)
Definition t_sha2_process_chunk (hash chunk : list N) : tr (list N) :=
  let k := ROUND_CONSTANTS in
  let^ (cs, _) := t_chunks_exact 4 chunk in
  let^ w := t_forM (enumerate cs) (fun '(i, word) w =>
      let^ word := t_to_array 4 word in
      t_upd w i (from_be word)) (repeat 0 64) in
  let^ w := t_forM (range 16 64) (fun i w =>
      let^ w15 := t_idx w (i - 15) in
      let s0 := N.lxor (N.lxor (rotr 32 w15 7) (rotr 32 w15 18)) (wshr w15 3) in
      let^ w2 := t_idx w (i - 2) in
      let s1 := N.lxor (N.lxor (rotr 32 w2 17) (rotr 32 w2 19)) (wshr w2 10) in
      let^ w16 := t_idx w (i - 16) in
      let^ w7 := t_idx w (i - 7) in
      t_upd w i (wadd 32 (wadd 32 (wadd 32 w16 s0) w7) s1)) w in
  match hash with
  | [a; b; c; d; e; f; g; h] =>
    let^ (a, b, c, d, e, f, g, h) :=
      t_forM (range 0 64) (fun i '(a, b, c, d, e, f, g, h) =>
        let s1 := N.lxor (N.lxor (rotr 32 e 6) (rotr 32 e 11)) (rotr 32 e 25) in
        let ch := N.lxor (N.land e f) (N.land (wnot 32 e) g) in
        let^ ki := t_idx k i in
        let^ wi := t_idx w i in
        let temp1 := wadd 32 (wadd 32 (wadd 32 (wadd 32 h s1) ch) ki) wi in
        let s0 := N.lxor (N.lxor (rotr 32 a 2) (rotr 32 a 13)) (rotr 32 a 22) in
        let maj := N.lxor (N.lxor (N.land a b) (N.land a c)) (N.land b c) in
        let temp2 := wadd 32 s0 maj in
        tret (wadd 32 temp1 temp2, a, b, c, wadd 32 d temp1, e, f, g))
      (a, b, c, d, e, f, g, h) in
    match hash with
    | [h0; h1; h2; h3; h4; h5; h6; h7] =>
        tret [wadd 32 h0 a; wadd 32 h1 b; wadd 32 h2 c; wadd 32 h3 d;
            wadd 32 h4 e; wadd 32 h5 f; wadd 32 h6 g; wadd 32 h7 h]
    | _ => tpanic PIndex
    end
  | _ => tpanic PIndex
  end.

(** [process_big_chunk], sha2.rs:237-288. *)
Definition t_sha2_process_big_chunk (hash chunk : list N) : tr (list N) :=
  let k := ROUND_CONSTANTS_BIG in
  let^ (cs, _) := t_chunks_exact 8 chunk in
  let^ w := t_forM (enumerate cs) (fun '(i, word) w =>
      let^ word := t_to_array 8 word in
      t_upd w i (from_be word)) (repeat 0 80) in
  let^ w := t_forM (range 16 80) (fun i w =>
      let^ w15 := t_idx w (i - 15) in
      let s0 := N.lxor (N.lxor (rotr 64 w15 1) (rotr 64 w15 8)) (wshr w15 7) in
      let^ w2 := t_idx w (i - 2) in
      let s1 := N.lxor (N.lxor (rotr 64 w2 19) (rotr 64 w2 61)) (wshr w2 6) in
      let^ w16 := t_idx w (i - 16) in
      let^ w7 := t_idx w (i - 7) in
      t_upd w i (wadd 64 (wadd 64 (wadd 64 w16 s0) w7) s1)) w in
  match hash with
  | [a; b; c; d; e; f; g; h] =>
    let^ (a, b, c, d, e, f, g, h) :=
      t_forM (range 0 80) (fun i '(a, b, c, d, e, f, g, h) =>
        let s1 := N.lxor (N.lxor (rotr 64 e 14) (rotr 64 e 18)) (rotr 64 e 41) in
        let ch := N.lxor (N.land e f) (N.land (wnot 64 e) g) in
        let^ ki := t_idx k i in
        let^ wi := t_idx w i in
        let temp1 := wadd 64 (wadd 64 (wadd 64 (wadd 64 h s1) ch) ki) wi in
        let s0 := N.lxor (N.lxor (rotr 64 a 28) (rotr 64 a 34)) (rotr 64 a 39) in
        let maj := N.lxor (N.lxor (N.land a b) (N.land a c)) (N.land b c) in
        let temp2 := wadd 64 s0 maj in
        tret (wadd 64 temp1 temp2, a, b, c, wadd 64 d temp1, e, f, g))
      (a, b, c, d, e, f, g, h) in
    match hash with
    | [h0; h1; h2; h3; h4; h5; h6; h7] =>
        tret [wadd 64 h0 a; wadd 64 h1 b; wadd 64 h2 c; wadd 64 h3 d;
            wadd 64 h4 e; wadd 64 h5 f; wadd 64 h6 g; wadd 64 h7 h]
    | _ => tpanic PIndex
    end
  | _ => tpanic PIndex
  end.

(** [sha224], sha2.rs:87-104. *)
Definition t_sha224 (message : list N) : tr (list N) :=
  let^ (chunks, remaining_bytes) := t_chunks_exact 64 message in
  let^ (last_chunk, extra_chunk) :=
    t_sha2_padding remaining_bytes (N.of_nat (length message)) in
  let hash := INITIAL_HASH_224 in
  let^ hash := t_sha_chunk_loop 64 t_sha2_process_chunk chunks last_chunk extra_chunk hash in
  let^ h := t_slice_to hash 7 in
  let^ h := t_to_array 7 h in
  t_hash224_from_words h.

(** [sha256], sha2.rs:106-123. *)
Definition t_sha256 (message : list N) : tr (list N) :=
  let^ (chunks, remaining_bytes) := t_chunks_exact 64 message in
  let^ (last_chunk, extra_chunk) :=
    t_sha2_padding remaining_bytes (N.of_nat (length message)) in
  let hash := INITIAL_HASH_256 in
  let^ hash := t_sha_chunk_loop 64 t_sha2_process_chunk chunks last_chunk extra_chunk hash in
  t_hash256_from_words hash.

(** [sha384], sha2.rs:125-142. *)
Definition t_sha384 (message : list N) : tr (list N) :=
  let^ (chunks, remaining_bytes) := t_chunks_exact 128 message in
  let^ (last_chunk, extra_chunk) :=
    t_sha2_padding_big remaining_bytes (N.of_nat (length message)) in
  let hash := INITIAL_HASH_384 in
  let^ hash := t_sha_chunk_loop 128 t_sha2_process_big_chunk chunks last_chunk extra_chunk hash in
  let^ h := t_slice_to hash 6 in
  let^ h := t_to_array 6 h in
  t_hash384_from_words h.

(** [sha512], sha2.rs:144-161. *)
Definition t_sha512 (message : list N) : tr (list N) :=
  let^ (chunks, remaining_bytes) := t_chunks_exact 128 message in
  let^ (last_chunk, extra_chunk) :=
    t_sha2_padding_big remaining_bytes (N.of_nat (length message)) in
  let hash := INITIAL_HASH_512 in
  let^ hash := t_sha_chunk_loop 128 t_sha2_process_big_chunk chunks last_chunk extra_chunk hash in
  t_hash512_from_words hash.

(** ** src/md/ *)

(** One pass of the loop [for v in &mut self.x], md2.rs:64-67: returns the new
    content of [x] and the new [t]. *)
Fixpoint t_md2_pass (x : list N) (t : N) : tr (list N * N) :=
  match x with
  | [] => let^ _ := tsee EDone in tret ([], t)
  | v :: x' =>
      let^ _ := tsee EIter in
      let^ s := t_idx MD2_S (ix t) in
      let v := N.lxor v s in
      let t := v in
      let^ (x', t) := t_md2_pass x' t in
      tret (v :: x', t)
  end.

(** [Hasher::process_chunk], md2.rs:46-71. *)
Definition t_md2_process_chunk (h : md2_hasher) : tr md2_hasher :=
  let^ c := t_slice (md2_chunk h) 0 16 in
  let^ chunk := t_to_array 16 c in
  let^ (checksum, l) := t_forM (enumerate chunk) (fun '(j, c) '(checksum, l) =>
      let^ s := t_idx MD2_S (ix (N.lxor c l)) in
      let^ cj := t_idx checksum j in
      let^ checksum := t_upd checksum j (N.lxor cj s) in
      let^ l := t_idx checksum j in
      tret (checksum, l)) (md2_checksum h, md2_l h) in
  let^ x := t_forM (enumerate chunk) (fun '(j, c) x =>
      let^ x := t_upd x (j + 16) c in
      let^ a := t_idx x (j + 16) in
      let^ b := t_idx x j in
      t_upd x (j + 32) (N.lxor a b)) (md2_x h) in
  let^ (x, _) := t_forM (range 0 18) (fun j '(x, t) =>
      let^ (x, t) := t_md2_pass x t in
      tret (x, wadd 8 t (N.of_nat j))) (x, 0) in
  tret {| md2_chunk := []; md2_checksum := checksum; md2_l := l; md2_x := x |}.

(** [Hasher::consume], md2.rs:26-31. *)
Definition t_md2_consume (h : md2_hasher) (byte : N) : tr md2_hasher :=
  let h := {| md2_chunk := md2_chunk h ++ [byte]; md2_checksum := md2_checksum h;
              md2_l := md2_l h; md2_x := md2_x h |} in
  if^ (length (md2_chunk h) =? 16)%nat then t_md2_process_chunk h else tret h.

(** [Hasher::finish], md2.rs:33-44. *)
Definition t_md2_finish (h : md2_hasher) : tr (list N) :=
  let^ pad := t_csub 8 16 (N.of_nat (length (md2_chunk h)) mod 256) in
  let^ chunk := t_forM (range 0 (ix pad)) (fun _ chunk => tret (chunk ++ [pad]))
                     (md2_chunk h) in
  let^ h := t_md2_process_chunk
      {| md2_chunk := chunk; md2_checksum := md2_checksum h;
         md2_l := md2_l h; md2_x := md2_x h |} in
  let^ h := t_md2_process_chunk
      {| md2_chunk := md2_chunk h ++ md2_checksum h; md2_checksum := md2_checksum h;
         md2_l := md2_l h; md2_x := md2_x h |} in
  let^ r := t_slice (md2_x h) 0 16 in
  t_to_array 16 r.

(** [md2::hash], md2.rs:1-7. *)
Definition t_md2_hash (data : list N) : tr (list N) :=
  let^ h := t_forM data (fun b h => t_md2_consume h b) md2_new in
  t_md2_finish h.

(** [Block::from_slice], md4.rs:83-90, md5.rs:83-90. *)
Definition t_md_from_slice (chunk : list N) : tr (list N) :=
  t_mapM (fun j =>
      let i := (j * 4)%nat in
      let^ s := t_slice chunk i (i + 4) in
      let^ s := t_to_array 4 s in
      tret (from_le s)) (range 0 16).

(** The type of [Block::process]. *)
Definition t_md_process : Type := list N -> N -> N -> N -> N -> tr (N * N * N * N).

(** [Hasher::process_block], md4.rs:42-52, md5.rs:42-52. *)
Definition t_md_process_block (process : t_md_process) (h : md_hasher) : tr md_hasher :=
  let^ block := t_md_from_slice (md_unprocessed_bytes h) in
  let^ (a, b, c, d) := process block (md_a h) (md_b h) (md_c h) (md_d h) in
  tret {| md_unprocessed_bytes := [];
        md_bytes_consumed := md_bytes_consumed h;
        md_a := wadd 32 (md_a h) a;
        md_b := wadd 32 (md_b h) b;
        md_c := wadd 32 (md_c h) c;
        md_d := wadd 32 (md_d h) d |}.

(** [Hasher::consume], md4.rs:34-40, md5.rs:34-40. *)
Definition t_md_consume (process : t_md_process) (h : md_hasher) (byte : N) : tr md_hasher :=
  let^ n := t_cadd 64 (md_bytes_consumed h) 1 in
  let h := {| md_unprocessed_bytes := md_unprocessed_bytes h ++ [byte];
              md_bytes_consumed := n;
              md_a := md_a h; md_b := md_b h; md_c := md_c h; md_d := md_d h |} in
  if^ (length (md_unprocessed_bytes h) =? 64)%nat
  then t_md_process_block process h else tret h.

(** [Hasher::finish], md4.rs:54-75, md5.rs:54-75. *)
Definition t_md_finish (process : t_md_process) (h : md_hasher) : tr (list N) :=
  let^ bits_consumed := t_cmul 64 (md_bytes_consumed h) 8 in
  let^ num_pad_bytes :=
    if^ (length (md_unprocessed_bytes h) =? 56)%nat then tret 64%nat
    else let^ k := t_nsub (64 + 56) (length (md_unprocessed_bytes h)) in
         tret (k mod 64)%nat in
  let^ h := t_md_consume process h 0x80 in
  let^ k := t_nsub num_pad_bytes 1 in
  let^ h := t_forM (range 0 k) (fun _ h => t_md_consume process h 0) h in
  let^ h := t_forM (to_le 8 bits_consumed) (fun b h => t_md_consume process h b) h in
  let out := repeat 0 16 in
  let^ out := t_copy_range out 0 4 (to_le 4 (md_a h)) in
  let^ out := t_copy_range out 4 8 (to_le 4 (md_b h)) in
  let^ out := t_copy_range out 8 12 (to_le 4 (md_c h)) in
  t_copy_range out 12 16 (to_le 4 (md_d h)).

(** [hash], md4.rs:1-9, md5.rs:1-9. *)
Definition t_md_hash (process : t_md_process) (data : list N) : tr (list N) :=
  let^ h := t_forM data (fun b h => t_md_consume process h b) md_new in
  t_md_finish process h.

(** [Block::ff], md4.rs:92-94. *)
Definition t_md4_ff (x : list N) (a b c d : N) (i : nat) (s : N) : tr N :=
  let^ xi := t_idx x i in
  tret (rotl 32 (wadd 32 (wadd 32 a (md4_f b c d)) xi) s).

(** [Block::gg], md4.rs:96-101. *)
Definition t_md4_gg (x : list N) (a b c d : N) (i : nat) (s : N) : tr N :=
  let^ xi := t_idx x i in
  tret (rotl 32 (wadd 32 (wadd 32 (wadd 32 a (md4_g b c d)) xi) 0x5A827999) s).

(** [Block::hh], md4.rs:103-108. *)
Definition t_md4_hh (x : list N) (a b c d : N) (i : nat) (s : N) : tr N :=
  let^ xi := t_idx x i in
  tret (rotl 32 (wadd 32 (wadd 32 (wadd 32 a (md4_h b c d)) xi) 0x6ED9EBA1) s).

(** [Block::process], md4.rs:110-163. *)
Definition t_md4_process : t_md_process := fun x a b c d =>
  let^ a := t_md4_ff x a b c d 0 3 in
  let^ d := t_md4_ff x d a b c 1 7 in
  let^ c := t_md4_ff x c d a b 2 11 in
  let^ b := t_md4_ff x b c d a 3 19 in
  let^ a := t_md4_ff x a b c d 4 3 in
  let^ d := t_md4_ff x d a b c 5 7 in
  let^ c := t_md4_ff x c d a b 6 11 in
  let^ b := t_md4_ff x b c d a 7 19 in
  let^ a := t_md4_ff x a b c d 8 3 in
  let^ d := t_md4_ff x d a b c 9 7 in
  let^ c := t_md4_ff x c d a b 10 11 in
  let^ b := t_md4_ff x b c d a 11 19 in
  let^ a := t_md4_ff x a b c d 12 3 in
  let^ d := t_md4_ff x d a b c 13 7 in
  let^ c := t_md4_ff x c d a b 14 11 in
  let^ b := t_md4_ff x b c d a 15 19 in
  let^ a := t_md4_gg x a b c d 0 3 in
  let^ d := t_md4_gg x d a b c 4 5 in
  let^ c := t_md4_gg x c d a b 8 9 in
  let^ b := t_md4_gg x b c d a 12 13 in
  let^ a := t_md4_gg x a b c d 1 3 in
  let^ d := t_md4_gg x d a b c 5 5 in
  let^ c := t_md4_gg x c d a b 9 9 in
  let^ b := t_md4_gg x b c d a 13 13 in
  let^ a := t_md4_gg x a b c d 2 3 in
  let^ d := t_md4_gg x d a b c 6 5 in
  let^ c := t_md4_gg x c d a b 10 9 in
  let^ b := t_md4_gg x b c d a 14 13 in
  let^ a := t_md4_gg x a b c d 3 3 in
  let^ d := t_md4_gg x d a b c 7 5 in
  let^ c := t_md4_gg x c d a b 11 9 in
  let^ b := t_md4_gg x b c d a 15 13 in
  let^ a := t_md4_hh x a b c d 0 3 in
  let^ d := t_md4_hh x d a b c 8 9 in
  let^ c := t_md4_hh x c d a b 4 11 in
  let^ b := t_md4_hh x b c d a 12 15 in
  let^ a := t_md4_hh x a b c d 2 3 in
  let^ d := t_md4_hh x d a b c 10 9 in
  let^ c := t_md4_hh x c d a b 6 11 in
  let^ b := t_md4_hh x b c d a 14 15 in
  let^ a := t_md4_hh x a b c d 1 3 in
  let^ d := t_md4_hh x d a b c 9 9 in
  let^ c := t_md4_hh x c d a b 5 11 in
  let^ b := t_md4_hh x b c d a 13 15 in
  let^ a := t_md4_hh x a b c d 3 3 in
  let^ d := t_md4_hh x d a b c 11 9 in
  let^ c := t_md4_hh x c d a b 7 11 in
  let^ b := t_md4_hh x b c d a 15 15 in
  tret (a, b, c, d).

(** [md4::hash], md4.rs:1-9. *)
Definition t_md4_hash : list N -> tr (list N) := t_md_hash t_md4_process.

(** [Block::ff], md5.rs:92-98. *)
Definition t_md5_ff (x : list N) (a b c d : N) (ksi : nat * N * nat) : tr N :=
  let '(k, s, i) := ksi in
  let^ xk := t_idx x k in
  let^ i1 := t_nsub i 1 in
  let^ t := t_idx MD5_T i1 in
  tret (wadd 32 (rotl 32 (wadd 32 (wadd 32 (wadd 32 a (md5_f b c d)) xk) t) s) b).

(** [Block::gg], md5.rs:100-106. *)
Definition t_md5_gg (x : list N) (a b c d : N) (ksi : nat * N * nat) : tr N :=
  let '(k, s, i) := ksi in
  let^ xk := t_idx x k in
  let^ i1 := t_nsub i 1 in
  let^ t := t_idx MD5_T i1 in
  tret (wadd 32 (rotl 32 (wadd 32 (wadd 32 (wadd 32 a (md5_g b c d)) xk) t) s) b).

(** [Block::hh], md5.rs:108-114. *)
Definition t_md5_hh (x : list N) (a b c d : N) (ksi : nat * N * nat) : tr N :=
  let '(k, s, i) := ksi in
  let^ xk := t_idx x k in
  let^ i1 := t_nsub i 1 in
  let^ t := t_idx MD5_T i1 in
  tret (wadd 32 (rotl 32 (wadd 32 (wadd 32 (wadd 32 a (md5_h b c d)) xk) t) s) b).

(** [Block::ii], md5.rs:116-122. *)
Definition t_md5_ii (x : list N) (a b c d : N) (ksi : nat * N * nat) : tr N :=
  let '(k, s, i) := ksi in
  let^ xk := t_idx x k in
  let^ i1 := t_nsub i 1 in
  let^ t := t_idx MD5_T i1 in
  tret (wadd 32 (rotl 32 (wadd 32 (wadd 32 (wadd 32 a (md5_i b c d)) xk) t) s) b).

(** [Block::process], md5.rs:124-174. *)
Definition t_md5_process : t_md_process := fun x a b c d =>
  let^ (a, b, c, d) := t_forM [
    [(0%nat, 7, 1%nat); (1%nat, 12, 2%nat); (2%nat, 17, 3%nat); (3%nat, 22, 4%nat)];
    [(4%nat, 7, 5%nat); (5%nat, 12, 6%nat); (6%nat, 17, 7%nat); (7%nat, 22, 8%nat)];
    [(8%nat, 7, 9%nat); (9%nat, 12, 10%nat); (10%nat, 17, 11%nat); (11%nat, 22, 12%nat)];
    [(12%nat, 7, 13%nat); (13%nat, 12, 14%nat); (14%nat, 17, 15%nat); (15%nat, 22, 16%nat)] ] (fun rows '(a, b, c, d) =>
    let^ r := t_idx rows 0 in
    let^ a := t_md5_ff x a b c d r in
    let^ r := t_idx rows 1 in
    let^ d := t_md5_ff x d a b c r in
    let^ r := t_idx rows 2 in
    let^ c := t_md5_ff x c d a b r in
    let^ r := t_idx rows 3 in
    let^ b := t_md5_ff x b c d a r in
    tret (a, b, c, d)) (a, b, c, d) in
  let^ (a, b, c, d) := t_forM [
    [(1%nat, 5, 17%nat); (6%nat, 9, 18%nat); (11%nat, 14, 19%nat); (0%nat, 20, 20%nat)];
    [(5%nat, 5, 21%nat); (10%nat, 9, 22%nat); (15%nat, 14, 23%nat); (4%nat, 20, 24%nat)];
    [(9%nat, 5, 25%nat); (14%nat, 9, 26%nat); (3%nat, 14, 27%nat); (8%nat, 20, 28%nat)];
    [(13%nat, 5, 29%nat); (2%nat, 9, 30%nat); (7%nat, 14, 31%nat); (12%nat, 20, 32%nat)] ] (fun rows '(a, b, c, d) =>
    let^ r := t_idx rows 0 in
    let^ a := t_md5_gg x a b c d r in
    let^ r := t_idx rows 1 in
    let^ d := t_md5_gg x d a b c r in
    let^ r := t_idx rows 2 in
    let^ c := t_md5_gg x c d a b r in
    let^ r := t_idx rows 3 in
    let^ b := t_md5_gg x b c d a r in
    tret (a, b, c, d)) (a, b, c, d) in
  let^ (a, b, c, d) := t_forM [
    [(5%nat, 4, 33%nat); (8%nat, 11, 34%nat); (11%nat, 16, 35%nat); (14%nat, 23, 36%nat)];
    [(1%nat, 4, 37%nat); (4%nat, 11, 38%nat); (7%nat, 16, 39%nat); (10%nat, 23, 40%nat)];
    [(13%nat, 4, 41%nat); (0%nat, 11, 42%nat); (3%nat, 16, 43%nat); (6%nat, 23, 44%nat)];
    [(9%nat, 4, 45%nat); (12%nat, 11, 46%nat); (15%nat, 16, 47%nat); (2%nat, 23, 48%nat)] ] (fun rows '(a, b, c, d) =>
    let^ r := t_idx rows 0 in
    let^ a := t_md5_hh x a b c d r in
    let^ r := t_idx rows 1 in
    let^ d := t_md5_hh x d a b c r in
    let^ r := t_idx rows 2 in
    let^ c := t_md5_hh x c d a b r in
    let^ r := t_idx rows 3 in
    let^ b := t_md5_hh x b c d a r in
    tret (a, b, c, d)) (a, b, c, d) in
  let^ (a, b, c, d) := t_forM [
    [(0%nat, 6, 49%nat); (7%nat, 10, 50%nat); (14%nat, 15, 51%nat); (5%nat, 21, 52%nat)];
    [(12%nat, 6, 53%nat); (3%nat, 10, 54%nat); (10%nat, 15, 55%nat); (1%nat, 21, 56%nat)];
    [(8%nat, 6, 57%nat); (15%nat, 10, 58%nat); (6%nat, 15, 59%nat); (13%nat, 21, 60%nat)];
    [(4%nat, 6, 61%nat); (11%nat, 10, 62%nat); (2%nat, 15, 63%nat); (9%nat, 21, 64%nat)] ] (fun rows '(a, b, c, d) =>
    let^ r := t_idx rows 0 in
    let^ a := t_md5_ii x a b c d r in
    let^ r := t_idx rows 1 in
    let^ d := t_md5_ii x d a b c r in
    let^ r := t_idx rows 2 in
    let^ c := t_md5_ii x c d a b r in
    let^ r := t_idx rows 3 in
    let^ b := t_md5_ii x b c d a r in
    tret (a, b, c, d)) (a, b, c, d) in
  tret (a, b, c, d).

(** [md5::hash], md5.rs:1-9. *)
Definition t_md5_hash : list N -> tr (list N) := t_md_hash t_md5_process.

(** ** src/rc/ *)

(** [RC2::expand_key], rc2.rs:48-71. [num_bits] is a [u16]. *)
Definition t_rc2_expand_key (key : list N) (num_bits : N) : tr (list N) :=
  let l := repeat 0 128 in
  let^ l := t_copy_range l 0 (length key) key in
  let t := length key in
  let t1 := num_bits in
  let t8 := (t1 + 7) / 8 in
  let tm := wshr 0xff (N.land (wneg 16 t1) 7) in
  let^ l := t_forM (range t 128) (fun i l =>
      let^ i1 := t_nsub i 1 in
      let^ a := t_idx l i1 in
      let^ it := t_nsub i t in
      let^ b := t_idx l it in
      let^ v := t_idx PITABLE (ix (wadd 8 a b)) in
      t_upd l i v) l in
  let^ s := t_csub 16 128 t8 in
  let^ a := t_idx l (ix s) in
  let^ v := t_idx PITABLE (ix (N.land a tm)) in
  let^ l := t_upd l (ix s) v in
  let^ l := t_forM (rev (range 0 (ix s))) (fun i l =>
      let^ a := t_idx l (i + 1) in
      let^ b := t_idx l (i + ix t8) in
      let^ v := t_idx PITABLE (ix (N.lxor a b)) in
      t_upd l i v) l in
  t_forM (range 0 64) (fun i k =>
      let^ a := t_idx l (i * 2) in
      let^ b := t_idx l (i * 2 + 1) in
      t_upd k i (from_le [a; b])) (repeat 0 64).

(** [RC2::mix], rc2.rs:97-105. *)
Definition t_rc2_mix (keys data : list N) : tr (list N) :=
  t_forM rc2_shifts (fun p data =>
      let (i, s) := p in
      let^ di := t_idx data i in
      let^ ki := t_idx keys i in
      let^ d3 := t_idx data ((i + 3) mod 4) in
      let^ d2 := t_idx data ((i + 2) mod 4) in
      let^ d1 := t_idx data ((i + 1) mod 4) in
      t_upd data i
        (rotl 16 (wadd 16 (wadd 16 (wadd 16 di ki) (N.land d3 d2))
                          (N.land (wnot 16 d3) d1)) s)) data.

(** [RC2::rmix], rc2.rs:107-114. *)
Definition t_rc2_rmix (keys data : list N) : tr (list N) :=
  t_forM (rev rc2_shifts) (fun p data =>
      let (i, s) := p in
      let^ di := t_idx data i in
      let^ ki := t_idx keys i in
      let^ d3 := t_idx data ((i + 3) mod 4) in
      let^ d2 := t_idx data ((i + 2) mod 4) in
      let^ d1 := t_idx data ((i + 1) mod 4) in
      t_upd data i
        (wsub 16 (wsub 16 (wsub 16 (rotr 16 di s) ki) (N.land d3 d2))
                 (N.land (wnot 16 d3) d1))) data.

(** [RC2::mash], rc2.rs:116-120. *)
Definition t_rc2_mash (key data : list N) : tr (list N) :=
  t_forM (range 0 4) (fun i data =>
      let^ di := t_idx data i in
      let^ d3 := t_idx data ((i + 3) mod 4) in
      let^ k := t_idx key (ix (N.land d3 63)) in
      t_upd data i (wadd 16 di k)) data.

(** [RC2::rmash], rc2.rs:122-126. *)
Definition t_rc2_rmash (key data : list N) : tr (list N) :=
  t_forM (rev (range 0 4)) (fun i data =>
      let^ di := t_idx data i in
      let^ d3 := t_idx data ((i + 3) mod 4) in
      let^ k := t_idx key (ix (N.land d3 63)) in
      t_upd data i (wsub 16 di k)) data.

(** [RC2::encrypt_block], rc2.rs:73-83. *)
Definition t_rc2_encrypt_block (key data : list N) : tr (list N) :=
  t_forM (range 0 16) (fun i data =>
      let^ keys := t_slice_from key (4 * i) in
      let^ data := t_rc2_mix keys data in
      if^ ((i =? 4) || (i =? 10))%nat%bool then t_rc2_mash key data else tret data) data.

(** [RC2::decrypt_block], rc2.rs:85-95. *)
Definition t_rc2_decrypt_block (key data : list N) : tr (list N) :=
  t_forM (rev (range 0 16)) (fun i data =>
      let^ data := if^ ((i =? 4) || (i =? 10))%nat%bool
                   then t_rc2_rmash key data else tret data in
      let^ keys := t_slice_from key (4 * i) in
      t_rc2_rmix keys data) data.

(** Bytes to words and back, the loops of rc2.rs:131-134, 136-139 (and
    144-147, 149-152). *)
Definition t_rc2_load (block : list N) : tr (list N) :=
  t_forM (range 0 4) (fun i data =>
      let^ a := t_idx block (2 * i) in
      let^ b := t_idx block (2 * i + 1) in
      t_upd data i (from_le [a; b])) (repeat 0 4).

Definition t_rc2_store (res' : list N) : tr (list N) :=
  t_forM (range 0 4) (fun i out =>
      let^ w := t_idx res' i in
      t_copy_range out (2 * i) (2 * i + 2) (to_le 2 w)) (repeat 0 8).

(** [<RC2 as BlockCipher<8>>::encrypt], rc2.rs:130-141. *)
Definition t_rc2_encrypt (key plaintext : list N) : tr (list N) :=
  let^ data := t_rc2_load plaintext in
  let^ r := t_rc2_encrypt_block key data in
  t_rc2_store r.

(** [<RC2 as BlockCipher<8>>::decrypt], rc2.rs:143-154. *)
Definition t_rc2_decrypt (key ciphertext : list N) : tr (list N) :=
  let^ data := t_rc2_load ciphertext in
  let^ r := t_rc2_decrypt_block key data in
  t_rc2_store r.

(** [KeyStream::new], rc4.rs:10-26. *)
Definition t_rc4_new (key_data : list N) : tr rc4 :=
  let^ state := t_forM (range 0 256) (fun i state =>
      t_upd state i (N.of_nat i)) (repeat 0 256) in
  let^ (state, _) := t_forM (range 0 256) (fun i '(state, j) =>
      let^ ki := match length key_data with
                 | O => tpanic PDivZero
                 | len => tret (i mod len)%nat
                 end in
      let^ k := t_idx key_data ki in
      let^ s := t_idx state i in
      let j := wadd 8 (wadd 8 k s) j in
      let^ state := t_swap state i (ix j) in
      tret (state, j)) (state, 0) in
  tret {| rc4_state := state; rc4_x := 0; rc4_y := 0 |}.

(** [KeyStream::next_key], rc4.rs:28-36. *)
Definition t_rc4_next_key (ks : rc4) : tr (N * rc4) :=
  let x := wadd 8 (rc4_x ks) 1 in
  let^ sx := t_idx (rc4_state ks) (ix x) in
  let y := wadd 8 sx (rc4_y ks) in
  let^ state := t_swap (rc4_state ks) (ix x) (ix y) in
  let^ sx := t_idx state (ix x) in
  let^ sy := t_idx state (ix y) in
  let xor_index := wadd 8 sx sy in
  let^ k := t_idx state (ix xor_index) in
  tret (k, {| rc4_state := state; rc4_x := x; rc4_y := y |}).

(** The key bytes as words, rc5.rs:19-25. *)
Definition t_rc5_key_words (key : list N) : tr (list N) :=
  let^ cs := t_chunks 4 key in
  t_forM cs (fun chunk l =>
      let^ word := t_copy_range (repeat 0 4) 0 (length chunk) chunk in
      tret (l ++ [from_le word])) [].

(** [RC5::expand_key], rc5.rs:18-54. [r] is a [u8]. *)
Definition t_rc5_expand_key (key : list N) (r : N) : tr (list N) :=
  let c := ((length key + 3) / 4)%nat in
  let^ l := t_rc5_key_words key in
  let t := (2 * (ix r + 1))%nat in
  let^ s := t_forM (range 1 t) (fun i s =>
      let^ i1 := t_nsub i 1 in
      let^ p := t_idx s i1 in
      tret (s ++ [wadd 32 p Q32])) [P32] in
  let^ (s, l, i, j, a, b) := t_forM (range 0 (3 * Nat.max t c))
    (fun _ '(s, l, i, j, a, b) =>
      let a_b := wadd 32 a b in
      let^ si := t_idx s i in
      let a := rotl 32 (wadd 32 si a_b) 3 in
      let^ s := t_upd s i a in
      let a_b := wadd 32 a b in
      let^ lj := t_idx l j in
      let b := rotl 32 (wadd 32 lj a_b) a_b in
      let^ l := t_upd l j b in
      let i := ((i + 1) mod t)%nat in
      let^ j := match c with
                | O => tpanic PDivZero
                | _ => tret ((j + 1) mod c)%nat
                end in
      tret (s, l, i, j, a, b)) (s, l, O, O, 0, 0) in
  tret s.

(** [RC5::new], rc5.rs:12-16. *)
Definition t_rc5_new (key : list N) (rounds : N) : tr rc5 :=
  if^ (length key <? 256)%nat then
    let^ s := t_rc5_expand_key key rounds in
    tret {| rc5_s := s; rc5_r := rounds |}
  else tpanic PAssert.

(** [RC5::encrypt_32], rc5.rs:56-67. *)
Definition t_rc5_encrypt_32 (c : rc5) (p : N * N) : tr (N * N) :=
  let (a, b) := p in
  let^ s0 := t_idx (rc5_s c) 0 in
  let a := wadd 32 a s0 in
  let^ s1 := t_idx (rc5_s c) 1 in
  let b := wadd 32 b s1 in
  t_forM (range 1 (ix (rc5_r c) + 1)) (fun i '(a, b) =>
      let^ s2 := t_idx (rc5_s c) (2 * i) in
      let a := wadd 32 (rotl 32 (N.lxor a b) b) s2 in
      let^ s3 := t_idx (rc5_s c) (2 * i + 1) in
      let b := wadd 32 (rotl 32 (N.lxor b a) a) s3 in
      tret (a, b)) (a, b).

(** [RC5::decrypt_32], rc5.rs:69-80. *)
Definition t_rc5_decrypt_32 (c : rc5) (p : N * N) : tr (N * N) :=
  let (a, b) := p in
  let^ (a, b) := t_forM (rev (range 1 (ix (rc5_r c) + 1))) (fun i '(a, b) =>
      let^ s3 := t_idx (rc5_s c) (2 * i + 1) in
      let b := N.lxor (rotr 32 (wsub 32 b s3) a) a in
      let^ s2 := t_idx (rc5_s c) (2 * i) in
      let a := N.lxor (rotr 32 (wsub 32 a s2) b) b in
      tret (a, b)) (a, b) in
  let^ s1 := t_idx (rc5_s c) 1 in
  let b := wsub 32 b s1 in
  let^ s0 := t_idx (rc5_s c) 0 in
  let a := wsub 32 a s0 in
  tret (a, b).

(** Loading and storing the two words, rc5.rs:85-86, 90-93 (and 97-98,
    102-105). *)
Definition t_rc5_load (block : list N) : tr (N * N) :=
  let^ x := t_slice_to block 4 in
  let^ x := t_to_array 4 x in
  let^ y := t_slice_from block 4 in
  let^ y := t_to_array 4 y in
  tret (from_le x, from_le y).

Definition t_rc5_store (p : N * N) : tr (list N) :=
  let (a, b) := p in
  let^ r := t_copy_range (repeat 0 8) 0 4 (to_le 4 a) in
  t_copy_range r 4 8 (to_le 4 b).

(** [<RC5 as BlockCipher<8>>::encrypt], rc5.rs:84-94. *)
Definition t_rc5_encrypt (c : rc5) (plaintext : list N) : tr (list N) :=
  let^ p := t_rc5_load plaintext in
  let^ p := t_rc5_encrypt_32 c p in
  t_rc5_store p.

(** [<RC5 as BlockCipher<8>>::decrypt], rc5.rs:96-106. *)
Definition t_rc5_decrypt (c : rc5) (ciphertext : list N) : tr (list N) :=
  let^ p := t_rc5_load ciphertext in
  let^ p := t_rc5_decrypt_32 c p in
  t_rc5_store p.

End Profile.
