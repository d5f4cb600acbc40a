(** * Model of src/rc/: rc2.rs, rc4.rs, rc5.rs *)
From Verif Require Import Base ModelBlock.

Section Profile.
Context {P : profile}.

(** ** src/rc/rc2.rs *)

(** [rows], rc2.rs:4-21. *)
Definition rc2_rows : list N := [
  0xd978f9c419ddb5ed28e9fd794aa0d89d;
  0xc67e37832b76538e624c6488448bfba2;
  0x179a59f587b34f1361456d8d09817d32;
  0xbd8f40eb86b77b0bf09521225c6b4e82;
  0x54d66593ce60b21c7356c014a78cf1dc;
  0x1275ca1f3bbee4d1423dd430a33cb626;
  0x6fbf0eda4669075727f21d9bbc944303;
  0xf811c7f690ef3ee706c3d52fc8661ed7;
  0x08e8eade8052eef784aa72ac354d6a2a;
  0x961ad2715a1549744b9fd05e0418a4ec;
  0xc2e0416e0f51cbcc2491af50a1f47039;
  0x997c3a8523b8b47afc02365b25559731;
  0x2d5dfa98e38a92ae05df2910676cbac9;
  0xd300e6cfe19ea82c6316013f58e289a9;
  0x0d38341bab33ffb0bb480c5fb9b1cd2e;
  0xc5f3db47e5a59c770aa62068fe7fc1ad ].

(** The constant expression of [PITABLE], rc2.rs:1-35. *)
Definition calculate_pitable : res (list N) :=
  forM (range 0 16) (fun i arr =>
      let* r := idx rc2_rows i in
      let row := to_be 16 r in
      forM (range 0 16) (fun j arr =>
          let* v := idx row j in
          upd arr (i * 16 + j) v) arr) (repeat 0 256).

(** [const PITABLE], rc2.rs:1: evaluated by the compiler, a panic would be a
    compile error (modelled by the empty table). *)
Definition PITABLE : list N :=
  match calculate_pitable with Ok t => t | Panic _ => [] end.

(** [RC2::expand_key], rc2.rs:48-71. [num_bits] is a [u16]. *)
Definition rc2_expand_key (key : list N) (num_bits : N) : res (list N) :=
  let l := repeat 0 128 in
  let* l := copy_range l 0 (length key) key in
  let t := length key in
  let t1 := num_bits in
  let t8 := (t1 + 7) / 8 in
  let tm := wshr 0xff (N.land (wneg 16 t1) 7) in
  let* l := forM (range t 128) (fun i l =>
      let* i1 := nsub i 1 in
      let* a := idx l i1 in
      let* it := nsub i t in
      let* b := idx l it in
      let* v := idx PITABLE (ix (wadd 8 a b)) in
      upd l i v) l in
  let* s := csub 16 128 t8 in
  let* a := idx l (ix s) in
  let* v := idx PITABLE (ix (N.land a tm)) in
  let* l := upd l (ix s) v in
  let* l := forM (rev (range 0 (ix s))) (fun i l =>
      let* a := idx l (i + 1) in
      let* b := idx l (i + ix t8) in
      let* v := idx PITABLE (ix (N.lxor a b)) in
      upd l i v) l in
  forM (range 0 64) (fun i k =>
      let* a := idx l (i * 2) in
      let* b := idx l (i * 2 + 1) in
      upd k i (from_le [a; b])) (repeat 0 64).

(** [struct RC2] and [RC2::from_key], rc2.rs:37-46: the expanded key. *)
Definition rc2_from_key (key : list N) (num_bits : N) : res (list N) :=
  rc2_expand_key key num_bits.

(** [[1, 2, 3, 5].into_iter().enumerate()], rc2.rs:98 and 108. *)
Definition rc2_shifts : list (nat * N) := enumerate [1; 2; 3; 5].

(** [RC2::mix], rc2.rs:97-105. *)
Definition rc2_mix (keys data : list N) : res (list N) :=
  forM rc2_shifts (fun p data =>
      let (i, s) := p in
      let* di := idx data i in
      let* ki := idx keys i in
      let* d3 := idx data ((i + 3) mod 4) in
      let* d2 := idx data ((i + 2) mod 4) in
      let* d1 := idx data ((i + 1) mod 4) in
      upd data i
        (rotl 16 (wadd 16 (wadd 16 (wadd 16 di ki) (N.land d3 d2))
                          (N.land (wnot 16 d3) d1)) s)) data.

(** [RC2::rmix], rc2.rs:107-114. *)
Definition rc2_rmix (keys data : list N) : res (list N) :=
  forM (rev rc2_shifts) (fun p data =>
      let (i, s) := p in
      let* di := idx data i in
      let* ki := idx keys i in
      let* d3 := idx data ((i + 3) mod 4) in
      let* d2 := idx data ((i + 2) mod 4) in
      let* d1 := idx data ((i + 1) mod 4) in
      upd data i
        (wsub 16 (wsub 16 (wsub 16 (rotr 16 di s) ki) (N.land d3 d2))
                 (N.land (wnot 16 d3) d1))) data.

(** [RC2::mash], rc2.rs:116-120. *)
Definition rc2_mash (key data : list N) : res (list N) :=
  forM (range 0 4) (fun i data =>
      let* di := idx data i in
      let* d3 := idx data ((i + 3) mod 4) in
      let* k := idx key (ix (N.land d3 63)) in
      upd data i (wadd 16 di k)) data.

(** [RC2::rmash], rc2.rs:122-126. *)
Definition rc2_rmash (key data : list N) : res (list N) :=
  forM (rev (range 0 4)) (fun i data =>
      let* di := idx data i in
      let* d3 := idx data ((i + 3) mod 4) in
      let* k := idx key (ix (N.land d3 63)) in
      upd data i (wsub 16 di k)) data.

(** [RC2::encrypt_block], rc2.rs:73-83. *)
Definition rc2_encrypt_block (key data : list N) : res (list N) :=
  forM (range 0 16) (fun i data =>
      let* keys := slice_from key (4 * i) in
      let* data := rc2_mix keys data in
      if ((i =? 4) || (i =? 10))%nat%bool then rc2_mash key data else Ok data) data.

(** [RC2::decrypt_block], rc2.rs:85-95. *)
Definition rc2_decrypt_block (key data : list N) : res (list N) :=
  forM (rev (range 0 16)) (fun i data =>
      let* data := if ((i =? 4) || (i =? 10))%nat%bool
                   then rc2_rmash key data else Ok data in
      let* keys := slice_from key (4 * i) in
      rc2_rmix keys data) data.

(** Bytes to words and back, the loops of rc2.rs:131-134, 136-139 (and
    144-147, 149-152). *)
Definition rc2_load (block : list N) : res (list N) :=
  forM (range 0 4) (fun i data =>
      let* a := idx block (2 * i) in
      let* b := idx block (2 * i + 1) in
      upd data i (from_le [a; b])) (repeat 0 4).
Definition rc2_store (res' : list N) : res (list N) :=
  forM (range 0 4) (fun i out =>
      let* w := idx res' i in
      copy_range out (2 * i) (2 * i + 2) (to_le 2 w)) (repeat 0 8).

(** [<RC2 as BlockCipher<8>>::encrypt], rc2.rs:130-141. *)
Definition rc2_encrypt (key plaintext : list N) : res (list N) :=
  let* data := rc2_load plaintext in
  let* r := rc2_encrypt_block key data in
  rc2_store r.

(** [<RC2 as BlockCipher<8>>::decrypt], rc2.rs:143-154. *)
Definition rc2_decrypt (key ciphertext : list N) : res (list N) :=
  let* data := rc2_load ciphertext in
  let* r := rc2_decrypt_block key data in
  rc2_store r.

(** [impl BlockCipher<8> for RC2], rc2.rs:129-155. *)
Definition rc2_cipher (key : list N) : block_cipher :=
  {| bc_encrypt := rc2_encrypt key; bc_decrypt := rc2_decrypt key |}.

(** ** src/rc/rc4.rs *)

(** [struct KeyStream], rc4.rs:3-7. *)
Record rc4 := { rc4_state : list N; rc4_x : N; rc4_y : N }.

(** [KeyStream::new], rc4.rs:10-26. *)
Definition rc4_new (key_data : list N) : res rc4 :=
  let* state := forM (range 0 256) (fun i state =>
      upd state i (N.of_nat i)) (repeat 0 256) in
  let* (state, _) := forM (range 0 256) (fun i '(state, j) =>
      let* ki := match length key_data with
                 | O => Panic PDivZero
                 | len => Ok (i mod len)%nat
                 end in
      let* k := idx key_data ki in
      let* s := idx state i in
      let j := wadd 8 (wadd 8 k s) j in
      let* state := swap state i (ix j) in
      Ok (state, j)) (state, 0) in
  Ok {| rc4_state := state; rc4_x := 0; rc4_y := 0 |}.

(** [KeyStream::next_key], rc4.rs:28-36. *)
Definition rc4_next_key (ks : rc4) : res (N * rc4) :=
  let x := wadd 8 (rc4_x ks) 1 in
  let* sx := idx (rc4_state ks) (ix x) in
  let y := wadd 8 sx (rc4_y ks) in
  let* state := swap (rc4_state ks) (ix x) (ix y) in
  let* sx := idx state (ix x) in
  let* sy := idx state (ix y) in
  let xor_index := wadd 8 sx sy in
  let* k := idx state (ix xor_index) in
  Ok (k, {| rc4_state := state; rc4_x := x; rc4_y := y |}).

(** [<KeyStream as Iterator>::next], rc4.rs:49-55. *)
Definition rc4_next : key_iter rc4 := fun ks =>
  let* (k, ks) := rc4_next_key ks in Ok (Some k, ks).

(** [KeyStream::encrypt], rc4.rs:38-42. *)
Definition rc4_encrypt (ks : rc4) (plaintext : list N) : res (list N) :=
  let* (bs, _) := sc_encrypt rc4_next ks plaintext in Ok bs.

(** [KeyStream::decrypt], rc4.rs:44-46. *)
Definition rc4_decrypt (ks : rc4) (ciphertext : list N) : res (list N) :=
  rc4_encrypt ks ciphertext.

(** ** src/rc/rc5.rs *)

(** rc5.rs:3-4. *)
Definition P32 : N := 0xb7e15163.
Definition Q32 : N := 0x9e3779b9.

(** [struct RC5], rc5.rs:6-9. *)
Record rc5 := { rc5_s : list N; rc5_r : N }.

(** The key bytes as words, rc5.rs:19-25. *)
Definition rc5_key_words (key : list N) : res (list N) :=
  let* cs := chunks 4 key in
  forM cs (fun chunk l =>
      let* word := copy_range (repeat 0 4) 0 (length chunk) chunk in
      Ok (l ++ [from_le word])) [].

(** [RC5::expand_key], rc5.rs:18-54. [r] is a [u8]. *)
Definition rc5_expand_key (key : list N) (r : N) : res (list N) :=
  let c := ((length key + 3) / 4)%nat in
  let* l := rc5_key_words key in
  let t := (2 * (ix r + 1))%nat in
  let* s := forM (range 1 t) (fun i s =>
      let* i1 := nsub i 1 in
      let* p := idx s i1 in
      Ok (s ++ [wadd 32 p Q32])) [P32] in
  let* (s, l, i, j, a, b) := forM (range 0 (3 * Nat.max t c))
    (fun _ '(s, l, i, j, a, b) =>
      let a_b := wadd 32 a b in
      let* si := idx s i in
      let a := rotl 32 (wadd 32 si a_b) 3 in
      let* s := upd s i a in
      let a_b := wadd 32 a b in
      let* lj := idx l j in
      let b := rotl 32 (wadd 32 lj a_b) a_b in
      let* l := upd l j b in
      let i := ((i + 1) mod t)%nat in
      let* j := match c with
                | O => Panic PDivZero
                | _ => Ok ((j + 1) mod c)%nat
                end in
      Ok (s, l, i, j, a, b)) (s, l, O, O, 0, 0) in
  Ok s.

(** [RC5::new], rc5.rs:12-16. *)
Definition rc5_new (key : list N) (rounds : N) : res rc5 :=
  if (length key <? 256)%nat then
    let* s := rc5_expand_key key rounds in
    Ok {| rc5_s := s; rc5_r := rounds |}
  else Panic PAssert.

(** [RC5::encrypt_32], rc5.rs:56-67. *)
Definition rc5_encrypt_32 (c : rc5) (p : N * N) : res (N * N) :=
  let (a, b) := p in
  let* s0 := idx (rc5_s c) 0 in
  let a := wadd 32 a s0 in
  let* s1 := idx (rc5_s c) 1 in
  let b := wadd 32 b s1 in
  forM (range 1 (ix (rc5_r c) + 1)) (fun i '(a, b) =>
      let* s2 := idx (rc5_s c) (2 * i) in
      let a := wadd 32 (rotl 32 (N.lxor a b) b) s2 in
      let* s3 := idx (rc5_s c) (2 * i + 1) in
      let b := wadd 32 (rotl 32 (N.lxor b a) a) s3 in
      Ok (a, b)) (a, b).

(** [RC5::decrypt_32], rc5.rs:69-80. *)
Definition rc5_decrypt_32 (c : rc5) (p : N * N) : res (N * N) :=
  let (a, b) := p in
  let* (a, b) := forM (rev (range 1 (ix (rc5_r c) + 1))) (fun i '(a, b) =>
      let* s3 := idx (rc5_s c) (2 * i + 1) in
      let b := N.lxor (rotr 32 (wsub 32 b s3) a) a in
      let* s2 := idx (rc5_s c) (2 * i) in
      let a := N.lxor (rotr 32 (wsub 32 a s2) b) b in
      Ok (a, b)) (a, b) in
  let* s1 := idx (rc5_s c) 1 in
  let b := wsub 32 b s1 in
  let* s0 := idx (rc5_s c) 0 in
  let a := wsub 32 a s0 in
  Ok (a, b).

(** Loading and storing the two words, rc5.rs:85-86, 90-93 (and 97-98,
    102-105). *)
Definition rc5_load (block : list N) : res (N * N) :=
  let* x := slice_to block 4 in
  let* x := to_array 4 x in
  let* y := slice_from block 4 in
  let* y := to_array 4 y in
  Ok (from_le x, from_le y).
Definition rc5_store (p : N * N) : res (list N) :=
  let (a, b) := p in
  let* r := copy_range (repeat 0 8) 0 4 (to_le 4 a) in
  copy_range r 4 8 (to_le 4 b).

(** [<RC5 as BlockCipher<8>>::encrypt], rc5.rs:84-94. *)
Definition rc5_encrypt (c : rc5) (plaintext : list N) : res (list N) :=
  let* p := rc5_load plaintext in
  let* p := rc5_encrypt_32 c p in
  rc5_store p.

(** [<RC5 as BlockCipher<8>>::decrypt], rc5.rs:96-106. *)
Definition rc5_decrypt (c : rc5) (ciphertext : list N) : res (list N) :=
  let* p := rc5_load ciphertext in
  let* p := rc5_decrypt_32 c p in
  rc5_store p.

(** [impl BlockCipher<8> for RC5], rc5.rs:83-107. *)
Definition rc5_cipher (c : rc5) : block_cipher :=
  {| bc_encrypt := rc5_encrypt c; bc_decrypt := rc5_decrypt c |}.

End Profile.
