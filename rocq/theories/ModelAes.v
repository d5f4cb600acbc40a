(** * Model of src/aes/: field.rs, sbox.rs, expander.rs, cipher.rs, mod.rs *)
From Verif Require Import Base ModelBlock.

Section Profile.
Context {P : profile}.

(** ** src/aes/field.rs *)

(** [AesField::mul2], field.rs:4-6. *)
Definition mul2 (n : N) : N :=
  N.lxor (wshl 8 n 1) (if negb (N.land n 0x80 =? 0) then 0x1b else 0).

(** [AesField::mul3], field.rs:8-10. *)
Definition mul3 (n : N) : N :=
  N.lxor (N.lxor n (wshl 8 n 1)) (if negb (N.land n 0x80 =? 0) then 0x1b else 0).

(** [AesField::div3], field.rs:12-18. *)
Definition div3 (n : N) : N :=
  let n := N.lxor n (wshl 8 n 1) in
  let n := N.lxor n (wshl 8 n 2) in
  let n := N.lxor n (wshl 8 n 4) in
  N.lxor n (if negb (N.land n 0x80 =? 0) then 0x09 else 0).

(** Loop of [AesField::mul], field.rs:20-40, [i] iterations left. *)
Fixpoint field_mul_loop (i : nat) (r a b : N) : N :=
  match i with
  | O => r
  | S i' =>
      let r := if negb (N.land b 1 =? 0) then N.lxor r a else r in
      let hi := negb (N.land a 0x80 =? 0) in
      let a := wshl 8 a 1 in
      let a := if hi then N.lxor a 0x1b else a in
      let b := wshr b 1 in
      field_mul_loop i' r a b
  end.
(** [AesField::mul], field.rs:20-40. *)
Definition field_mul (a b : N) : N := field_mul_loop 8 0 a b.

(** [AesFieldIterator::step], field.rs:63-77. *)
Definition iter_step (p q : N) : option ((N * N) * (N * N)) :=
  if p =? 0 then None
  else
    let np := mul3 p in
    let nq := div3 q in
    let np := if np =? 1 then 0 else np in
    Some ((p, q), (np, nq)).

(** All values yielded by [AesField.into_iter()], field.rs:43-92 ([start] is
    [(1, 1)]; [next] yields the pair and stores the new one). *)
Fixpoint iter_run (fuel : nat) (p q : N) : res (list (N * N)) :=
  match fuel with
  | O => Panic PFuel
  | S fuel' =>
      match iter_step p q with
      | None => Ok []
      | Some (item, (np, nq)) =>
          let* rest := iter_run fuel' np nq in Ok (item :: rest)
      end
  end.
Definition aes_field_items : res (list (N * N)) := iter_run 300 1 1.

(** ** src/aes/sbox.rs *)

(** [transform_affine], sbox.rs:34-36. *)
Definition transform_affine (b : N) : N :=
  N.lxor (N.lxor (N.lxor (N.lxor (N.lxor b (rotl 8 b 1)) (rotl 8 b 2))
    (rotl 8 b 3)) (rotl 8 b 4)) 0x63.

(** [struct Sbox], sbox.rs:5-8. *)
Record sbox := { forward : list N; backward : list N }.

(** The [while let] loop of [calculate_sbox], sbox.rs:19-26. *)
Fixpoint sbox_loop (fuel : nat) (p q : N) (sb inverse : list N)
    : res (list N * list N) :=
  match fuel with
  | O => Panic PFuel
  | S fuel' =>
      match iter_step p q with
      | None => Ok (sb, inverse)
      | Some ((n, inv), (np, nq)) =>
          let s := transform_affine inv in
          let* sb := upd sb (ix n) s in
          let* inverse := upd inverse (ix s) n in
          sbox_loop fuel' np nq sb inverse
      end
  end.

(** [calculate_sbox], sbox.rs:10-32. *)
Definition calculate_sbox : res sbox :=
  let sb := repeat 0 256 in
  let inverse := repeat 0 256 in
  let* sb := upd sb 0 0x63 in
  let* inverse := upd inverse (ix 0x63) 0 in
  let* (sb, inverse) := sbox_loop 300 1 1 sb inverse in
  Ok {| forward := sb; backward := inverse |}.

(** [const SBOX], sbox.rs:3. Evaluated by the compiler: a panic would be a
    compile error, modelled by empty tables (every lookup would panic). *)
Definition SBOX : sbox :=
  match calculate_sbox with
  | Ok s => s
  | Panic _ => {| forward := []; backward := [] |}
  end.

(** ** src/aes/expander.rs: a [Word] is a list of four bytes *)

(** [BitXor for Word], expander.rs:27-35. The array patterns always match for
    four-byte words; other lists are not [Word]s (modelled as a panic). *)
Definition word_xor (a b : list N) : res (list N) :=
  match a, b with
  | [a0; a1; a2; a3], [b0; b1; b2; b3] =>
      Ok [N.lxor a0 b0; N.lxor a1 b1; N.lxor a2 b2; N.lxor a3 b3]
  | _, _ => Panic PIndex
  end.

(** [calculate_round_constants::<L>], expander.rs:105-117. *)
Definition calculate_round_constants (L : nat) : res (list N) :=
  let* (result, _) := forM (range 1 L) (fun i '(result, n) =>
      let* result := upd result i n in
      Ok (result, mul2 n)) (repeat 0 L, 1) in
  Ok result.

(** [AesKeyExpander::new], expander.rs:43-54: the [rcon] field. *)
Definition expander_rcon : res (list (list N)) :=
  let* rc := calculate_round_constants 11 in
  forM (range 0 11) (fun i rcon =>
      let* c := idx rc i in
      upd rcon i [c; 0; 0; 0]) (repeat [0; 0; 0; 0] 11).

(** [rotate_word], expander.rs:119-121. *)
Definition rotate_word (w : list N) : res (list N) :=
  let* w1 := idx w 1 in
  let* w2 := idx w 2 in
  let* w3 := idx w 3 in
  let* w0 := idx w 0 in
  Ok [w1; w2; w3; w0].

(** [substitute_word], expander.rs:123-130; [self.sbox] is [SBOX]. *)
Definition substitute_word (w : list N) : res (list N) :=
  let* w0 := idx w 0 in let* s0 := idx (forward SBOX) (ix w0) in
  let* w1 := idx w 1 in let* s1 := idx (forward SBOX) (ix w1) in
  let* w2 := idx w 2 in let* s2 := idx (forward SBOX) (ix w2) in
  let* w3 := idx w 3 in let* s3 := idx (forward SBOX) (ix w3) in
  Ok [s0; s1; s2; s3].

(** [expand_key_using_words::<N>], expander.rs:83-103. [n] is [N]; it is only
    instantiated with 4, 6, 8, so [i % N] does not divide by zero. *)
Definition expand_key_using_words (n : nat) (rcon : list (list N))
    (key : list (list N)) (num_keys : nat) : res (list (list N)) :=
  forM (range 0 (4 * num_keys)) (fun i w =>
      let* v :=
        if (i <? n)%nat then idx key i
        else if (i mod n =? 0)%nat then
          let* i_n := nsub i n in
          let* wn := idx w i_n in
          let* i_1 := nsub i 1 in
          let* w1 := idx w i_1 in
          let* r := rotate_word w1 in
          let* s := substitute_word r in
          let* x := word_xor wn s in
          let* rc := idx rcon (i / n) in
          word_xor x rc
        else if ((6 <? n) && (i mod n =? 4))%nat%bool then
          let* i_n := nsub i n in
          let* wn := idx w i_n in
          let* i_1 := nsub i 1 in
          let* w1 := idx w i_1 in
          let* s := substitute_word w1 in
          word_xor wn s
        else
          let* i_n := nsub i n in
          let* wn := idx w i_n in
          let* i_1 := nsub i 1 in
          let* w1 := idx w i_1 in
          word_xor wn w1
      in
      Ok (w ++ [v])) [].

(** [expand_key::<K, W>], expander.rs:56-81. [nw] is [W]. *)
Definition expand_key (nw : nat) (key : list N) (num_keys : nat)
    : res (list (list N)) :=
  let* rcon := expander_rcon in
  let* (cs, _) := chunks_exact 4 key in
  let* key_words := mapM (to_array 4) cs in
  let* key_array := to_array nw key_words in
  let* result := expand_key_using_words nw rcon key_array num_keys in
  let* cs := chunks 4 result in
  forM cs (fun words expanded_keys =>
      let* block := forM (range 0 4) (fun wi block =>
          forM (range 0 4) (fun bi block =>
              let* w := idx words wi in
              let* b := idx w bi in
              upd block (wi * 4 + bi) b) block) (repeat 0 16) in
      Ok (expanded_keys ++ [block])) [].

(** ** src/aes/cipher.rs: a [State] is a list of sixteen bytes *)

(** [AddKey::forward] (and [backward]), cipher.rs:18-29. *)
Definition add_key (key state : list N) : res (list N) :=
  mapM (fun '(i, b) => let* k := idx key i in Ok (N.lxor b k)) (enumerate state).

(** [Substitute::forward], cipher.rs:34-38. *)
Definition substitute_forward (state : list N) : res (list N) :=
  mapM (fun b => idx (forward SBOX) (ix b)) state.
(** [Substitute::backward], cipher.rs:40-44. *)
Definition substitute_backward (state : list N) : res (list N) :=
  mapM (fun b => idx (backward SBOX) (ix b)) state.

(** [State::shift_row_one_step], cipher.rs:94-100. *)
Definition shift_row_one_step (row : nat) (state : list N) : res (list N) :=
  let* temp := idx state row in
  let* state := forM (range 0 3) (fun i state =>
      let* v := idx state (row + (i + 1) * 4) in
      upd state (row + i * 4) v) state in
  upd state (row + 3 * 4) temp.

(** [ShiftRows::forward], cipher.rs:50-59. *)
Definition shift_rows_forward (state : list N) : res (list N) :=
  forM [1%nat; 2%nat; 2%nat; 3%nat; 3%nat; 3%nat] shift_row_one_step state.
(** [ShiftRows::backward], cipher.rs:61-70. *)
Definition shift_rows_backward (state : list N) : res (list N) :=
  forM [1%nat; 1%nat; 1%nat; 2%nat; 2%nat; 3%nat] shift_row_one_step state.

Definition xor4 (a b c d : N) : N := N.lxor (N.lxor (N.lxor a b) c) d.

(** [mix_column], cipher.rs:103-115. Takes the slice, returns its new content. *)
Definition mix_column (col : list N) : res (list N) :=
  let* c0 := idx col 0 in let* c1 := idx col 1 in
  let* c2 := idx col 2 in let* c3 := idx col 3 in
  let d0 := xor4 (mul2 c0) (mul3 c1) c2 c3 in
  let d1 := xor4 (mul2 c1) (mul3 c2) c3 c0 in
  let d2 := xor4 (mul2 c2) (mul3 c3) c0 c1 in
  let d3 := xor4 (mul2 c3) (mul3 c0) c1 c2 in
  let* col := upd col 0 d0 in let* col := upd col 1 d1 in
  let* col := upd col 2 d2 in upd col 3 d3.

(** [unmix_column], cipher.rs:117-129. *)
Definition unmix_column (col : list N) : res (list N) :=
  let* c0 := idx col 0 in let* c1 := idx col 1 in
  let* c2 := idx col 2 in let* c3 := idx col 3 in
  let F := field_mul in
  let d0 := xor4 (F c0 14) (F c1 11) (F c2 13) (F c3 9) in
  let d1 := xor4 (F c1 14) (F c2 11) (F c3 13) (F c0 9) in
  let d2 := xor4 (F c2 14) (F c3 11) (F c0 13) (F c1 9) in
  let d3 := xor4 (F c3 14) (F c0 11) (F c1 13) (F c2 9) in
  let* col := upd col 0 d0 in let* col := upd col 1 d1 in
  let* col := upd col 2 d2 in upd col 3 d3.

(** A loop [for c in 0..4 { f(&mut state.0[4c..4c+4]) }], cipher.rs:77-81 and
    85-89. *)
Definition for_columns (f : list N -> res (list N)) (state : list N) : res (list N) :=
  forM (range 0 4) (fun c state =>
      let i1 := (c * 4)%nat in
      let i2 := (c * 4 + 4)%nat in
      let* col := slice state i1 i2 in
      let* col := f col in
      copy_range state i1 i2 col) state.

(** [MixColumns::forward], cipher.rs:76-82. *)
Definition mix_columns_forward := for_columns mix_column.
(** [MixColumns::backward], cipher.rs:84-90. *)
Definition mix_columns_backward := for_columns unmix_column.

(** [struct Aes], cipher.rs:131-134. *)
Record aes := { aes_keys : list (list N); aes_rounds : nat }.

(** [Aes::with_128_bit_key], cipher.rs:137-142. *)
Definition with_128_bit_key (key : list N) : res aes :=
  let* keys := expand_key 4 key 11 in
  Ok {| aes_keys := keys; aes_rounds := 10 |}.
(** [Aes::with_192_bit_key], cipher.rs:144-149. *)
Definition with_192_bit_key (key : list N) : res aes :=
  let* keys := expand_key 6 key 13 in
  Ok {| aes_keys := keys; aes_rounds := 12 |}.
(** [Aes::with_256_bit_key], cipher.rs:151-156. *)
Definition with_256_bit_key (key : list N) : res aes :=
  let* keys := expand_key 8 key 15 in
  Ok {| aes_keys := keys; aes_rounds := 14 |}.

(** [Aes::encrypt], cipher.rs:160-178. *)
Definition aes_encrypt (c : aes) (plaintext : list N) : res (list N) :=
  let state := plaintext in
  let* k0 := idx (aes_keys c) 0 in
  let* state := add_key k0 state in
  let* state := forM (range 1 (aes_rounds c)) (fun k state =>
      let* state := substitute_forward state in
      let* state := shift_rows_forward state in
      let* state := mix_columns_forward state in
      let* kk := idx (aes_keys c) k in
      add_key kk state) state in
  let* state := substitute_forward state in
  let* state := shift_rows_forward state in
  let* kr := idx (aes_keys c) (aes_rounds c) in
  add_key kr state.

(** [Aes::decrypt], cipher.rs:180-198. *)
Definition aes_decrypt (c : aes) (ciphertext : list N) : res (list N) :=
  let state := ciphertext in
  let* kr := idx (aes_keys c) (aes_rounds c) in
  let* state := add_key kr state in
  let* state := shift_rows_backward state in
  let* state := substitute_backward state in
  let* state := forM (rev (range 1 (aes_rounds c))) (fun k state =>
      let* kk := idx (aes_keys c) k in
      let* state := add_key kk state in
      let* state := mix_columns_backward state in
      let* state := shift_rows_backward state in
      substitute_backward state) state in
  let* k0 := idx (aes_keys c) 0 in
  add_key k0 state.

(** [impl BlockCipher<16> for Aes], cipher.rs:159-199. *)
Definition aes_cipher (c : aes) : block_cipher :=
  {| bc_encrypt := aes_encrypt c; bc_decrypt := aes_decrypt c |}.

(** ** src/aes/mod.rs *)

(** [copy_u64s::<V, N>], mod.rs:50-56. *)
Definition copy_u64s (n : nat) (values : list N) : res (list N) :=
  forM (enumerate values) (fun '(i, v) key =>
      (* key[(8 * i)..][..8].copy_from_slice(..) *)
      copy_range key (8 * i) (8 * i + 8) (to_be 8 v)) (repeat 0 n).

(** [Key128::from([u64; 2])] then [Aes::from], mod.rs:14-18, 32-36. *)
Definition aes_from_key128 (values : list N) : res aes :=
  let* key := copy_u64s 16 values in with_128_bit_key key.
(** [Key192::from([u64; 3])] then [Aes::from], mod.rs:20-24, 38-42. *)
Definition aes_from_key192 (values : list N) : res aes :=
  let* key := copy_u64s 24 values in with_192_bit_key key.
(** [Key256::from([u64; 4])] then [Aes::from], mod.rs:26-30, 44-48. *)
Definition aes_from_key256 (values : list N) : res aes :=
  let* key := copy_u64s 32 values in with_256_bit_key key.

(** The three constructors under one name, by the number [nk] of 32-bit words of
    the key (cipher.rs:137-156); only used to state theorems once for all three. *)
Definition aes_make (nk : nat) (key : list N) : res aes :=
  match nk with
  | 4%nat => with_128_bit_key key
  | 6%nat => with_192_bit_key key
  | 8%nat => with_256_bit_key key
  | _ => Panic PExplicit
  end.

(** Likewise [Key*::from] followed by [Aes::from] (mod.rs:14-48). *)
Definition aes_from_u64s (nk : nat) (values : list N) : res aes :=
  match nk with
  | 4%nat => aes_from_key128 values
  | 6%nat => aes_from_key192 values
  | 8%nat => aes_from_key256 values
  | _ => Panic PExplicit
  end.

End Profile.
