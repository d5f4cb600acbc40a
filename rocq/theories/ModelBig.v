(** * Model of src/big/uint.rs

    A [BigUint] is its field [bytes]: little-endian, a list of bytes. Bit
    indices and counts are [u32], kept as [N].

    [Vec::with_capacity(k)] is only specified to give a capacity of at least
    [k], and [SubAssign] reads the capacity back: the definitions that reach it
    take the capacity as a function argument [capf], and the theorems are about
    every [capf] with [k <= capf k]. *)
From Verif Require Import Base.

Section Profile.
Context {P : profile}.

(** The [while]-[pop] loop of [from_le_bytes] (uint.rs:27-32) and of
    [trim_trailing_zeroes] (uint.rs:73-77); the length is enough fuel since
    each iteration pops one byte. *)
Fixpoint trim_loop (fuel : nat) (bytes : list N) : list N :=
  match fuel with
  | O => bytes
  | S fuel' =>
      match last_opt bytes with
      | Some b => if b =? 0 then trim_loop fuel' (removelast bytes) else bytes
      | None => bytes
      end
  end.
Definition trim_trailing_zeroes (bytes : list N) : list N :=
  trim_loop (length bytes) bytes.

(** [BigUint::from_u128], uint.rs:37-47. *)
Definition big_from_u128 (value : N) : res (list N) :=
  if value =? 0 then Ok []
  else
    let bytes := to_le 16 value in
    let* p := unwrap (rposition (fun n => negb (n =? 0)) bytes) in
    let num_bytes := (p + 1)%nat in
    slice_to bytes num_bytes.

(** [BigUint::from_be_bytes], uint.rs:12-22. *)
Definition big_from_be_bytes (bytes : list N) : res (list N) :=
  match position (fun n => negb (n =? 0)) bytes with
  | None => big_from_u128 0
  | Some num_leading_zeros =>
      let* bytes := slice_from bytes num_leading_zeros in
      Ok (rev bytes)
  end.

(** [BigUint::from_le_bytes], uint.rs:24-35. *)
Definition big_from_le_bytes (bytes : list N) : list N :=
  trim_trailing_zeroes bytes.

(** [BigUint::as_u128], uint.rs:49-59. The error carries the length that the
    message mentions. *)
Definition big_as_u128 (a : list N) : res (result N nat) :=
  if (16 <? length a)%nat then Ok (RErr (length a))
  else
    let* bytes := copy_range (repeat 0 16) 0 (length a) a in
    Ok (ROk (from_le bytes)).

(** [u8::ilog2]: panics on zero. *)
Definition ilog2_u8 (b : N) : res N :=
  if b =? 0 then Panic PExplicit else Ok (N.log2 b).

(** [BigUint::bits_used], uint.rs:61-71. *)
Definition bits_used (a : list N) : res N :=
  match a with
  | [] => Ok 0
  | _ =>
      let* last_idx := nsub (length a) 1 in
      let* k := cmul 32 (N.of_nat last_idx mod 2 ^ 32) 8 in
      let* bits := cadd 32 0 k in
      let* b := idx a last_idx in
      let* lg := ilog2_u8 b in
      let* lg := cadd 32 lg 1 in
      cadd 32 bits lg
  end.

(** [BigUint::is_set], uint.rs:79-92. *)
Definition is_set (a : list N) (i : N) : res bool :=
  let* bits := bits_used a in
  if bits <=? i then Ok false
  else match a with
  | [] => Ok false
  | _ =>
      let byte_idx := ix (i / 8) in
      if (length a <=? byte_idx)%nat then Ok false
      else
        let bit_idx := i mod 8 in
        let* b := idx a byte_idx in
        Ok (negb (N.land (wshr b bit_idx) 1 =? 0))
  end.

(** [BigUint::update], uint.rs:95-109. *)
Definition update (a : list N) (i : N) (set : bool) : res (list N) :=
  match a with
  | [] => Panic PExplicit
  | _ =>
      let byte_idx := ix (i / 8) in
      if (length a <=? byte_idx)%nat then Panic PExplicit
      else
        let bit_idx := i mod 8 in
        let* b := idx a byte_idx in
        if set then upd a byte_idx (N.lor b (wshl 8 1 bit_idx))
        else upd a byte_idx (N.land b (wnot 8 (wshl 8 1 bit_idx)))
  end.

(** [BigUint::to_be_bytes], uint.rs:111-113. *)
Definition big_to_be_bytes (a : list N) : list N := rev a.

(** The loop of [AddAssign<u8>], uint.rs:128-135 ([break] when the carry is 0).
    [sum] is a [u16]; [carry + *b] cannot exceed 510. *)
Fixpoint add_u8_loop (carry : N) (bs : list N) : res (list N) :=
  match bs with
  | [] => Ok []
  | b :: bs' =>
      if carry =? 0 then Ok bs
      else
        let* sum := cadd 16 carry b in
        let b := N.land sum 0xff mod 256 in
        let carry := N.land (wshr sum 8) 0xff in
        let* bs' := add_u8_loop carry bs' in
        Ok (b :: bs')
  end.

(** [AddAssign<u8>::add_assign], uint.rs:123-138. *)
Definition add_assign_u8 (a : list N) (rhs : N) : res (list N) :=
  let bytes := a ++ [0] in
  let carry := rhs in
  let* bytes := add_u8_loop carry bytes in
  Ok (trim_trailing_zeroes bytes).

(** [AddAssign<&BigUint>::add_assign], uint.rs:142-168. The first [while] pushes
    [r.len() - l.len()] zeroes. *)
Definition add_assign (a rhs : list N) : res (list N) :=
  let bytes := a ++ repeat 0 (length rhs - length a) in
  let l := bytes ++ [0] in
  let r := rhs in
  let l_len := length l in
  let r_len := length r in
  let* top := nsub l_len 1 in
  let* (l, carry) := forM (range 0 top) (fun i '(l, carry) =>
      let sum := carry in
      let* li := idx l i in
      let* sum := cadd 16 sum li in
      let* sum := if (i <? r_len)%nat
                  then let* ri := idx r i in cadd 16 sum ri
                  else Ok sum in
      let* l := upd l i (N.land sum 0xff mod 256) in
      let carry := N.land (wshr sum 8) 0xff in
      Ok (l, carry)) (l, 0) in
  let* l := upd l top (carry mod 256) in
  Ok (trim_trailing_zeroes l).

(** The loop of [Ord::cmp], uint.rs:175-183, over the remaining indices. *)
Fixpoint cmp_loop (a b : list N) (is : list nat) : res comparison :=
  match is with
  | [] => Ok Eq
  | i :: is' =>
      let* x := is_set a (N.of_nat i) in
      let* y := is_set b (N.of_nat i) in
      if (x && negb y)%bool then Ok Gt
      else if (negb x && y)%bool then Ok Lt
      else cmp_loop a b is'
  end.

(** [Ord::cmp] (and [partial_cmp]), uint.rs:172-195. *)
Definition big_cmp (a b : list N) : res comparison :=
  let* ba := bits_used a in
  let* bb := bits_used b in
  match ba ?= bb with
  | Eq => cmp_loop a b (rev (range 0 (ix ba)))
  | ord => Ok ord
  end.
(** [a <= b] and [a < b] through [PartialOrd]. *)
Definition big_le (a b : list N) : res bool :=
  let* c := big_cmp a b in
  Ok (match c with Gt => false | _ => true end).
Definition big_lt (a b : list N) : res bool :=
  let* c := big_cmp a b in
  Ok (match c with Lt => true | _ => false end).

(** [SubAssign<&BigUint>::sub_assign], uint.rs:198-221, for a vector whose
    capacity is [cap]. *)
Definition sub_assign_cap (cap : nat) (a rhs : list N) : res (list N) :=
  let* curr_bits_used := bits_used a in
  let* offset := nsub cap (length rhs) in
  let inv := map (wnot 8) rhs ++ repeat (wnot 8 0) offset in
  let inv := trim_trailing_zeroes inv in
  let* s := add_assign_u8 a 1 in
  let* s := add_assign s inv in
  let* bits := bits_used s in
  let* s := forM (range (ix curr_bits_used) (ix bits)) (fun i s =>
      update s (N.of_nat i) false) s in
  Ok (trim_trailing_zeroes s).
(** The same with [Vec::with_capacity(self.bytes.len() + 1)], uint.rs:202. *)
Definition sub_assign (capf : nat -> nat) (a rhs : list N) : res (list N) :=
  sub_assign_cap (capf (length a + 1)%nat) a rhs.

(** [Sub<&BigUint>::sub], uint.rs:227-231. *)
Definition big_sub (capf : nat -> nat) (a rhs : list N) : res (list N) :=
  sub_assign capf a rhs.

(** The loop of [ShlAssign<u32>], uint.rs:263-267, for [1 <= rhs <= 7]. *)
Fixpoint shl_loop (rhs carry : N) (bs : list N) : list N :=
  match bs with
  | [] => []
  | b :: bs' =>
      let r := N.lor carry (wshl 8 b rhs) in
      let carry := wshr b (8 - rhs) in
      r :: shl_loop rhs carry bs'
  end.

(** [ShlAssign<u32>::shl_assign], uint.rs:255-276. *)
Definition shl_assign (a : list N) (rhs : N) : list N :=
  let steps := rhs / 8 in
  let rhs := rhs - steps * 8 in
  let a := if 0 <? rhs
           then trim_trailing_zeroes (shl_loop rhs 0 (a ++ [0]))
           else a in
  if 0 <? steps then repeat 0 (ix steps) ++ a else a.

(** [ShrAssign<u32>::shr_assign], uint.rs:280-298. [splice(0..steps, [])]
    panics when [steps] exceeds the length. *)
Definition shr_assign (a : list N) (rhs : N) : res (list N) :=
  let* (a, rhs) :=
    if 8 <=? rhs then
      let steps := rhs / 8 in
      let* a := slice_from a (ix steps) in
      Ok (a, rhs - steps * 8)
    else Ok (a, rhs) in
  if 0 <? rhs then
    let* (a, _) := forM (rev (range 0 (length a))) (fun i '(a, carry) =>
        let* b := idx a i in
        let r := N.lor carry (wshr b rhs) in
        let carry := wshl 8 b (8 - rhs) in
        let* a := upd a i r in
        Ok (a, carry)) (a, 0) in
    Ok (trim_trailing_zeroes a)
  else Ok a.

(** [RemAssign<&BigUint>::rem_assign], uint.rs:235-251. *)
Definition rem_assign (capf : nat -> nat) (a rhs : list N) : res (list N) :=
  let* rb := bits_used rhs in
  let* ab := bits_used a in
  if ab <? rb then Ok a
  else
    let* d := csub 32 ab rb in
    let m := shl_assign rhs d in
    let* (a, _) := forM (rev (range 0 (ix d + 1))) (fun _ '(a, m) =>
        let* le := big_le m a in
        let* a := if le then sub_assign capf a m else Ok a in
        let* m := shr_assign m 1 in
        Ok (a, m)) (a, m) in
    Ok a.

End Profile.
