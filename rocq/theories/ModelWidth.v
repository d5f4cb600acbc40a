(** * What depends on the width of [usize]

    The same code as [md_hash] of [ModelMd] and [asn1_try_from] of [ModelPem], with the number [w] of
    bits of a [usize] as a parameter. No other result of the library depends on it: the other
    values of this type are lengths and indices of data in memory, or converted from smaller types. *)
From Verif Require Import Base ModelMd ModelPem.
Local Open Scope N_scope.

Section Profile.
Context {P : profile}.
Context (w : N).

(** ** src/md/md4.rs and src/md/md5.rs: the field [bytes_consumed] *)

(** [Hasher::consume], md4.rs:34-40, md5.rs:34-40. *)
Definition md_consume_w (process : md_process) (h : md_hasher) (byte : N) : res md_hasher :=
  let* n := cadd w (md_bytes_consumed h) 1 in
  let h := {| md_unprocessed_bytes := md_unprocessed_bytes h ++ [byte];
              md_bytes_consumed := n;
              md_a := md_a h; md_b := md_b h; md_c := md_c h; md_d := md_d h |} in
  if (length (md_unprocessed_bytes h) =? 64)%nat
  then md_process_block process h else Ok h.

(** [Hasher::finish], md4.rs:54-75, md5.rs:54-75. *)
Definition md_finish_w (process : md_process) (h : md_hasher) : res (list N) :=
  let* bits_consumed := cmul w (md_bytes_consumed h) 8 in
  let* num_pad_bytes :=
    if (length (md_unprocessed_bytes h) =? 56)%nat then Ok 64%nat
    else let* k := nsub (64 + 56) (length (md_unprocessed_bytes h)) in
         Ok (k mod 64)%nat in
  let* h := md_consume_w process h 0x80 in
  let* k := nsub num_pad_bytes 1 in
  let* h := forM (range 0 k) (fun _ h => md_consume_w process h 0) h in
  let* h := forM (to_le 8 bits_consumed) (fun b h => md_consume_w process h b) h in
  let out := repeat 0 16 in
  let* out := copy_range out 0 4 (to_le 4 (md_a h)) in
  let* out := copy_range out 4 8 (to_le 4 (md_b h)) in
  let* out := copy_range out 8 12 (to_le 4 (md_c h)) in
  copy_range out 12 16 (to_le 4 (md_d h)).

(** [hash], md4.rs:1-9, md5.rs:1-9. *)
Definition md_hash_w (process : md_process) (data : list N) : res (list N) :=
  let* h := forM data (fun b h => md_consume_w process h b) md_new in
  md_finish_w process h.

(** ** src/pem/asn1.rs: the length of a value *)

(** Tag, remaining bytes and length, asn1.rs:13-27. [as usize] keeps the low [w] bits. *)
Definition asn1_header_w (bytes : list N) : res (result (N * list N * N) asn1_error) :=
  if (length bytes <=? 1)%nat then Ok (RErr TagNoLength)
  else
    let* tag := idx bytes 0 in
    let* b1 := idx bytes 1 in
    if negb (N.land b1 0x80 =? 0) then
      let length_bytes := ix (N.land b1 (wnot 8 0x80)) in
      let len := to_be 16 0 in
      let* k := nsub 16 length_bytes in
      let* src := slice bytes 2 (2 + length_bytes) in
      let* len := copy_range len k 16 src in
      let* rest := slice_from bytes (2 + length_bytes) in
      Ok (ROk (tag, rest, from_be len mod 2 ^ w))
    else
      let* rest := slice_from bytes 2 in
      Ok (ROk (tag, rest, b1)).

(** [Asn1::parse_from_bytes], asn1.rs:12-56. *)
Fixpoint parse_from_bytes_w (fuel : nat) (bytes : list N)
    : res (result (asn1 * list N) asn1_error) :=
  match fuel with
  | O => Panic PFuel
  | S fuel' =>
    let* h := asn1_header_w bytes in
    match h with
    | RErr e => Ok (RErr e)
    | ROk (tag, rest, len) =>
      if N.of_nat (length rest) <? len then
        Ok (RErr (TooLittleData tag len (length rest)))
      else
        let ln := ix len in
        let* r :=
          if tag =? 0x02 then let* b := slice_to rest ln in Ok (ROk (Integer b))
          else if tag =? 0x04 then let* b := slice_to rest ln in Ok (ROk (OctetString b))
          else if tag =? 0x03 then
            let* b := slice rest 1 ln in
            let* u := idx rest 0 in
            Ok (ROk (BitString b u))
          else if tag =? 0x05 then Ok (ROk Null)
          else if tag =? 0x06 then
            let* b := slice_to rest ln in Ok (ROk (ObjectIdentifier b))
          else if tag =? 0x30 then
            let* lft := slice_to rest ln in
            let* es := asn1_elements (parse_from_bytes_w fuel') ln lft [] in
            Ok (match es with RErr e => RErr e | ROk es => ROk (Sequence es) end)
          else Ok (RErr (UnknownTag tag)) in
        match r with
        | RErr e => Ok (RErr e)
        | ROk a => let* rest := slice_from rest ln in Ok (ROk (a, rest))
        end
    end
  end.

(** [TryFrom<&[u8]> for Asn1], asn1.rs:59-71. *)
Definition asn1_try_from_w (bytes : list N) : res (result asn1 asn1_error) :=
  let* r := parse_from_bytes_w (S (length bytes)) bytes in
  match r with
  | RErr e => Ok (RErr e)
  | ROk (a, lft) =>
      match lft with
      | [] => Ok (ROk a)
      | _ => Ok (RErr ExtraBytes)
      end
  end.
End Profile.
