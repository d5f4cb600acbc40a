(** * Model of src/pem/: mod.rs, asn1.rs

    A [String] is the list of its Unicode scalar values. *)
From Verif Require Import Base.

Section Profile.
Context {P : profile}.

(** ** src/pem/asn1.rs *)

(** [enum Asn1], asn1.rs:1-9. *)
Inductive asn1 : Type :=
| Integer (bytes : list N)
| OctetString (bytes : list N)
| BitString (bytes : list N) (unused : N)
| Null
| ObjectIdentifier (bytes : list N)
| Sequence (elements : list asn1).

(** The error strings of asn1.rs:14, 31-33, 46, 52, 66, as data. *)
Inductive asn1_error : Set :=
| TagNoLength
| TooLittleData (tag expected : N) (actual : nat)
| InSequence (e : asn1_error)
| UnknownTag (tag : N)
| ExtraBytes.

(** Tag, remaining bytes and length, asn1.rs:13-27. [as usize] keeps the low
    64 bits; the length is kept as [N]. *)
Definition asn1_header (bytes : list N) : res (result (N * list N * N) asn1_error) :=
  if (length bytes <=? 1)%nat then Ok (RErr TagNoLength)
  else
    let* tag := idx bytes 0 in
    let* b1 := idx bytes 1 in
    if negb (N.land b1 0x80 =? 0) then
      let length_bytes := ix (N.land b1 (wnot 8 0x80)) in
      let len := to_be 16 0 in
      let* k := nsub 16 length_bytes in
      let* src := slice bytes 2 (2 + length_bytes) in
      let* len := copy_range len k 16 src in
      let* rest := slice_from bytes (2 + length_bytes) in
      Ok (ROk (tag, rest, from_be len mod 2 ^ 64))
    else
      let* rest := slice_from bytes 2 in
      Ok (ROk (tag, rest, b1)).

(** The [while] loop of the SEQUENCE case, asn1.rs:45-49; [parse] is the
    recursive call. *)
Fixpoint asn1_elements (parse : list N -> res (result (asn1 * list N) asn1_error))
    (fuel : nat) (lft : list N) (elements : list asn1)
    : res (result (list asn1) asn1_error) :=
  match lft with
  | [] => Ok (ROk elements)
  | _ =>
      match fuel with
      | O => Panic PFuel
      | S fuel' =>
          let* r := parse lft in
          match r with
          | RErr e => Ok (RErr (InSequence e))
          | ROk (a, rest) => asn1_elements parse fuel' rest (elements ++ [a])
          end
      end
  end.

(** [Asn1::parse_from_bytes], asn1.rs:12-56. The recursive call is on a strictly
    shorter slice, so the length is enough fuel. (A Rust program would overflow
    its stack on inputs nested deeply enough; the stack is not modelled.) *)
Fixpoint parse_from_bytes (fuel : nat) (bytes : list N)
    : res (result (asn1 * list N) asn1_error) :=
  match fuel with
  | O => Panic PFuel
  | S fuel' =>
    let* h := asn1_header bytes in
    match h with
    | RErr e => Ok (RErr e)
    | ROk (tag, rest, len) =>
      if N.of_nat (length rest) <? len then
        Ok (RErr (TooLittleData tag len (length rest)))
      else
        let ln := ix len in
        let* r :=
          if tag =? 0x02 then let* b := slice_to rest ln in Ok (ROk (Integer b))
          else if tag =? 0x04 then let* b := slice_to rest ln in Ok (ROk (OctetString b))
          else if tag =? 0x03 then
            let* b := slice rest 1 ln in
            let* u := idx rest 0 in
            Ok (ROk (BitString b u))
          else if tag =? 0x05 then Ok (ROk Null)
          else if tag =? 0x06 then
            let* b := slice_to rest ln in Ok (ROk (ObjectIdentifier b))
          else if tag =? 0x30 then
            let* lft := slice_to rest ln in
            let* es := asn1_elements (parse_from_bytes fuel') ln lft [] in
            Ok (match es with RErr e => RErr e | ROk es => ROk (Sequence es) end)
          else Ok (RErr (UnknownTag tag)) in
        match r with
        | RErr e => Ok (RErr e)
        | ROk a => let* rest := slice_from rest ln in Ok (ROk (a, rest))
        end
    end
  end.

(** [TryFrom<&[u8]> for Asn1], asn1.rs:59-71. *)
Definition asn1_try_from (bytes : list N) : res (result asn1 asn1_error) :=
  let* r := parse_from_bytes (S (length bytes)) bytes in
  match r with
  | RErr e => Ok (RErr e)
  | ROk (a, lft) =>
      match lft with
      | [] => Ok (ROk a)
      | _ => Ok (RErr ExtraBytes)
      end
  end.

(** ** The parts of [str] used by src/pem/mod.rs *)

(** [char::is_whitespace]: the Unicode property White_Space. *)
Definition is_whitespace (c : N) : bool :=
  ((9 <=? c) && (c <=? 13)) || (c =? 0x20) || (c =? 0x85) || (c =? 0xa0)
  || (c =? 0x1680) || ((0x2000 <=? c) && (c <=? 0x200a))
  || (c =? 0x2028) || (c =? 0x2029) || (c =? 0x202f) || (c =? 0x205f) || (c =? 0x3000).

(** [str::trim_start] and [str::trim]. *)
Fixpoint trim_start (s : list N) : list N :=
  match s with
  | [] => []
  | c :: s' => if is_whitespace c then trim_start s' else s
  end.
Definition trim (s : list N) : list N := rev (trim_start (rev (trim_start s))).

(** [str::strip_prefix] and [str::strip_suffix]. *)
Fixpoint strip_prefix (p s : list N) : option (list N) :=
  match p, s with
  | [], _ => Some s
  | x :: p', y :: s' => if x =? y then strip_prefix p' s' else None
  | _ :: _, [] => None
  end.
Definition strip_suffix (p s : list N) : option (list N) :=
  option_map (@rev N) (strip_prefix (rev p) (rev s)).

(** [str::split_inclusive('\n')]: [cur] is the reversed current piece. *)
Fixpoint split_inclusive (cur s : list N) : list (list N) :=
  match s with
  | [] => match cur with [] => [] | _ => [rev cur] end
  | c :: s' =>
      if c =? 10 then rev (c :: cur) :: split_inclusive [] s'
      else split_inclusive (c :: cur) s'
  end.
(** [str::lines]. *)
Definition lines (s : list N) : list (list N) :=
  map (fun l => match strip_suffix [10] l with
                | None => l
                | Some l => match strip_suffix [13] l with
                            | None => l
                            | Some l => l
                            end
                end) (split_inclusive [] s).

(** ** The [base64] crate's [BASE64_STANDARD] (documented behaviour) *)

Definition b64_char (v : N) : N :=
  if v <? 26 then v + 65
  else if v <? 52 then v - 26 + 97
  else if v <? 62 then v - 52 + 48
  else if v =? 62 then 43 else 47.

Definition b64_val (c : N) : option N :=
  if (65 <=? c) && (c <=? 90) then Some (c - 65)
  else if (97 <=? c) && (c <=? 122) then Some (c - 97 + 26)
  else if (48 <=? c) && (c <=? 57) then Some (c - 48 + 52)
  else if c =? 43 then Some 62
  else if c =? 47 then Some 63
  else None.

(** Encoding with padding. *)
Fixpoint b64_encode (data : list N) : list N :=
  match data with
  | [] => []
  | [x] => [b64_char (x / 4); b64_char (x mod 4 * 16); 61; 61]
  | [x; y] => [b64_char (x / 4); b64_char (x mod 4 * 16 + y / 16);
               b64_char (y mod 16 * 4); 61]
  | x :: y :: z :: data' =>
      b64_char (x / 4) :: b64_char (x mod 4 * 16 + y / 16)
      :: b64_char (y mod 16 * 4 + z / 64) :: b64_char (z mod 64) :: b64_encode data'
  end.

(** Decoding: canonical padding is required, bits after the last byte must be
    zero. The error details of the crate are not modelled. *)
Fixpoint b64_decode (s : list N) : option (list N) :=
  match s with
  | [] => Some []
  | c1 :: c2 :: c3 :: c4 :: s' =>
      match b64_val c1, b64_val c2 with
      | Some v1, Some v2 =>
          match b64_val c3, b64_val c4 with
          | Some v3, Some v4 =>
              match b64_decode s' with
              | Some ds =>
                  Some (v1 * 4 + v2 / 16 :: v2 mod 16 * 16 + v3 / 4
                        :: v3 mod 4 * 64 + v4 :: ds)
              | None => None
              end
          | Some v3, None =>
              if (c4 =? 61) && (v3 mod 4 =? 0)
              then match s' with
                   | [] => Some [v1 * 4 + v2 / 16; v2 mod 16 * 16 + v3 / 4]
                   | _ => None
                   end
              else None
          | None, _ =>
              if (c3 =? 61) && (c4 =? 61) && (v2 mod 16 =? 0)
              then match s' with
                   | [] => Some [v1 * 4 + v2 / 16]
                   | _ => None
                   end
              else None
          end
      | _, _ => None
      end
  | _ => None
  end.

(** ** src/pem/mod.rs *)

(** [struct PEM], mod.rs:7-10. *)
Record pem := { pem_label : list N; pem_data : list N }.

(** The error strings of mod.rs:50, 55, 59, 62, 67, 77, 80, 83 and of the base64
    decoder (mod.rs:92). *)
Inductive pem_error : Set :=
| MultipleBegin | InvalidBegin | EndBeforeBegin | MultipleEnd | InvalidEnd
| MissingBegin | MissingEnd | LabelMismatch | BadBase64.

(** The string literals "-----BEGIN ", "-----END " and "-----". *)
Definition dashes : list N := [45; 45; 45; 45; 45].
Definition begin_prefix : list N := dashes ++ [66; 69; 71; 73; 78; 32].
Definition end_prefix : list N := dashes ++ [69; 78; 68; 32].

(** The loop of [Display::fmt], mod.rs:26-32, from index [i] on: the emitted
    text and the last [line]. *)
Fixpoint fmt_loop (i : nat) (line s : list N) : list N * list N :=
  match s with
  | [] => ([], line)
  | c :: s' =>
      if ((i mod 64 =? 0) && negb (i =? 0))%nat%bool
      then let (o, l) := fmt_loop (S i) [c] s' in (line ++ [10] ++ o, l)
      else fmt_loop (S i) (line ++ [c]) s'
  end.

(** [Display for PEM], mod.rs:20-39 (writing to a string, which cannot fail). *)
Definition pem_fmt (p : pem) : list N :=
  begin_prefix ++ pem_label p ++ dashes ++ [10]
  ++ (let (o, l) := fmt_loop 0 [] (b64_encode (pem_data p)) in o ++ l ++ [10])
  ++ end_prefix ++ pem_label p ++ dashes.

(** Equality of strings. *)
Fixpoint str_eqb (a b : list N) : bool :=
  match a, b with
  | [], [] => true
  | x :: a', y :: b' => (x =? y) && str_eqb a' b'
  | _, _ => false
  end.

(** The line loop of [extract_pem_pieces], mod.rs:46-74. *)
Fixpoint pem_lines (ls : list (list N)) (begin_label : option (list N))
    (data_lines : list (list N)) (end_label : option (list N))
    : result (option (list N) * list (list N) * option (list N)) pem_error :=
  match ls with
  | [] => ROk (begin_label, data_lines, end_label)
  | l :: ls' =>
      let l := trim l in
      match strip_prefix begin_prefix l with
      | Some l =>
          match begin_label with
          | Some _ => RErr MultipleBegin
          | None =>
              match strip_suffix dashes l with
              | Some l => pem_lines ls' (Some l) data_lines end_label
              | None => RErr InvalidBegin
              end
          end
      | None =>
          match strip_prefix end_prefix l with
          | Some l =>
              match begin_label with
              | None => RErr EndBeforeBegin
              | Some _ =>
                  match end_label with
                  | Some _ => RErr MultipleEnd
                  | None =>
                      match strip_suffix dashes l with
                      | Some l => pem_lines ls' begin_label data_lines (Some l)
                      | None => RErr InvalidEnd
                      end
                  end
              end
          | None =>
              match begin_label, end_label with
              | Some _, None => pem_lines ls' begin_label (data_lines ++ [l]) end_label
              | _, _ => pem_lines ls' begin_label data_lines end_label
              end
          end
      end
  end.

(** [extract_pem_pieces], mod.rs:41-86. *)
Definition extract_pem_pieces (s : list N)
    : result (list N * list (list N)) pem_error :=
  match pem_lines (lines s) None [] None with
  | RErr e => RErr e
  | ROk (begin_label, data_lines, end_label) =>
      match begin_label with
      | None => RErr MissingBegin
      | Some begin_label =>
          match end_label with
          | None => RErr MissingEnd
          | Some end_label =>
              if negb (str_eqb end_label begin_label) then RErr LabelMismatch
              else ROk (begin_label, data_lines)
          end
      end
  end.

(** [parse_pem_data], mod.rs:88-94. Decoding works on the UTF-8 bytes; every
    byte of a non-ASCII character is outside the alphabet, like the character
    itself in [b64_val]. *)
Definition parse_pem_data (base64_lines : list (list N)) : result (list N) pem_error :=
  match b64_decode (concat base64_lines) with
  | Some data => ROk data
  | None => RErr BadBase64
  end.

(** [decode_pem] and [FromStr for PEM], mod.rs:96-105, 12-18. *)
Definition decode_pem (s : list N) : result pem pem_error :=
  match extract_pem_pieces s with
  | RErr e => RErr e
  | ROk (label, data_base64_lines) =>
      match parse_pem_data data_base64_lines with
      | RErr e => RErr e
      | ROk data => ROk {| pem_label := label; pem_data := data |}
      end
  end.

End Profile.
