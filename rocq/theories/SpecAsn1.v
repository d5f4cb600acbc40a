(** * Encodings of ASN.1 values (X.690), as a grammar

    Nothing here parses: an encoding is related to the value it denotes. *)
From Coq Require Import List NArith Arith.
Import ListNotations.
From Verif Require Import Base SpecEndian ModelPem.
Open Scope N_scope.

Definition size {A} (l : list A) : N := N.of_nat (length l).

(** A grammar for tag-length-value encodings, with two parameters:
    [len l n]: the octets [l] are an encoding of the length [n];
    [content t c]: [c] may be the contents of a primitive value of tag [t]. *)
Section Grammar.
  Context (len : list N -> N -> Prop) (content : N -> list N -> Prop).

  Inductive encodes : asn1 -> list N -> Prop :=
  | enc_integer l c : len l (size c) -> content 2 c ->
      encodes (Integer c) (2 :: l ++ c)
  | enc_bit_string l u c : len l (size (u :: c)) -> content 3 (u :: c) ->
      encodes (BitString c u) (3 :: l ++ u :: c)
  | enc_octet_string l c : len l (size c) -> content 4 c ->
      encodes (OctetString c) (4 :: l ++ c)
  | enc_null l c : len l (size c) -> content 5 c ->
      encodes Null (5 :: l ++ c)
  | enc_object_identifier l c : len l (size c) -> content 6 c ->
      encodes (ObjectIdentifier c) (6 :: l ++ c)
  | enc_sequence l es c : len l (size c) -> encodes_all es c ->
      encodes (Sequence es) (0x30 :: l ++ c)
  with encodes_all : list asn1 -> list N -> Prop :=
  | enc_nil : encodes_all [] []
  | enc_cons a c es cs : encodes a c -> encodes_all es cs ->
      encodes_all (a :: es) (c ++ cs).
End Grammar.

(** Definite length octets, X.690 8.1.3: one octet below 128, or 128 + k
    followed by k >= 1 base-256 digits (k <= 126). *)
Inductive ber_len : list N -> N -> Prop :=
| ber_short n : n < 128 -> ber_len [n] n
| ber_long ds : bytes ds -> (1 <= length ds <= 126)%nat ->
    ber_len (128 + size ds :: ds) (be_num ds).

(** Contents octets, X.690 8.3, 8.6, 8.8, 8.19: an INTEGER has at least one
    octet and is minimal, a BIT STRING starts with the number (at most 7, and 0
    for the empty string) of unused bits, NULL has none. *)
Definition ber_content (t : N) (c : list N) : Prop :=
  bytes c /\
  (t = 2 -> c <> [] /\
            forall x y r, c = x :: y :: r ->
              ~ (x = 0 /\ y < 128) /\ ~ (x = 255 /\ 128 <= y)) /\
  (t = 3 -> exists u d, c = u :: d /\ u <= 7 /\ (d = [] -> u = 0)) /\
  (t = 5 -> c = []) /\
  (t = 6 -> c <> []).

(** The BER encodings (definite lengths only) of a value. *)
Definition ber : asn1 -> list N -> Prop := encodes ber_len ber_content.

(** What the parser of src/pem/asn1.rs accepts instead: 0 to 16 length digits,
    whose number is taken modulo 2^64, and any contents (a BIT STRING must still
    have a first octet, which is part of [enc_bit_string]). *)
Inductive lax_len : list N -> N -> Prop :=
| lax_short n : n < 128 -> lax_len [n] n
| lax_long ds : bytes ds -> (length ds <= 16)%nat ->
    lax_len (128 + size ds :: ds) (be_num ds mod 2 ^ 64).
Definition lax : asn1 -> list N -> Prop := encodes lax_len (fun _ _ => True).
Definition lax_all : list asn1 -> list N -> Prop := encodes_all lax_len (fun _ _ => True).

(** The malformations on which the parser panics, and how: [crash p bs]. A tag
    is followed by (1) a length with more than 16 digits, (2) a length with
    missing digits, or it is (3) the tag of a BIT STRING with length zero, or (4)
    the tag of a SEQUENCE whose contents crash after some well-formed elements. *)
Inductive crash : panic_reason -> list N -> Prop :=
| crash_digits t k r : 16 < k < 128 -> crash POverflow (t :: 128 + k :: r)
| crash_truncated t k r : k <= 16 -> size r < k -> crash PIndex (t :: 128 + k :: r)
| crash_bit_string l r : lax_len l 0 -> crash PIndex (3 :: l ++ r)
| crash_sequence p l es c d r : lax_len l (size (c ++ d)) -> lax_all es c -> crash p d ->
    crash p (0x30 :: l ++ (c ++ d) ++ r).

(** The malformations for which it returns an error: fewer than two bytes, less
    data than the length says, a tag that is not one of the six, or such an error
    after some well-formed elements of a SEQUENCE. *)
Inductive fault : asn1_error -> list N -> Prop :=
| fault_short bs : (length bs <= 1)%nat -> fault TagNoLength bs
| fault_data t l n r : lax_len l n -> size r < n ->
    fault (TooLittleData t n (length r)) (t :: l ++ r)
| fault_tag t l n r : lax_len l n -> n <= size r -> ~ In t [2; 3; 4; 5; 6; 0x30] ->
    fault (UnknownTag t) (t :: l ++ r)
| fault_sequence e l es c d r : lax_len l (size (c ++ d)) -> lax_all es c -> d <> [] ->
    fault e d -> fault (InSequence e) (0x30 :: l ++ (c ++ d) ++ r).

(** The bytes are not one value: such an error, or more bytes after a value. *)
Definition rejected (e : asn1_error) (bs : list N) : Prop :=
  fault e bs \/ e = ExtraBytes /\ exists v a r, bs = a ++ r /\ r <> [] /\ lax v a.

(** ** DER *)

(** The minimal number of base-256 digits of [n > 0]. *)
Definition digits (n : N) : nat := S (N.to_nat (N.log2 n / 8)).

(** DER lengths, X.690 10.1: the shortest form. *)
Definition der_len (n : N) : list N :=
  if n <? 128 then [n] else 128 + N.of_nat (digits n) :: be_bytes (digits n) n.

(** Tag, length, contents. *)
Definition tlv (t : N) (c : list N) : list N := t :: der_len (size c) ++ c.

Fixpoint der (a : asn1) : list N :=
  match a with
  | Integer c => tlv 2 c
  | BitString c u => tlv 3 (u :: c)
  | OctetString c => tlv 4 c
  | Null => tlv 5 []
  | ObjectIdentifier c => tlv 6 c
  | Sequence es => tlv 0x30 (concat (map der es))
  end.

(** Values of the Rust type: contents are bytes. *)
Inductive asn1_value : asn1 -> Prop :=
| av_integer c : bytes c -> asn1_value (Integer c)
| av_bit_string c u : bytes c -> byte u -> asn1_value (BitString c u)
| av_octet_string c : bytes c -> asn1_value (OctetString c)
| av_null : asn1_value Null
| av_oid c : bytes c -> asn1_value (ObjectIdentifier c)
| av_sequence es : Forall asn1_value es -> asn1_value (Sequence es).
