(** * The texts: error messages and [Debug] output

    The wording of the errors that [ModelPem], [ModelKey] and [ModelRsa] treat as
    data, and the output of the derived [Debug] implementations ([{:?}]). *)
From Coq Require Import Ascii String Decimal.
From Verif Require Import Base ModelBig ModelRsa ModelPem ModelKey ModelSha.
Local Open Scope N_scope.
Local Open Scope list_scope.

(** A string literal. *)
Definition lit (s : string) : list N := map N_of_ascii (list_ascii_of_string s).

(** [Display] and [Debug] of [u8] and [usize] (documented behaviour: decimal). *)
Fixpoint decimal_chars (d : Decimal.uint) : list N :=
  match d with
  | Nil => []
  | D0 d => 48 :: decimal_chars d | D1 d => 49 :: decimal_chars d | D2 d => 50 :: decimal_chars d
  | D3 d => 51 :: decimal_chars d | D4 d => 52 :: decimal_chars d | D5 d => 53 :: decimal_chars d
  | D6 d => 54 :: decimal_chars d | D7 d => 55 :: decimal_chars d | D8 d => 56 :: decimal_chars d
  | D9 d => 57 :: decimal_chars d
  end.
Definition show (n : N) : list N := decimal_chars (N.to_uint n).

(** [Debug] of [Vec<T>] and [[T; N]] (documented behaviour), from that of the elements. *)
Definition debug_list (l : list (list N)) : list N :=
  lit "[" ++ match l with
             | [] => []
             | x :: l' => x ++ flat_map (fun y => lit ", " ++ y) l'
             end ++ lit "]".
Definition debug_bytes (bs : list N) : list N := debug_list (map show bs).

(** [derive(Debug)] of [Asn1], src/pem/asn1.rs:1-9. *)
Fixpoint debug_asn1 (a : asn1) : list N :=
  match a with
  | Integer bs => lit "Integer(" ++ debug_bytes bs ++ lit ")"
  | OctetString bs => lit "OctetString(" ++ debug_bytes bs ++ lit ")"
  | BitString bs u => lit "BitString(" ++ debug_bytes bs ++ lit ", " ++ show u ++ lit ")"
  | Null => lit "Null"
  | ObjectIdentifier bs => lit "ObjectIdentifier(" ++ debug_bytes bs ++ lit ")"
  | Sequence es => lit "Sequence(" ++ debug_list (map debug_asn1 es) ++ lit ")"
  end.

(** [derive(Debug)] of [BigUint], src/big/uint.rs:6-9. *)
Definition debug_big (x : list N) : list N := lit "BigUint { bytes: " ++ debug_bytes x ++ lit " }".

(** [derive(Debug)] of [PrivateKey] and [PublicKey], src/rsa/mod.rs:29-39. *)
Definition debug_private_key (k : private_key) : list N :=
  lit "PrivateKey { n: " ++ debug_big (priv_n k) ++ lit ", d: " ++ debug_big (priv_d k) ++ lit " }".
Definition debug_public_key (k : public_key) : list N :=
  lit "PublicKey { n: " ++ debug_big (pub_n k) ++ lit ", e: " ++ debug_big (pub_e k) ++ lit " }".

(** [derive(Debug)] of [HashValue], src/sha/hash.rs:3-4. *)
Definition debug_hash (h : list N) : list N := lit "HashValue(" ++ debug_bytes h ++ lit ")".

(** src/pem/asn1.rs:14, 32, 46, 52, 66. *)
Fixpoint asn1_message (e : asn1_error) : list N :=
  match e with
  | TagNoLength => lit "tag had no length"
  | TooLittleData tag len actual =>
      lit "tag (" ++ show tag ++ lit ") had too little data, expected " ++ show len
      ++ lit " bytes, got " ++ show (N.of_nat actual)
  | InSequence e => lit "failed to parse sequence: " ++ asn1_message e
  | UnknownTag tag => lit "unknown tag: " ++ show tag
  | ExtraBytes => lit "extra bytes at the end"
  end.

(** src/rsa/asn1.rs:41, 78, 129, 174. *)
Definition not_sequence_message (a : asn1) : list N :=
  lit "expected content to be wrapped in a sequence tag, but found tag " ++ debug_asn1 a.

(** The errors of [PrivateKey::from_asn1], src/rsa/asn1.rs:126-154. Other errors do not
    come from there. *)
Definition private_key_message (e : key_error) : list N :=
  match e with
  | KNotSequence a => not_sequence_message a
  | KElements => lit "expected 9 elements"
  | KIntegers => lit "expected integers"
  | KVersionField => lit "version field must be one byte"
  | _ => []
  end.

(** The errors of [PublicKey::from_asn1], src/rsa/asn1.rs:171-189. *)
Definition public_key_message (e : key_error) : list N :=
  match e with
  | KNotSequence a => not_sequence_message a
  | KElements => lit "expected 2 elements"
  | KIntegers => lit "expected integers"
  | _ => []
  end.

(** The errors of [TryFrom<PEM> for PrivateKey], src/rsa/mod.rs:86-94, and of
    [PrivateKeyInfo::from_asn1], src/rsa/asn1.rs:38-64; those of
    [AlgorithmIdentifier::from_asn1], asn1.rs:113, 116. *)
Definition private_import_message (e : key_error) : list N :=
  match e with
  | NotPrivateKeyLabel => lit "must be a private key"
  | KParse e => asn1_message e
  | KNotSequence a => not_sequence_message a
  | KElements => lit "expected three elements"
  | KVersion => lit "expected first element to be be zero"
  | KAlgorithmSequence => lit "expected sequence"
  | KAlgorithm => lit "expected object identifier"
  | KNotRsa => lit "expected private key algorithm to be RSA"
  | KNotOctetString => lit "expected third element to be an octet string"
  | KInnerParse e => lit "failed to parse ASN.1: " ++ asn1_message e
  | KInner e => lit "failed to extract private key from ASN.1: " ++ private_key_message e
  | _ => []
  end.

(** The errors of [TryFrom<PEM> for PublicKey], src/rsa/mod.rs:103-111, and of
    [SubjectPublicKeyInfo::from_asn1], src/rsa/asn1.rs:75-101. *)
Definition public_import_message (e : key_error) : list N :=
  match e with
  | NotPublicKeyLabel => lit "must be a public key"
  | KParse e => asn1_message e
  | KNotSequence a => not_sequence_message a
  | KElements => lit "expected two elements"
  | KAlgorithmSequence => lit "expected sequence"
  | KAlgorithm => lit "expected object identifier"
  | KNotRsa => lit "expected algorithm to be RSA"
  | KNotBitString => lit "expected second element to be a bit string"
  | KUnusedBits => lit "bit string had unused bits which is not supported yet"
  | KInnerParse e => lit "failed to parse subject public key: " ++ asn1_message e
  | KInner e => lit "failed to convert ASN.1 into public key: " ++ public_key_message e
  | _ => []
  end.

(** [OaepPadding::decode], src/rsa/oaep.rs:60, 74, 80, 82. *)
Definition oaep_message (e : oaep_error) : list N :=
  match e with
  | FirstByteNotZero => lit "first byte is not 0"
  | WrongLabel => lit "wrong label"
  | MissingOne => lit "missing 1-byte before message"
  | SeparatorNotOne => lit "separator is not a 1-byte"
  end.

(** The message of the panic of [unwrap] in src/rsa/mod.rs:146 (documented behaviour:
    the [Debug] output of the error; that of these texts is the text in quotes). *)
Definition unwrap_message (e : oaep_error) : list N :=
  lit "called `Result::unwrap()` on an `Err` value: " ++ [34] ++ oaep_message e ++ [34].

(** [extract_pem_pieces], src/pem/mod.rs:50-83; the text for [BadBase64] comes from the
    [base64] crate and is not modelled. *)
Definition pem_message (e : pem_error) : option (list N) :=
  match e with
  | MultipleBegin => Some (lit "multiple BEGIN lines")
  | InvalidBegin => Some (lit "invalid BEGIN line")
  | EndBeforeBegin => Some (lit "found END line before the BEGIN line")
  | MultipleEnd => Some (lit "multiple END lines")
  | InvalidEnd => Some (lit "invalid END line")
  | MissingBegin => Some (lit "BEGIN line is missing")
  | MissingEnd => Some (lit "END line is missing")
  | LabelMismatch => Some (lit "label mismatch")
  | BadBase64 => None
  end.
