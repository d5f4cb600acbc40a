(** * C85: what error messages and [Debug] output disclose *)
From Coq Require Import String.
From Verif Require Import Base BaseLemmas ModelBig ModelRsa ModelPem ModelKey ModelOracle ModelMessage
  SpecText SpecAsn1 SpecKey SpecMessage SpecManger ProofAsn1 ProofMessage.
Local Open Scope N_scope.
Local Open Scope list_scope.

(** Numbers are printed in decimal; there is one numeral for each number. *)
Theorem c85_numeral : forall n, numeral n (show n).
Proof. exact show_numeral. Qed.
Print Assumptions c85_numeral.

(** A value can be read back from its [Debug] output, also with text after it. *)
Theorem c85_debug_asn1 : forall a b r s, debug_asn1 a ++ r = debug_asn1 b ++ s -> a = b /\ r = s.
Proof. exact debug_asn1_split. Qed.
Print Assumptions c85_debug_asn1.

(** The same for [PrivateKey] (with the private exponent), [PublicKey] and [HashValue]. *)
Theorem c85_debug_private_key : forall k k', debug_private_key k = debug_private_key k' -> k = k'.
Proof. exact debug_private_inj. Qed.
Print Assumptions c85_debug_private_key.
Theorem c85_debug_public_key : forall k k', debug_public_key k = debug_public_key k' -> k = k'.
Proof. exact debug_public_inj. Qed.
Print Assumptions c85_debug_public_key.
Theorem c85_debug_hash : forall h h', debug_hash h = debug_hash h' -> h = h'.
Proof. exact debug_hash_inj. Qed.
Print Assumptions c85_debug_hash.

(** No two errors of a key import, of the ASN.1 parser, of reading PEM or of OAEP
    decoding have the same text. *)
Theorem c85_private_message : forall p p' e e', bytes (pem_data p) -> bytes (pem_data p') ->
  private_key_try_from p = Ok (RErr e) -> private_key_try_from p' = Ok (RErr e') ->
  private_import_message e = private_import_message e' -> e = e'.
Proof. exact private_message_error. Qed.
Print Assumptions c85_private_message.
Theorem c85_public_message : forall p p' e e', bytes (pem_data p) -> bytes (pem_data p') ->
  public_key_try_from p = Ok (RErr e) -> public_key_try_from p' = Ok (RErr e') ->
  public_import_message e = public_import_message e' -> e = e'.
Proof. exact public_message_error. Qed.
Print Assumptions c85_public_message.
Theorem c85_asn1_message : forall e e', asn1_message e = asn1_message e' -> e = e'.
Proof. exact asn1_message_inj. Qed.
Print Assumptions c85_asn1_message.
Theorem c85_pem_message : forall e e', pem_message e = pem_message e' -> e = e'.
Proof. exact pem_message_inj. Qed.
Print Assumptions c85_pem_message.
Theorem c85_unwrap_message : forall e e', unwrap_message e = unwrap_message e' -> e = e'.
Proof. exact unwrap_message_inj. Qed.
Print Assumptions c85_unwrap_message.

(** The wording. *)
Theorem c85_texts_asn1 :
  asn1_message TagNoLength = text "tag had no length" /\
  (forall t l a, asn1_message (TooLittleData t l a) =
     text "tag (" ++ show t ++ text ") had too little data, expected " ++ show l ++ text " bytes, got " ++ show (N.of_nat a)) /\
  (forall e, asn1_message (InSequence e) = text "failed to parse sequence: " ++ asn1_message e) /\
  (forall t, asn1_message (UnknownTag t) = text "unknown tag: " ++ show t) /\
  asn1_message ExtraBytes = text "extra bytes at the end".
Proof. exact (conj eq_refl (conj (fun _ _ _ => eq_refl) (conj (fun _ => eq_refl) (conj (fun _ => eq_refl) eq_refl)))). Qed.
Print Assumptions c85_texts_asn1.
Theorem c85_texts_private :
  map private_import_message [NotPrivateKeyLabel; KElements; KVersion; KAlgorithmSequence; KAlgorithm; KNotRsa;
      KNotOctetString; KInner KElements; KInner KIntegers; KInner KVersionField] =
  map text ["must be a private key"; "expected three elements"; "expected first element to be be zero";
      "expected sequence"; "expected object identifier"; "expected private key algorithm to be RSA";
      "expected third element to be an octet string";
      "failed to extract private key from ASN.1: expected 9 elements";
      "failed to extract private key from ASN.1: expected integers";
      "failed to extract private key from ASN.1: version field must be one byte"]%string /\
  (forall e, private_import_message (KParse e) = asn1_message e) /\
  (forall e, private_import_message (KInnerParse e) = text "failed to parse ASN.1: " ++ asn1_message e).
Proof. exact (conj eq_refl (conj (fun _ => eq_refl) (fun _ => eq_refl))). Qed.
Print Assumptions c85_texts_private.
Theorem c85_texts_public :
  map public_import_message [NotPublicKeyLabel; KElements; KAlgorithmSequence; KAlgorithm; KNotRsa;
      KNotBitString; KUnusedBits; KInner KElements; KInner KIntegers] =
  map text ["must be a public key"; "expected two elements";
      "expected sequence"; "expected object identifier"; "expected algorithm to be RSA";
      "expected second element to be a bit string"; "bit string had unused bits which is not supported yet";
      "failed to convert ASN.1 into public key: expected 2 elements";
      "failed to convert ASN.1 into public key: expected integers"]%string /\
  (forall a, public_import_message (KNotSequence a) =
     text "expected content to be wrapped in a sequence tag, but found tag " ++ debug_asn1 a) /\
  (forall a, public_import_message (KInner (KNotSequence a)) =
     text "failed to convert ASN.1 into public key: expected content to be wrapped in a sequence tag, but found tag "
     ++ debug_asn1 a) /\
  (forall e, public_import_message (KParse e) = asn1_message e) /\
  (forall e, public_import_message (KInnerParse e) = text "failed to parse subject public key: " ++ asn1_message e).
Proof.
  exact (conj eq_refl (conj (fun _ => eq_refl) (conj (fun _ => eq_refl) (conj (fun _ => eq_refl) (fun _ => eq_refl))))).
Qed.
Print Assumptions c85_texts_public.
Theorem c85_texts_other :
  map pem_message [MultipleBegin; InvalidBegin; EndBeforeBegin; MultipleEnd; InvalidEnd; MissingBegin; MissingEnd;
      LabelMismatch] =
  map (fun s => Some (text s)) ["multiple BEGIN lines"; "invalid BEGIN line";
      "found END line before the BEGIN line"; "multiple END lines"; "invalid END line"; "BEGIN line is missing";
      "END line is missing"; "label mismatch"]%string /\
  map unwrap_message [FirstByteNotZero; WrongLabel; MissingOne; SeparatorNotOne] =
  map (fun s => text "called `Result::unwrap()` on an `Err` value: """ ++ text s ++ text """")
    ["first byte is not 0"; "wrong label"; "missing 1-byte before message"; "separator is not a 1-byte"]%string.
Proof. exact (conj eq_refl eq_refl). Qed.
Print Assumptions c85_texts_other.
Theorem c85_texts_debug :
  (forall l, debug_bytes l = text "[" ++ List.concat (List.map show (firstn 1 l)) ++
     List.concat (List.map (fun b => text ", " ++ show b) (skipn 1 l)) ++ text "]") /\
  (forall n d, debug_private_key {| priv_n := n; priv_d := d |} =
     text "PrivateKey { n: BigUint { bytes: " ++ debug_bytes n ++ text " }, d: BigUint { bytes: " ++ debug_bytes d ++ text " } }") /\
  (forall n e, debug_public_key {| pub_n := n; pub_e := e |} =
     text "PublicKey { n: BigUint { bytes: " ++ debug_bytes n ++ text " }, e: BigUint { bytes: " ++ debug_bytes e ++ text " } }") /\
  (forall h, debug_hash h = text "HashValue(" ++ debug_bytes h ++ text ")") /\
  (forall l, debug_asn1 (Integer l) = text "Integer(" ++ debug_bytes l ++ text ")") /\
  (forall l, debug_asn1 (OctetString l) = text "OctetString(" ++ debug_bytes l ++ text ")") /\
  (forall l u, debug_asn1 (BitString l u) = text "BitString(" ++ debug_bytes l ++ text ", " ++ show u ++ text ")") /\
  debug_asn1 Null = text "Null" /\
  (forall l, debug_asn1 (ObjectIdentifier l) = text "ObjectIdentifier(" ++ debug_bytes l ++ text ")") /\
  (forall e es, debug_asn1 (Sequence (e :: es)) = text "Sequence([" ++ debug_asn1 e ++
     List.concat (List.map (fun x => text ", " ++ debug_asn1 x) es) ++ text "])") /\
  debug_asn1 (Sequence []) = text "Sequence([])".
Proof. exact debug_texts. Qed.
Print Assumptions c85_texts_debug.

(** The error for a private key file whose outermost value is not a sequence prints
    that value, and so does the error for the value in its OCTET STRING. *)
Theorem c85_leak : forall p a, pem_label p = text "PRIVATE KEY" -> asn1_try_from (pem_data p) = Ok (ROk a) ->
  (forall es, a <> Sequence es) ->
  exists e, private_key_try_from p = Ok (RErr e) /\
    private_import_message e =
      text "expected content to be wrapped in a sequence tag, but found tag " ++ debug_asn1 a.
Proof. exact private_leak_outer. Qed.
Print Assumptions c85_leak.
Theorem c85_leak_inner : forall p key a, pem_label p = text "PRIVATE KEY" ->
  asn1_try_from (pem_data p) = Ok (ROk (private_key_info key)) ->
  asn1_try_from key = Ok (ROk a) -> (forall es, a <> Sequence es) ->
  exists e, private_key_try_from p = Ok (RErr e) /\
    private_import_message e =
      text "failed to extract private key from ASN.1: expected content to be wrapped in a sequence tag, but found tag "
      ++ debug_asn1 a.
Proof. exact private_leak_inner. Qed.
Print Assumptions c85_leak_inner.

(** No other error prints a list of bytes. *)
Theorem c85_no_other_leak : forall e, In 91 (private_import_message e) ->
  exists a, e = KNotSequence a \/ e = KInner (KNotSequence a).
Proof. exact private_list_printed. Qed.
Print Assumptions c85_no_other_leak.

Theorem c85_no_other_leak_public : forall e, In 91 (public_import_message e) ->
  exists a, e = KNotSequence a \/ e = KInner (KNotSequence a).
Proof. exact public_list_printed. Qed.
Print Assumptions c85_no_other_leak_public.

Theorem c85_no_leak_elsewhere :
  (forall e, ~ In 91 (asn1_message e)) /\ (forall e m, pem_message e = Some m -> ~ In 91 m) /\
  (forall e, ~ In 91 (unwrap_message e)).
Proof. exact other_lists_printed. Qed.
Print Assumptions c85_no_leak_elsewhere.

(** A private key wrapped once too often: the message has every byte of the key, here
    with d = 43; other messages. *)
Example c85_case :
  let key := rsa_private_key 0 [77] [7] [43] [7] [11] [1] [3] [2] in
  let message p := match private_key_try_from p with
                   | Ok (RErr e) => private_import_message e | _ => [] end in
  message {| pem_label := text "PRIVATE KEY"; pem_data := der (private_key_info (der (OctetString (der key)))) |} =
    text "failed to extract private key from ASN.1: expected content to be wrapped in a sequence tag, but found tag OctetString([48, 27, 2, 1, 0, 2, 1, 77, 2, 1, 7, 2, 1, 43, 2, 1, 7, 2, 1, 11, 2, 1, 1, 2, 1, 3, 2, 1, 2])" /\
  message {| pem_label := text "PRIVATE KEY"; pem_data := [48; 1; 2] |} =
    text "failed to parse sequence: tag had no length" /\
  message {| pem_label := text "PRIVATE KEY"; pem_data := [48; 3; 2; 100; 1] |} =
    text "failed to parse sequence: tag (2) had too little data, expected 100 bytes, got 1" /\
  message {| pem_label := text "PRIVATE KEY"; pem_data := der (BitString [] 0) |} =
    text "expected content to be wrapped in a sequence tag, but found tag BitString([], 0)" /\
  debug_private_key {| priv_n := [77; 1]; priv_d := [43] |} =
    text "PrivateKey { n: BigUint { bytes: [77, 1] }, d: BigUint { bytes: [43] } }" /\
  debug_asn1 (Sequence [Null; Sequence []; Integer [105]]) = text "Sequence([Null, Sequence([]), Integer([105])])" /\
  unwrap_message FirstByteNotZero =
    text "called `Result::unwrap()` on an `Err` value: ""first byte is not 0""".
Proof. cbv zeta. do 6 (split; [vm_compute; reflexivity|]). vm_compute. reflexivity. Qed.
