(** * RSA keys in PKCS #8 and X.509 form (RFC 8017 A.1, RFC 5208, RFC 5280) *)
From Coq Require Import String.
From Verif Require Import Base SpecEndian SpecText SpecPem SpecAsn1 SpecBig ModelRsa ModelPem ModelKey.
Local Open Scope N_scope.
Local Open Scope list_scope.

(** Contents of the INTEGER [n >= 0], X.690 8.3: two's complement, so a zero byte
    precedes a digit of 128 or more. *)
Definition der_int (n : N) : list N :=
  let ds := be_bytes (digits n) n in
  if hd 0 ds <? 128 then ds else 0 :: ds.

(** Contents of an OBJECT IDENTIFIER, X.690 8.19: the first two arcs in one
    number, then base-128 digits with the top bit set in all but the last. *)
Definition base128 (n : N) : list N :=
  let k := N.to_nat (N.log2 n / 7) in
  map (fun i => n / 128 ^ N.of_nat (k - i) mod 128 + if (i <? k)%nat then 128 else 0) (seq 0 (S k)).
Definition oid (arcs : list N) : list N :=
  match arcs with
  | a :: b :: arcs => concat (map base128 (40 * a + b :: arcs))
  | _ => []
  end.

(** rsaEncryption, RFC 8017 A.1: 1.2.840.113549.1.1.1, with NULL parameters. *)
Definition rsa_encryption_oid : list N := oid [1; 2; 840; 113549; 1; 1; 1].
Definition rsa_algorithm : asn1 := Sequence [ObjectIdentifier rsa_encryption_oid; Null].

(** The structures, given the contents of the INTEGERs. *)
Definition rsa_private_key (version : N) (n e d p q dp dq qi : list N) : asn1 :=
  Sequence (map Integer [[version]; n; e; d; p; q; dp; dq; qi]).
Definition rsa_public_key (n e : list N) : asn1 := Sequence (map Integer [n; e]).
Definition private_key_info (key : list N) : asn1 :=
  Sequence [Integer [0]; rsa_algorithm; OctetString key].
Definition subject_public_key_info (key : list N) : asn1 :=
  Sequence [rsa_algorithm; BitString key 0].

(** The standard encodings of keys. *)
Definition private_key_der (n e d p q dp dq qi : N) : list N :=
  der (private_key_info (der (rsa_private_key 0 (der_int n) (der_int e) (der_int d) (der_int p)
                                (der_int q) (der_int dp) (der_int dq) (der_int qi)))).
Definition public_key_der (n e : N) : list N :=
  der (subject_public_key_info (der (rsa_public_key (der_int n) (der_int e)))).

(** The BigUint [k] has the unsigned value of the INTEGER contents [c]. *)
Definition stands_for (k c : list N) : Prop := canonical k /\ num k = be_num c.

(** [k] is the key stored in the encoding [data]. *)
Definition private_key_data (data : list N) (k : private_key) : Prop :=
  exists key v n e d p q dp dq qi,
    lax (private_key_info key) data /\
    lax (rsa_private_key v n e d p q dp dq qi) key /\
    stands_for (priv_n k) n /\ stands_for (priv_d k) d.

Definition public_key_data (data : list N) (k : public_key) : Prop :=
  exists key n e,
    lax (subject_public_key_info key) data /\
    lax (rsa_public_key n e) key /\
    stands_for (pub_n k) n /\ stands_for (pub_e k) e.

(** ** Defects of the structures, and the errors for them (the first that applies) *)

Inductive rsa_private_key_defect : key_error -> asn1 -> Prop :=
| pd_sequence a : (forall es, a <> Sequence es) -> rsa_private_key_defect (KNotSequence a) a
| pd_elements es : length es <> 9%nat -> rsa_private_key_defect KElements (Sequence es)
| pd_integers es : length es = 9%nat -> (forall cs, es <> map Integer cs) ->
    rsa_private_key_defect KIntegers (Sequence es)
| pd_version v cs : length cs = 8%nat -> length v <> 1%nat ->
    rsa_private_key_defect KVersionField (Sequence (map Integer (v :: cs))).

Inductive rsa_public_key_defect : key_error -> asn1 -> Prop :=
| bd_sequence a : (forall es, a <> Sequence es) -> rsa_public_key_defect (KNotSequence a) a
| bd_elements es : length es <> 2%nat -> rsa_public_key_defect KElements (Sequence es)
| bd_integers es : length es = 2%nat -> (forall cs, es <> map Integer cs) ->
    rsa_public_key_defect KIntegers (Sequence es).

Inductive algorithm_defect : key_error -> asn1 -> Prop :=
| ad_sequence a : (forall es, a <> Sequence es) -> algorithm_defect KAlgorithmSequence a
| ad_elements es : (forall o, es <> [ObjectIdentifier o; Null]) ->
    algorithm_defect KAlgorithm (Sequence es)
| ad_rsa o : o <> rsa_encryption_oid ->
    algorithm_defect KNotRsa (Sequence [ObjectIdentifier o; Null]).

Inductive private_key_info_defect : key_error -> asn1 -> Prop :=
| pi_sequence a : (forall es, a <> Sequence es) -> private_key_info_defect (KNotSequence a) a
| pi_elements es : length es <> 3%nat -> private_key_info_defect KElements (Sequence es)
| pi_version v alg key : v <> Integer [0] ->
    private_key_info_defect KVersion (Sequence [v; alg; key])
| pi_algorithm e alg key : algorithm_defect e alg ->
    private_key_info_defect e (Sequence [Integer [0]; alg; key])
| pi_octet_string key : (forall bs, key <> OctetString bs) ->
    private_key_info_defect KNotOctetString (Sequence [Integer [0]; rsa_algorithm; key])
| pi_parse e key : rejected e key ->
    private_key_info_defect (KInnerParse e) (private_key_info key)
| pi_key e key a : lax a key -> rsa_private_key_defect e a ->
    private_key_info_defect (KInner e) (private_key_info key).

Inductive subject_public_key_info_defect : key_error -> asn1 -> Prop :=
| si_sequence a : (forall es, a <> Sequence es) -> subject_public_key_info_defect (KNotSequence a) a
| si_elements es : length es <> 2%nat -> subject_public_key_info_defect KElements (Sequence es)
| si_algorithm e alg key : algorithm_defect e alg ->
    subject_public_key_info_defect e (Sequence [alg; key])
| si_bit_string key : (forall bs u, key <> BitString bs u) ->
    subject_public_key_info_defect KNotBitString (Sequence [rsa_algorithm; key])
| si_unused bs u : u <> 0 ->
    subject_public_key_info_defect KUnusedBits (Sequence [rsa_algorithm; BitString bs u])
| si_parse e key : rejected e key ->
    subject_public_key_info_defect (KInnerParse e) (subject_public_key_info key)
| si_key e key a : lax a key -> rsa_public_key_defect e a ->
    subject_public_key_info_defect (KInner e) (subject_public_key_info key).

(** For a PEM value with the label [label], the name of the error for another
    label, and the defects of its contents. *)
Definition pem_defect (label : list N) (other : key_error) (defect : key_error -> asn1 -> Prop)
    (e : key_error) (p : pem) : Prop :=
  if list_eq_dec N.eq_dec (pem_label p) label
  then (exists e', e = KParse e' /\ rejected e' (pem_data p)) \/
       exists a, lax a (pem_data p) /\ defect e a
  else e = other.

(** Reading a key from a text, tests/rsa.rs:70-74. *)
Definition import_private {P : profile} (s : list N) : res (option private_key) :=
  match decode_pem s with
  | RErr _ => Ok None
  | ROk p => let* r := private_key_try_from p in
             Ok (match r with ROk k => Some k | RErr _ => None end)
  end.
Definition import_public {P : profile} (s : list N) : res (option public_key) :=
  match decode_pem s with
  | RErr _ => Ok None
  | ROk p => let* r := public_key_try_from p in
             Ok (match r with ROk k => Some k | RErr _ => None end)
  end.
