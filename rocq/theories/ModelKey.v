(** * Model of src/rsa/asn1.rs and of the key conversions in src/rsa/mod.rs *)
From Verif Require Import Base ModelBig ModelRsa ModelPem.

Section Profile.
Context {P : profile}.

(** The error strings, as data. *)
Inductive key_error : Type :=
| NotPrivateKeyLabel            (* mod.rs:91 *)
| NotPublicKeyLabel             (* mod.rs:108 *)
| KParse (e : asn1_error)       (* from Asn1::try_from in mod.rs:93, 110 *)
| KNotSequence (found : asn1)   (* asn1.rs:40, 77, 128, 173 *)
| KAlgorithmSequence            (* asn1.rs:113 *)
| KElements                     (* asn1.rs:46, 83, 135, 180 *)
| KVersion                      (* asn1.rs:49 *)
| KAlgorithm                    (* asn1.rs:116 *)
| KNotRsa                       (* asn1.rs:54, 88 *)
| KNotOctetString               (* asn1.rs:58 *)
| KNotBitString                 (* asn1.rs:92 *)
| KUnusedBits                   (* asn1.rs:95 *)
| KInnerParse (e : asn1_error)  (* asn1.rs:62, 99 *)
| KInner (e : key_error)        (* asn1.rs:64, 101 *)
| KIntegers                     (* asn1.rs:149, 188 *)
| KVersionField.                (* asn1.rs:153 *)

(** The RSA object identifier, asn1.rs:52, 86. *)
Definition rsa_oid : list N := [42; 134; 72; 134; 247; 13; 1; 1; 1].

(** [AlgorithmIdentifier::from_asn1], asn1.rs:111-122: its [algorithm]. *)
Definition algorithm_from_asn1 (a : asn1) : result (list N) key_error :=
  match a with
  | Sequence [ObjectIdentifier algo; Null] => ROk algo
  | Sequence _ => RErr KAlgorithm
  | _ => RErr KAlgorithmSequence
  end.

(** [PrivateKey] of asn1.rs:19-29. *)
Record asn1_private_key := {
  apk_version : N;
  apk_modulus : list N;
  apk_public_exponent : list N;
  apk_private_exponent : list N;
  apk_prime1 : list N;
  apk_prime2 : list N;
  apk_exponent1 : list N;
  apk_exponent2 : list N;
  apk_coefficient : list N
}.

(** [PrivateKey::from_asn1], asn1.rs:126-167. *)
Definition private_key_from_asn1 (a : asn1) : res (result asn1_private_key key_error) :=
  match a with
  | Sequence seq =>
      if negb (length seq =? 9)%nat then Ok (RErr KElements)
      else match seq with
      | [Integer version; Integer modulus; Integer public_exponent;
         Integer private_exponent; Integer prime1; Integer prime2;
         Integer exponent1; Integer exponent2; Integer coefficient] =>
          if negb (length version =? 1)%nat then Ok (RErr KVersionField)
          else
            let* v := idx version 0 in
            let* n := big_from_be_bytes modulus in
            let* e := big_from_be_bytes public_exponent in
            let* d := big_from_be_bytes private_exponent in
            let* p := big_from_be_bytes prime1 in
            let* q := big_from_be_bytes prime2 in
            let* e1 := big_from_be_bytes exponent1 in
            let* e2 := big_from_be_bytes exponent2 in
            let* c := big_from_be_bytes coefficient in
            Ok (ROk {| apk_version := v; apk_modulus := n; apk_public_exponent := e;
                       apk_private_exponent := d; apk_prime1 := p; apk_prime2 := q;
                       apk_exponent1 := e1; apk_exponent2 := e2; apk_coefficient := c |})
      | _ => Ok (RErr KIntegers)
      end
  | _ => Ok (RErr (KNotSequence a))
  end.

(** [PublicKey::from_asn1], asn1.rs:171-195: modulus and public exponent. *)
Definition public_key_from_asn1 (a : asn1) : res (result (list N * list N) key_error) :=
  match a with
  | Sequence seq =>
      if negb (length seq =? 2)%nat then Ok (RErr KElements)
      else match seq with
      | [Integer modulus; Integer public_exponent] =>
          let* n := big_from_be_bytes modulus in
          let* e := big_from_be_bytes public_exponent in
          Ok (ROk (n, e))
      | _ => Ok (RErr KIntegers)
      end
  | _ => Ok (RErr (KNotSequence a))
  end.

(** [seq[0] != Asn1::Integer(vec![0])], asn1.rs:48. *)
Definition is_integer_zero (a : asn1) : bool :=
  match a with
  | Integer [b] => b =? 0
  | _ => false
  end.

(** [PrivateKeyInfo::from_asn1], asn1.rs:38-71: its [private_key]. *)
Definition private_key_info_from_asn1 (a : asn1)
    : res (result asn1_private_key key_error) :=
  match a with
  | Sequence seq =>
      if negb (length seq =? 3)%nat then Ok (RErr KElements)
      else
        let* s0 := idx seq 0 in
        if negb (is_integer_zero s0) then Ok (RErr KVersion)
        else
          let* s1 := idx seq 1 in
          match algorithm_from_asn1 s1 with
          | RErr e => Ok (RErr e)
          | ROk algo =>
              if negb (bytes_eqb algo rsa_oid) then Ok (RErr KNotRsa)
              else
                let* s2 := idx seq 2 in
                match s2 with
                | OctetString bytes =>
                    let* r := asn1_try_from bytes in
                    match r with
                    | RErr e => Ok (RErr (KInnerParse e))
                    | ROk asn =>
                        let* r := private_key_from_asn1 asn in
                        match r with
                        | RErr e => Ok (RErr (KInner e))
                        | ROk pr => Ok (ROk pr)
                        end
                    end
                | _ => Ok (RErr KNotOctetString)
                end
          end
  | _ => Ok (RErr (KNotSequence a))
  end.

(** [SubjectPublicKeyInfo::from_asn1], asn1.rs:75-107: its [subject_public_key]. *)
Definition subject_public_key_info_from_asn1 (a : asn1)
    : res (result (list N * list N) key_error) :=
  match a with
  | Sequence seq =>
      if negb (length seq =? 2)%nat then Ok (RErr KElements)
      else
        let* s0 := idx seq 0 in
        match algorithm_from_asn1 s0 with
        | RErr e => Ok (RErr e)
        | ROk algo =>
            if negb (bytes_eqb algo rsa_oid) then Ok (RErr KNotRsa)
            else
              let* s1 := idx seq 1 in
              match s1 with
              | BitString bytes unused_bits =>
                  if negb (unused_bits =? 0) then Ok (RErr KUnusedBits)
                  else
                    let* r := asn1_try_from bytes in
                    match r with
                    | RErr e => Ok (RErr (KInnerParse e))
                    | ROk asn =>
                        let* r := public_key_from_asn1 asn in
                        match r with
                        | RErr e => Ok (RErr (KInner e))
                        | ROk pb => Ok (ROk pb)
                        end
                    end
              | _ => Ok (RErr KNotBitString)
              end
        end
  | _ => Ok (RErr (KNotSequence a))
  end.

(** The labels "PRIVATE KEY" and "PUBLIC KEY", mod.rs:90, 107. *)
Definition private_label : list N := [80; 82; 73; 86; 65; 84; 69; 32; 75; 69; 89].
Definition public_label : list N := [80; 85; 66; 76; 73; 67; 32; 75; 69; 89].

(** [TryFrom<PEM> for PrivateKey], src/rsa/mod.rs:86-101. *)
Definition private_key_try_from (p : pem) : res (result private_key key_error) :=
  if negb (str_eqb (pem_label p) private_label) then Ok (RErr NotPrivateKeyLabel)
  else
    let* r := asn1_try_from (pem_data p) in
    match r with
    | RErr e => Ok (RErr (KParse e))
    | ROk asn =>
        let* r := private_key_info_from_asn1 asn in
        match r with
        | RErr e => Ok (RErr e)
        | ROk k => Ok (ROk {| priv_n := apk_modulus k; priv_d := apk_private_exponent k |})
        end
    end.

(** [TryFrom<PEM> for PublicKey], src/rsa/mod.rs:103-118. *)
Definition public_key_try_from (p : pem) : res (result public_key key_error) :=
  if negb (str_eqb (pem_label p) public_label) then Ok (RErr NotPublicKeyLabel)
  else
    let* r := asn1_try_from (pem_data p) in
    match r with
    | RErr e => Ok (RErr (KParse e))
    | ROk asn =>
        let* r := subject_public_key_info_from_asn1 asn in
        match r with
        | RErr e => Ok (RErr e)
        | ROk (n, e) => Ok (ROk {| pub_n := n; pub_e := e |})
        end
    end.

End Profile.
