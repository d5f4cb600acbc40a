(** * Key import on targets where [usize] has [w] bits: src/rsa/asn1.rs, src/rsa/mod.rs

    The same code as in [ModelKey], with the parser of [ModelWidth]. Nothing else in it depends
    on the width: the numbers are taken over byte by byte. *)
From Verif Require Import Base ModelBig ModelPem ModelRsa ModelKey ModelWidth.
Local Open Scope N_scope.

Section Profile.
Context {P : profile}.
Section Width.
Context (w : N).

(** [PrivateKeyInfo::from_asn1], asn1.rs:38-71: its [private_key]. *)
Definition private_key_info_from_asn1_w (a : asn1)
    : res (result asn1_private_key key_error) :=
  match a with
  | Sequence seq =>
      if negb (length seq =? 3)%nat then Ok (RErr KElements)
      else
        let* s0 := idx seq 0 in
        if negb (is_integer_zero s0) then Ok (RErr KVersion)
        else
          let* s1 := idx seq 1 in
          match algorithm_from_asn1 s1 with
          | RErr e => Ok (RErr e)
          | ROk algo =>
              if negb (bytes_eqb algo rsa_oid) then Ok (RErr KNotRsa)
              else
                let* s2 := idx seq 2 in
                match s2 with
                | OctetString bytes =>
                    let* r := asn1_try_from_w w bytes in
                    match r with
                    | RErr e => Ok (RErr (KInnerParse e))
                    | ROk asn =>
                        let* r := private_key_from_asn1 asn in
                        match r with
                        | RErr e => Ok (RErr (KInner e))
                        | ROk pr => Ok (ROk pr)
                        end
                    end
                | _ => Ok (RErr KNotOctetString)
                end
          end
  | _ => Ok (RErr (KNotSequence a))
  end.

(** [SubjectPublicKeyInfo::from_asn1], asn1.rs:75-107: its [subject_public_key]. *)
Definition subject_public_key_info_from_asn1_w (a : asn1)
    : res (result (list N * list N) key_error) :=
  match a with
  | Sequence seq =>
      if negb (length seq =? 2)%nat then Ok (RErr KElements)
      else
        let* s0 := idx seq 0 in
        match algorithm_from_asn1 s0 with
        | RErr e => Ok (RErr e)
        | ROk algo =>
            if negb (bytes_eqb algo rsa_oid) then Ok (RErr KNotRsa)
            else
              let* s1 := idx seq 1 in
              match s1 with
              | BitString bytes unused_bits =>
                  if negb (unused_bits =? 0) then Ok (RErr KUnusedBits)
                  else
                    let* r := asn1_try_from_w w bytes in
                    match r with
                    | RErr e => Ok (RErr (KInnerParse e))
                    | ROk asn =>
                        let* r := public_key_from_asn1 asn in
                        match r with
                        | RErr e => Ok (RErr (KInner e))
                        | ROk pb => Ok (ROk pb)
                        end
                    end
              | _ => Ok (RErr KNotBitString)
              end
        end
  | _ => Ok (RErr (KNotSequence a))
  end.

(** [TryFrom<PEM> for PrivateKey], src/rsa/mod.rs:86-101. *)
Definition private_key_try_from_w (p : pem) : res (result private_key key_error) :=
  if negb (str_eqb (pem_label p) private_label) then Ok (RErr NotPrivateKeyLabel)
  else
    let* r := asn1_try_from_w w (pem_data p) in
    match r with
    | RErr e => Ok (RErr (KParse e))
    | ROk asn =>
        let* r := private_key_info_from_asn1_w asn in
        match r with
        | RErr e => Ok (RErr e)
        | ROk k => Ok (ROk {| priv_n := apk_modulus k; priv_d := apk_private_exponent k |})
        end
    end.

(** [TryFrom<PEM> for PublicKey], src/rsa/mod.rs:103-118. *)
Definition public_key_try_from_w (p : pem) : res (result public_key key_error) :=
  if negb (str_eqb (pem_label p) public_label) then Ok (RErr NotPublicKeyLabel)
  else
    let* r := asn1_try_from_w w (pem_data p) in
    match r with
    | RErr e => Ok (RErr (KParse e))
    | ROk asn =>
        let* r := subject_public_key_info_from_asn1_w asn in
        match r with
        | RErr e => Ok (RErr e)
        | ROk (n, e) => Ok (ROk {| pub_n := n; pub_e := e |})
        end
    end.

End Width.
End Profile.
