(** * Properties C50-C53: src/rsa/mgf.rs, src/rsa/oaep.rs, src/rsa/pad.rs *)
From Coq Require Import String.
From Verif Require Import Base ModelSha ModelRsa SpecEndian SpecText SpecHex SpecSha SpecOaep ProofOaep.
Local Open Scope N_scope.
Local Open Scope list_scope.

(** C50, for every hash function. *)
Theorem c50_mgf1 : forall hasher H hn limit, implements hasher H hn limit -> (0 < hn)%nat ->
  forall seed size, bytes seed -> N.of_nat (length seed) + 4 < limit ->
  N.of_nat size <= (2 ^ 32 - 1) * N.of_nat hn ->
  mgf1 hasher seed size = Ok (mgf1_spec H hn seed size).
Proof. exact mgf1_ok. Qed.

(** Byte [j] is byte [j mod hn] of the hash with counter [j / hn]. *)
Theorem c50_mgf1_byte : forall hasher H hn limit, implements hasher H hn limit -> (0 < hn)%nat ->
  forall seed size j, bytes seed -> N.of_nat (length seed) + 4 < limit -> (j < size)%nat ->
  nth j (mgf1_spec H hn seed size) 0 =
  nth (j mod hn) (H (seed ++ be_bytes 4 (N.of_nat (j / hn)))) 0.
Proof. exact mgf1_spec_nth. Qed.

Theorem c50_mgf1_length : forall hasher H hn limit, implements hasher H hn limit -> (0 < hn)%nat ->
  forall seed size, bytes seed -> N.of_nat (length seed) + 4 < limit ->
  length (mgf1_spec H hn seed size) = size.
Proof. exact mgf1_spec_length. Qed.

Theorem c50_mgf1_prefix : forall hasher H hn limit, implements hasher H hn limit -> (0 < hn)%nat ->
  forall seed a b, bytes seed -> N.of_nat (length seed) + 4 < limit -> (a <= b)%nat ->
  firstn a (mgf1_spec H hn seed b) = mgf1_spec H hn seed a.
Proof. exact mgf1_spec_prefix. Qed.

(** RFC 8017 allows 2^32 blocks; the counter overflows after the last one. *)
Theorem c50_mgf1_overflow : forall hasher H hn limit, implements hasher H hn limit -> (0 < hn)%nat ->
  forall seed size, bytes seed -> N.of_nat (length seed) + 4 < limit ->
  (2 ^ 32 - 1) * N.of_nat hn < N.of_nat size ->
  mgf1 hasher seed size = Panic POverflow.
Proof. exact mgf1_overflow. Qed.

Theorem c50_sha256 : implements sha256 sha256_spec 32 (2 ^ 61).
Proof. exact sha256_implements. Qed.

Theorem c50_sha1 : implements sha1 sha1_spec 20 (2 ^ 61).
Proof. exact sha1_implements. Qed.

Definition hex_of (r : res (list N)) : option (list N) :=
  match r with Ok b => Some (hex_print b) | Panic _ => None end.

(** mgf.rs:36-61. *)
Example c50_case :
  hex_of (mgf1 sha1 (text "foo") 3) = Some (text "1ac907") /\
  hex_of (mgf1 sha1 (text "foo") 5) = Some (text "1ac9075cd4") /\
  hex_of (mgf1 sha1 (text "bar") 5) = Some (text "bc0c655e01") /\
  hex_of (mgf1 sha1 (text "bar") 50) = Some (text "bc0c655e016bc2931d85a2e675181adcef7f581f76df2739da74faac41627be2f7f415c89e983fd0ce80ced9878641cb4876") /\
  hex_of (mgf1 sha256 (text "bar") 50) = Some (text "382576a7841021cc28fc4c0948753fb8312090cea942ea4c4e735d10dc724b155f9f6069f289d61daca0cb814502ef04eae1").
Proof. do 4 (split; [vm_compute; reflexivity|]). vm_compute. reflexivity. Qed.

(** C51, for every hash function and for [RsaPadding]. *)
Theorem c51_oaep_roundtrip : forall hasher H hn limit, implements hasher H hn limit -> (0 < hn)%nat ->
  forall label m k, bytes label -> bytes m -> oaep_sizes hn limit label k -> oaep_fits hn m k ->
  exists em, oaep_encode hn hasher label m k = Ok em /\ length em = k /\ hd 1 em = 0 /\ bytes em /\
    oaep_decode hn hasher label em k = Ok (ROk m).
Proof. exact oaep_roundtrip. Qed.

Theorem c51_rsa_padding_roundtrip : forall label m k, bytes label -> bytes m ->
  N.of_nat (length label) < 2 ^ 61 -> (length m + 66 <= k)%nat -> N.of_nat k <= 2 ^ 37 + 1 ->
  exists em, ps_encode rsa_padding label m k = Ok em /\ length em = k /\ hd 1 em = 0 /\ bytes em /\
    ps_decode rsa_padding label em k = Ok (ROk m).
Proof. exact rsa_padding_roundtrip. Qed.

Theorem c51_too_short_panics : forall label m k, bytes label -> N.of_nat (length label) < 2 ^ 61 ->
  (k < length m + 66)%nat -> ps_encode rsa_padding label m k = Panic PExplicit.
Proof. exact rsa_padding_too_short. Qed.

Theorem c51_too_long_panics : forall label m k, bytes label -> N.of_nat (length label) < 2 ^ 61 ->
  (length m + 66 <= k)%nat -> 2 ^ 37 + 1 < N.of_nat k ->
  ps_encode rsa_padding label m k = Panic POverflow.
Proof. exact rsa_padding_too_long. Qed.

(** pad.rs:27-32. *)
Example c51_case :
  exists em, ps_encode rsa_padding (text "abc") (text "some message") 123 = Ok em /\
    ps_decode rsa_padding (text "abc") em 123 = Ok (ROk (text "some message")).
Proof.
  eexists. split; [vm_compute; reflexivity|]. vm_compute. reflexivity.
Qed.

(** C52. *)
Theorem c52_encode_conforms : forall hasher H hn limit, implements hasher H hn limit -> (0 < hn)%nat ->
  forall label m k, bytes label -> bytes m -> oaep_sizes hn limit label k -> oaep_fits hn m k ->
  oaep_encode hn hasher label m k = Ok (oaep_spec H hn (repeat 42 hn) label m k).
Proof. exact oaep_encode_ok. Qed.

(** The data blocks of two messages of one length are masked with the same string. *)
Theorem c52_same_mask : forall hasher H hn limit, implements hasher H hn limit -> (0 < hn)%nat ->
  forall label m m' k em em', bytes label -> bytes m -> bytes m' ->
  oaep_sizes hn limit label k -> oaep_fits hn m k -> length m = length m' ->
  oaep_encode hn hasher label m k = Ok em -> oaep_encode hn hasher label m' k = Ok em' ->
  xor_bytes (skipn (hn + 1) em) (skipn (hn + 1) em') =
  repeat 0 (k - hn - 1 - length m) ++ xor_bytes m m'.
Proof. exact oaep_same_mask. Qed.

Example c52_case :
  exists em em', ps_encode rsa_padding [] (text "no!") 70 = Ok em /\
    ps_encode rsa_padding [] (text "yes") 70 = Ok em' /\
    skipn 67 (xor_bytes em em') = xor_bytes (text "no!") (text "yes") /\
    oaep_fits 32 (text "no!") 70.
Proof.
  eexists. eexists. split; [vm_compute; reflexivity|]. split; [vm_compute; reflexivity|].
  split; [vm_compute; reflexivity|]. unfold oaep_fits. cbn. lia.
Qed.

(** C53. *)
Theorem c53_decode_iff : forall hasher H hn limit, implements hasher H hn limit -> (0 < hn)%nat ->
  forall label em m, bytes label -> bytes em -> oaep_sizes hn limit label (length em) ->
  oaep_decode hn hasher label em (length em) = Ok (ROk m) <-> oaep_encodes H hn label m em.
Proof. exact oaep_decode_iff. Qed.

Theorem c53_decode_rejects : forall hasher H hn limit, implements hasher H hn limit -> (0 < hn)%nat ->
  forall label em, bytes label -> bytes em -> oaep_sizes hn limit label (length em) ->
  (2 * hn + 1 <= length em)%nat -> (forall m, ~ oaep_encodes H hn label m em) ->
  exists e, oaep_decode hn hasher label em (length em) = Ok (RErr e).
Proof. exact oaep_decode_rejects. Qed.

Theorem c53_unique : forall hasher H hn limit, implements hasher H hn limit -> (0 < hn)%nat ->
  forall label m m' em, bytes label -> bytes em -> oaep_sizes hn limit label (length em) ->
  oaep_encodes H hn label m em -> oaep_encodes H hn label m' em -> m = m'.
Proof. exact oaep_encodes_unique. Qed.

Theorem c53_short_panics : forall hasher H hn limit, implements hasher H hn limit -> (0 < hn)%nat ->
  forall label em, bytes label -> bytes em -> oaep_sizes hn limit label (length em) ->
  hd 1 em = 0 -> (length em < 2 * hn + 1)%nat ->
  oaep_decode hn hasher label em (length em) = Panic PIndex.
Proof. exact oaep_decode_short. Qed.

Theorem c53_empty_panics : forall hasher hn label k,
  oaep_decode hn hasher label [] k = Panic PIndex.
Proof. exact (fun _ _ _ _ => eq_refl). Qed.

Theorem c53_first_byte : forall hasher hn label b em k, b <> 0 ->
  oaep_decode hn hasher label (b :: em) k = Ok (RErr FirstByteNotZero).
Proof. exact oaep_decode_first_byte. Qed.

(** A length argument other than that of the string panics. *)
Theorem c53_length_mismatch_panics : forall hasher H hn limit, implements hasher H hn limit -> (0 < hn)%nat ->
  forall label em n_len, bytes label -> bytes em -> N.of_nat (length label) < limit ->
  N.of_nat (length em) + 4 < limit -> hd 1 em = 0 -> n_len <> length em ->
  oaep_decode hn hasher label em n_len =
  Panic (if (length em <? hn + 1)%nat then PIndex
         else if ((hn <? n_len)%nat && (N.of_nat n_len <=? 2 ^ 32 * N.of_nat hn + 1))%bool
         then PAssert else POverflow).
Proof. exact oaep_decode_mismatch. Qed.

(** Which error is reported, from the data block that the string hides. *)
Theorem c53_wrong_label : forall hasher H hn limit, implements hasher H hn limit -> (0 < hn)%nat ->
  forall label em, bytes label -> bytes em -> oaep_sizes hn limit label (length em) ->
  (2 * hn + 1 <= length em)%nat -> hd 1 em = 0 -> firstn hn (oaep_unmask H hn em) <> H label ->
  oaep_decode hn hasher label em (length em) = Ok (RErr WrongLabel).
Proof. exact oaep_decode_wrong_label. Qed.

Theorem c53_missing_separator : forall hasher H hn limit, implements hasher H hn limit -> (0 < hn)%nat ->
  forall label em j, bytes label -> bytes em -> oaep_sizes hn limit label (length em) ->
  (2 * hn + 1 <= length em)%nat -> hd 1 em = 0 -> oaep_unmask H hn em = H label ++ repeat 0 j ->
  oaep_decode hn hasher label em (length em) = Ok (RErr MissingOne).
Proof. exact oaep_decode_missing. Qed.

Theorem c53_separator : forall hasher H hn limit, implements hasher H hn limit -> (0 < hn)%nat ->
  forall label em j b x, bytes label -> bytes em -> oaep_sizes hn limit label (length em) ->
  (2 * hn + 1 <= length em)%nat -> hd 1 em = 0 ->
  oaep_unmask H hn em = H label ++ repeat 0 j ++ b :: x -> b <> 0 ->
  oaep_decode hn hasher label em (length em) = Ok (if b =? 1 then ROk x else RErr SeparatorNotOne).
Proof. exact oaep_decode_separator. Qed.

Example c53_case :
  exists em, ps_encode rsa_padding (text "abc") [7] 70 = Ok em /\
    ps_decode rsa_padding (text "abd") em 70 = Ok (RErr WrongLabel) /\
    firstn 32 (oaep_unmask sha256_spec 32 em) <> sha256_spec (text "abd") /\
    oaep_unmask sha256_spec 32 em = sha256_spec (text "abc") ++ repeat 0 3 ++ [1; 7] /\
    ps_decode rsa_padding (text "abc") em 69 = Panic PAssert /\
    ps_decode rsa_padding (text "abc") em 32 = Panic POverflow /\
    ps_decode rsa_padding (text "abc") (repeat 0 64) 64 = Panic PIndex /\
    ps_decode rsa_padding (text "abc") [1; 2] 2 = Ok (RErr FirstByteNotZero).
Proof.
  eexists. split; [vm_compute; reflexivity|]. split; [vm_compute; reflexivity|].
  split; [vm_compute; discriminate|].
  do 4 (split; [vm_compute; reflexivity|]). vm_compute. reflexivity.
Qed.

(** Strings that hide the data block of the empty label and [tail]. *)
Definition hiding (tail : list N) : list N :=
  let db := sha256_spec [] ++ tail in
  let masked := xor_bytes db (mgf1_spec sha256_spec 32 (repeat 9 32) (length db)) in
  [0] ++ xor_bytes (repeat 9 32) (mgf1_spec sha256_spec 32 masked 32) ++ masked.

Example c53_separator_case :
  oaep_unmask sha256_spec 32 (hiding [0; 0; 0]) = sha256_spec [] ++ repeat 0 3 ++ [] /\
  ps_decode rsa_padding [] (hiding [0; 0; 0]) 68 = Ok (RErr MissingOne) /\
  oaep_unmask sha256_spec 32 (hiding [0; 2; 1]) = sha256_spec [] ++ repeat 0 1 ++ [2; 1] /\
  ps_decode rsa_padding [] (hiding [0; 2; 1]) 68 = Ok (RErr SeparatorNotOne) /\
  ps_decode rsa_padding [] (hiding [0; 1; 2]) 68 = Ok (ROk [2]).
Proof. do 4 (split; [vm_compute; reflexivity|]). vm_compute. reflexivity. Qed.

Print Assumptions c50_mgf1.
Print Assumptions c50_mgf1_byte.
Print Assumptions c50_mgf1_length.
Print Assumptions c50_mgf1_prefix.
Print Assumptions c50_mgf1_overflow.
Print Assumptions c50_sha256.
Print Assumptions c50_sha1.
Print Assumptions c51_oaep_roundtrip.
Print Assumptions c51_rsa_padding_roundtrip.
Print Assumptions c51_too_short_panics.
Print Assumptions c51_too_long_panics.
Print Assumptions c52_encode_conforms.
Print Assumptions c52_same_mask.
Print Assumptions c53_decode_iff.
Print Assumptions c53_decode_rejects.
Print Assumptions c53_unique.
Print Assumptions c53_short_panics.
Print Assumptions c53_empty_panics.
Print Assumptions c53_first_byte.
Print Assumptions c53_length_mismatch_panics.
Print Assumptions c53_wrong_label.
Print Assumptions c53_missing_separator.
Print Assumptions c53_separator.
