(** * Properties C57-C60: src/pem/asn1.rs *)
From Coq Require Import String.
From Verif Require Import Base ModelPem SpecEndian SpecText SpecHex SpecAsn1 ProofAsn1.
Local Open Scope N_scope.
Local Open Scope list_scope.

(** C57: the accepted language and the value returned. *)
Theorem c57_accepts : forall bs v, bytes bs ->
  asn1_try_from bs = Ok (ROk v) <-> lax v bs.
Proof. exact try_from_iff. Qed.

(** One value is parsed off the front of any input. *)
Theorem c57_prefix : forall fuel bs a rest, bytes bs -> (length bs < fuel)%nat ->
  parse_from_bytes fuel bs = Ok (ROk (a, rest)) <-> exists e, bs = e ++ rest /\ lax a e.
Proof. exact parse_iff. Qed.

(** Hence the accepted language is unambiguous. *)
Theorem c57_unambiguous : forall bs v w, bytes bs -> lax v bs -> lax w bs -> v = w.
Proof. exact lax_unambiguous. Qed.

(** It contains all of (definite-length) BER with at most 16 length digits. *)
Theorem c57_ber : forall v bs,
  encodes (fun l n => ber_len l n /\ (length l <= 17)%nat) ber_content v bs ->
  size bs < 2 ^ 64 -> asn1_try_from bs = Ok (ROk v).
Proof. exact ber_accepted. Qed.

(** asn1.rs:79-98; then a NULL with contents, a length of zero digits and a
    negative INTEGER, which are accepted. *)
Example c57_case :
  asn1_try_from [0x30; 3; 2; 1; 9] = Ok (ROk (Sequence [Integer [9]])) /\
  asn1_try_from [0x30; 0x0b; 2; 1; 4; 0x30; 6; 2; 4; 6; 7; 8; 9] =
    Ok (ROk (Sequence [Integer [4]; Sequence [Integer [6; 7; 8; 9]]])) /\
  lax (Sequence [Integer [9]]) [0x30; 3; 2; 1; 9] /\
  asn1_try_from [5; 2; 7; 7] = Ok (ROk Null) /\
  asn1_try_from [4; 0x80] = Ok (ROk (OctetString [])) /\
  asn1_try_from [2; 1; 255] = Ok (ROk (Integer [255])) /\
  asn1_try_from [0x30; 3; 2; 1; 9; 0] = Ok (RErr ExtraBytes) /\
  asn1_try_from [0x30; 3; 2; 2; 9] = Ok (RErr (InSequence (TooLittleData 2 2 1))) /\
  asn1_try_from [0x31; 0] = Ok (RErr (UnknownTag 0x31)) /\
  asn1_try_from [2] = Ok (RErr TagNoLength).
Proof.
  do 2 (split; [vm_compute; reflexivity|]).
  split; [apply c57_accepts; [repeat constructor|vm_compute; reflexivity]|].
  do 6 (split; [vm_compute; reflexivity|]). vm_compute. reflexivity.
Qed.

(** C58. *)
Theorem c58_der_roundtrip : forall a, size (der a) < 2 ^ 64 ->
  asn1_try_from (der a) = Ok (ROk a).
Proof. exact der_roundtrip. Qed.

Theorem c58_der_injective : forall a b, size (der a) < 2 ^ 64 -> der a = der b -> a = b.
Proof. exact der_injective. Qed.

(** Concatenated values are parsed one by one. *)
Theorem c58_der_prefix : forall a rest fuel, size (der a) < 2 ^ 64 ->
  (length (der a) < fuel)%nat ->
  parse_from_bytes fuel (der a ++ rest) = Ok (ROk (a, rest)).
Proof. exact der_prefix. Qed.

(** [der_len] is the unique shortest length. *)
Theorem c58_der_shortest : forall l n, ber_len l n ->
  (length (der_len n) <= length l)%nat /\ (length (der_len n) = length l -> der_len n = l).
Proof. exact der_len_shortest. Qed.

Theorem c58_der_ber : forall a, good_contents a -> size (der a) < 2 ^ 64 -> ber a (der a).
Proof. exact der_ber. Qed.

Example c58_case :
  der (Sequence [Integer [4]; Sequence [Integer [6; 7; 8; 9]]; BitString [1; 2] 0]) =
    [0x30; 0x10; 2; 1; 4; 0x30; 6; 2; 4; 6; 7; 8; 9; 3; 3; 0; 1; 2] /\
  firstn 5 (der (OctetString (repeat 7 300))) = [4; 0x82; 1; 44; 7] /\
  asn1_try_from (der (OctetString (repeat 7 300))) = Ok (ROk (OctetString (repeat 7 300))) /\
  asn1_try_from (der (nest 40)) = Ok (ROk (nest 40)) /\ length (der (nest 40)) = 82%nat.
Proof. do 4 (split; [vm_compute; reflexivity|]). vm_compute. reflexivity. Qed.

(** C59: the full description of panics, and that there are some. *)
Theorem c59_panics_iff : forall bs p, bytes bs ->
  asn1_try_from bs = Panic p <-> crash p bs.
Proof. exact try_from_panics. Qed.

(** Every other input gets a value or an error; which, is determined. *)
Theorem c59_errors_iff : forall bs e, bytes bs ->
  asn1_try_from bs = Ok (RErr e) <-> rejected e bs.
Proof. exact try_from_errors. Qed.

Theorem c59_otherwise : forall bs, bytes bs -> (forall p, ~ crash p bs) ->
  (exists v, asn1_try_from bs = Ok (ROk v) /\ lax v bs) \/
  (exists e, asn1_try_from bs = Ok (RErr e) /\ forall v, ~ lax v bs).
Proof. exact try_from_otherwise. Qed.

Theorem c59_no_panic_refuted : exists bs, bytes bs /\
  exists r, asn1_try_from bs = Panic r.
Proof. exact panic_example. Qed.

(** Each of the three malformations occurs, also inside a sequence after a
    well-formed element; one is not even a malformation in BER. *)
Example c59_case :
  asn1_try_from [4; 0x91; 0] = Panic POverflow /\
  asn1_try_from [4; 0x82; 1] = Panic PIndex /\
  asn1_try_from [3; 0] = Panic PIndex /\
  asn1_try_from [0x30; 5; 2; 1; 9; 3; 0] = Panic PIndex /\
  crash PIndex [0x30; 5; 2; 1; 9; 3; 0] /\
  crash POverflow [0x30; 5; 2; 1; 9; 7; 0x91] /\
  rejected (InSequence (UnknownTag 7)) [0x30; 5; 2; 1; 9; 7; 0] /\
  rejected ExtraBytes [2; 1; 9; 7] /\
  ber Null long_null /\ asn1_try_from long_null = Panic POverflow.
Proof.
  do 4 (split; [vm_compute; reflexivity|]).
  do 2 (split; [apply c59_panics_iff; [repeat constructor|vm_compute; reflexivity]|]).
  do 2 (split; [apply c59_errors_iff; [repeat constructor|vm_compute; reflexivity]|]).
  split; [exact long_null_ber|]. vm_compute. reflexivity.
Qed.

(** C60: lengths are taken modulo 2^64 (with the data present or not). *)
Theorem c60_too_little : forall t ds rest, byte t -> bytes ds -> (length ds <= 16)%nat ->
  be_num ds < 2 ^ 64 -> size rest < be_num ds ->
  asn1_try_from (t :: (128 + size ds :: ds) ++ rest) =
  Ok (RErr (TooLittleData t (be_num ds) (length rest))).
Proof. exact too_little_long. Qed.

Theorem c60_too_little_short : forall t n rest, byte t -> n < 128 -> size rest < n ->
  asn1_try_from (t :: n :: rest) = Ok (RErr (TooLittleData t n (length rest))).
Proof. exact too_little_short. Qed.

Theorem c60_truncated : forall t ds rest, byte t -> bytes ds -> (length ds <= 16)%nat ->
  asn1_header (t :: (128 + size ds :: ds) ++ rest) = Ok (ROk (t, rest, be_num ds mod 2 ^ 64)).
Proof. exact length_truncated. Qed.

Theorem c60_lengths_refuted : exists ds rest v, bytes ds /\ bytes rest /\
  size rest < be_num ds /\
  asn1_try_from (4 :: (128 + size ds :: ds) ++ rest) = Ok (ROk v).
Proof. exact truncation_example. Qed.

(** A declared length of 2^64 + 1, with one byte of contents. *)
Example c60_case :
  asn1_try_from [4; 0x89; 1; 0; 0; 0; 0; 0; 0; 0; 1; 77] = Ok (ROk (OctetString [77])) /\
  asn1_try_from [4; 0x88; 1; 0; 0; 0; 0; 0; 0; 1; 77] =
    Ok (RErr (TooLittleData 4 (2 ^ 56 + 1) 1)).
Proof. split; vm_compute; reflexivity. Qed.

Print Assumptions c57_accepts.
Print Assumptions c57_prefix.
Print Assumptions c57_unambiguous.
Print Assumptions c57_ber.
Print Assumptions c58_der_roundtrip.
Print Assumptions c58_der_injective.
Print Assumptions c58_der_prefix.
Print Assumptions c58_der_shortest.
Print Assumptions c58_der_ber.
Print Assumptions c59_panics_iff.
Print Assumptions c59_errors_iff.
Print Assumptions c59_otherwise.
Print Assumptions c59_no_panic_refuted.
Print Assumptions c60_too_little.
Print Assumptions c60_too_little_short.
Print Assumptions c60_truncated.
Print Assumptions c60_lengths_refuted.
