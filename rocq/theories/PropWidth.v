(** * C124: targets on which [usize] does not have 64 bits *)
From Verif Require Import Base BaseLemmas ModelMd ModelPem ModelWidth SpecEndian SpecMd SpecAsn1 SpecWidth
  ProofMd ProofWidth.
Local Open Scope N_scope.

(** With 64 bits, the functions with the width as a parameter are those of the model. *)
Theorem c124_64_bits : forall P process m bs,
  @md_hash_w P 64 process m = @md_hash P process m /\ @asn1_try_from_w P 64 bs = @asn1_try_from P bs.
Proof. exact (fun P process m bs => conj (md_hash_64 P process m) (asn1_64 P bs)). Qed.
Print Assumptions c124_64_bits.

(** MD4 and MD5 conform to the standards for messages of fewer than [2^w] bits ... *)
Theorem c124_md4_short : forall w m, 10 <= w <= 64 -> N.of_nat (length m) < 2 ^ 61 -> 8 * N.of_nat (length m) < 2 ^ w ->
  @md_hash_w debug w md4_process m = Ok (md4_spec m) /\ @md_hash_w release w md4_process m = Ok (md4_spec m).
Proof. exact md4_short. Qed.
Print Assumptions c124_md4_short.

Theorem c124_md5_short : forall w m, 10 <= w <= 64 -> N.of_nat (length m) < 2 ^ 61 -> 8 * N.of_nat (length m) < 2 ^ w ->
  @md_hash_w debug w (@md5_process debug) m = Ok (md5_spec m) /\
  @md_hash_w release w (@md5_process release) m = Ok (md5_spec m).
Proof. exact md5_short. Qed.
Print Assumptions c124_md5_short.

(** ... from there on debug builds panic ... *)
Theorem c124_long_debug : forall w m, 10 <= w <= 64 -> 2 ^ w <= 8 * N.of_nat (length m) ->
  @md_hash_w debug w md4_process m = Panic POverflow /\ @md_hash_w debug w (@md5_process debug) m = Panic POverflow.
Proof. exact long_debug. Qed.
Print Assumptions c124_long_debug.

(** ... and release builds hash the message with another length at the end. *)
Theorem c124_long_release : forall w m, 10 <= w <= 64 -> N.of_nat (length m) < 2 ^ 61 ->
  @md_hash_w release w md4_process m = Ok (md_digest_low w md4_step md4_ops m) /\
  @md_hash_w release w (@md5_process release) m = Ok (md_digest_low w md5_step md5_ops m).
Proof. exact long_release. Qed.
Print Assumptions c124_long_release.

Theorem c124_other_padding : forall w m, 10 <= w <= 64 -> N.of_nat (length m) < 2 ^ 61 ->
  (md_pad_low w m = md_pad m <-> 8 * N.of_nat (length m) < 2 ^ w).
Proof. exact other_padding. Qed.
Print Assumptions c124_other_padding.

(** The ASN.1 parser has the same outcome as with 64 bits, unless that is a missing piece of [2^w] bytes
    or more; in particular it accepts the same values ... *)
Theorem c124_asn1_same : forall w bs, 10 <= w <= 64 -> bytes bs -> N.of_nat (length bs) < 2 ^ w ->
  (forall e, asn1_try_from bs = Ok (RErr e) -> length_beyond w e = false) ->
  asn1_try_from_w w bs = asn1_try_from bs.
Proof. exact asn1_same. Qed.
Print Assumptions c124_asn1_same.

(** ... and some more: a length that is too large by a multiple of [2^w] is taken for the right one. *)
Theorem c124_asn1_more : forall w ds c k, 10 <= w <= 64 -> bytes ds -> (length ds <= 16)%nat -> bytes c ->
  be_num ds = N.of_nat (length c) + k * 2 ^ w -> N.of_nat (length c) < 2 ^ w ->
  asn1_try_from_w w (4 :: (128 + size ds :: ds) ++ c) = Ok (ROk (OctetString c)).
Proof. exact asn1_more. Qed.
Print Assumptions c124_asn1_more.

(** So the result of the parser depends on the target. *)
Theorem c124_same_on_all_targets_refuted : exists bs e v, bytes bs /\
  asn1_try_from_w 64 bs = Ok (RErr e) /\ asn1_try_from_w 32 bs = Ok (ROk v).
Proof.
  exists [4; 0x85; 1; 0; 0; 0; 2; 17; 18], (TooLittleData 4 (2 ^ 32 + 2) 2), (OctetString [17; 18]).
  split; [repeat (apply Forall_cons; [reflexivity|]); apply Forall_nil|].
  split; vm_compute; reflexivity.
Qed.
Print Assumptions c124_same_on_all_targets_refuted.

(** "abc" on 32 bits; 128 zero bytes on 10 bits, where their 1024 bits are one too many. *)
Example c124_case :
  @md_hash_w debug 32 (@md5_process debug) [97; 98; 99] = Ok (be_bytes 16 0x900150983cd24fb0d6963f7d28e17f72) /\
  @md_hash_w debug 10 (@md5_process debug) (repeat 0 128) = Panic POverflow /\
  @md_hash_w release 10 (@md5_process release) (repeat 0 128) = Ok (md_digest_low 10 md5_step md5_ops (repeat 0 128)) /\
  md_digest_low 10 md5_step md5_ops (repeat 0 128) <> md5_spec (repeat 0 128).
Proof.
  do 3 (split; [vm_compute; reflexivity|]). vm_compute. discriminate.
Qed.
