(** * Properties C72-C74: the program built without overflow checks *)
From Verif Require Import Base ModelPad ModelBlock ModelAes ModelRc ModelMd ModelSha ModelBig ModelRsa
  ModelPem ModelKey.
From Verif Require Import SpecEndian SpecBlock SpecMd SpecSha SpecBig SpecRsa SpecMsg SpecAsn1 SpecRelease.
From Verif Require Import ProofRelease ProofInverse ProofRelease2 ProofRelease3 ProofRelease4.
From Coq Require Import ZArith.
Local Open Scope N_scope.
Local Open Scope list_scope.

(** C72. [agrees d r]: unless [d], with the checks, is the report of an overflow,
    [r], without them, is the same. *)
Theorem c72_value : forall A (d r : res A) v, agrees d r -> d = Ok v -> r = Ok v.
Proof. exact @agr_ok. Qed.

Theorem c72_panic : forall A (d r : res A) p, agrees d r -> p <> POverflow -> d = Panic p -> r = Panic p.
Proof. exact @agr_panic. Qed.

Theorem c72_pad : forall n b, agrees (@pkcs_unpad debug n b) (@pkcs_unpad release n b).
Proof. exact agr_pkcs_unpad. Qed.

Theorem c72_aes : forall nk key, agrees (@aes_make debug nk key) (@aes_make release nk key) /\
  agrees (@aes_from_u64s debug nk key) (@aes_from_u64s release nk key).
Proof. exact (fun nk key => conj (agr_aes_make nk key) (agr_aes_from_u64s nk key)). Qed.

Theorem c72_rc2 : forall key t1, agrees (@rc2_from_key debug key t1) (@rc2_from_key release key t1).
Proof. exact agr_rc2_from_key. Qed.

Theorem c72_rc5 : forall key r, agrees (@rc5_new debug key r) (@rc5_new release key r).
Proof. exact agr_rc5_new. Qed.

Theorem c72_hashes : forall m,
  agrees (@md2_hash debug m) (@md2_hash release m) /\ agrees (@md4_hash debug m) (@md4_hash release m) /\
  agrees (@md5_hash debug m) (@md5_hash release m) /\ agrees (@sha1 debug m) (@sha1 release m) /\
  agrees (@sha224 debug m) (@sha224 release m) /\ agrees (@sha256 debug m) (@sha256 release m) /\
  agrees (@sha384 debug m) (@sha384 release m) /\ agrees (@sha512 debug m) (@sha512 release m).
Proof.
  exact (fun m => conj (agr_md2_hash m) (conj (agr_md4_hash m) (conj (agr_md5_hash m) (conj (agr_sha1 m)
    (conj (agr_sha224 m) (conj (agr_sha256 m) (conj (agr_sha384 m) (agr_sha512 m)))))))).
Qed.

Theorem c72_big : forall a b i k capf,
  agrees (@bits_used debug a) (@bits_used release a) /\
  agrees (@is_set debug a i) (@is_set release a i) /\
  agrees (@add_assign_u8 debug a k) (@add_assign_u8 release a k) /\
  agrees (@add_assign debug a b) (@add_assign release a b) /\
  agrees (@big_cmp debug a b) (@big_cmp release a b) /\
  agrees (@sub_assign debug capf a b) (@sub_assign release capf a b) /\
  agrees (@rem_assign debug capf a b) (@rem_assign release capf a b).
Proof.
  exact (fun a b i k capf => conj (agr_bits_used a) (conj (agr_is_set a i) (conj (agr_add_assign_u8 a k)
    (conj (agr_add_assign a b) (conj (agr_big_cmp a b) (conj (agr_sub_assign capf a b)
    (agr_rem_assign capf a b))))))).
Qed.

Theorem c72_rsa : forall capf p q e key m,
  agrees (@create_keys debug p q e) (@create_keys release p q e) /\
  agrees (@rsa_encrypt debug capf key m) (@rsa_encrypt release capf key m) /\
  agrees (@rsa_decrypt debug capf key m) (@rsa_decrypt release capf key m).
Proof.
  exact (fun capf p q e key m => conj (agr_create_keys p q e)
    (conj (agr_rsa_encrypt capf key m) (agr_rsa_decrypt capf key m))).
Qed.

(** For every hash function of the caller's, built in the same way. *)
Theorem c72_oaep : forall (h h' : list N -> res (list N)), (forall m, agrees (h m) (h' m)) ->
  forall hn label m k,
  agrees (@oaep_encode debug hn h label m k) (@oaep_encode release hn h' label m k) /\
  agrees (@oaep_decode debug hn h label m k) (@oaep_decode release hn h' label m k).
Proof.
  exact (fun h h' H hn label m k => conj (agr_oaep_encode h h' H hn label m k)
    (agr_oaep_decode h h' H hn label m k)).
Qed.

(** For every padding scheme of the caller's; those of the crate qualify. *)
Theorem c72_message : forall E capf key m (ps ps' : padding_scheme E),
  (forall l m n, agrees (ps_encode ps l m n) (ps_encode ps' l m n)) ->
  (forall l m n, agrees (ps_decode ps l m n) (ps_decode ps' l m n)) ->
  agrees (@encrypt_message debug E capf key m ps) (@encrypt_message release E capf key m ps') /\
  agrees (@decrypt_message debug E capf key m ps) (@decrypt_message release E capf key m ps').
Proof.
  exact (fun E capf key m ps ps' H1 H2 => conj (agr_encrypt_message capf key m ps ps' H1)
    (agr_decrypt_message capf key m ps ps' H2)).
Qed.

Theorem c72_rsa_padding : forall l m n,
  agrees (ps_encode (@rsa_padding debug) l m n) (ps_encode (@rsa_padding release) l m n) /\
  agrees (ps_decode (@rsa_padding debug) l m n) (ps_decode (@rsa_padding release) l m n).
Proof. exact (fun l m n => conj (agr_rsa_encode l m n) (agr_rsa_decode l m n)). Qed.

Theorem c72_asn1 : forall b, agrees (@asn1_try_from debug b) (@asn1_try_from release b).
Proof. exact agr_asn1_try_from. Qed.

Theorem c72_keys : forall p,
  agrees (@private_key_try_from debug p) (@private_key_try_from release p) /\
  agrees (@public_key_try_from debug p) (@public_key_try_from release p).
Proof. exact (fun p => conj (agr_private_key_try_from p) (agr_public_key_try_from p)). Qed.

(** Decryption of blocks is the same in all cases. A block is an array of [n]
    bytes by its type, hence the hypothesis. *)
Theorem c72_block_decryption : forall S n cipher (mode : cipher_mode S) st c,
  (forall st b st' o, length b = n -> cm_decrypt_block mode cipher st b = Ok (st', o) -> length o = n) ->
  @be_decrypt release S n cipher mode st c = @be_decrypt debug S n cipher mode st c.
Proof. exact @be_decrypt_same. Qed.

(** So the digests are right in release builds, too. *)
Theorem c72_digests : forall m, bytes m -> N.of_nat (length m) < 2 ^ 61 ->
  @md2_hash release m = Ok (md2_spec m) /\ @md4_hash release m = Ok (md4_spec m) /\
  @md5_hash release m = Ok (md5_spec m) /\ @sha1 release m = Ok (sha1_spec m) /\
  @sha224 release m = Ok (sha224_spec m) /\ @sha256 release m = Ok (sha256_spec m) /\
  @sha384 release m = Ok (sha384_spec m) /\ @sha512 release m = Ok (sha512_spec m).
Proof. exact digests_release. Qed.

(** The two builds differ where the debug build reports an overflow. *)
Example c72_case :
  @cadd debug 8 200 100 = Panic POverflow /\ @cadd release 8 200 100 = Ok 44 /\
  @csub debug 16 3 5 = Panic POverflow /\ @csub release 16 3 5 = Ok 65534 /\
  @cmul debug 32 65536 65537 = Panic POverflow /\ @cmul release 32 65536 65537 = Ok 65536 /\
  @ci128 debug (2 ^ 127) = Panic POverflow /\ @ci128 release (2 ^ 127) = Ok (- 2 ^ 127)%Z /\
  ~ agrees (@Ok N 1) (@Ok N 2) /\
  @sha256 debug [] = @sha256 release [] /\ @rc5_new debug [1] 2 = @rc5_new release [1] 2.
Proof.
  do 8 (split; [vm_compute; reflexivity|]).
  split; [intros [H|H]; discriminate|]. split; vm_compute; reflexivity.
Qed.

(** C73. Without the checks [inverse] is right for every modulus of 128 bits. *)
Theorem c73_inverse : forall a n, a < 2 ^ 128 -> 0 < n < 2 ^ 128 ->
  (N.gcd a n <> 1 -> @inverse release a n = Ok None) /\
  (N.gcd a n = 1 -> exists d, @inverse release a n = Ok (Some d) /\ d <= n /\
    (a * d) mod n = 1 mod n).
Proof. exact inverse_release. Qed.

(** The result of [create_keys] for all numbers. *)
Theorem c73_create_keys : forall p q e, canonical p -> canonical q -> canonical e ->
  num p < 2 ^ 128 -> num q < 2 ^ 128 -> num e < 2 ^ 128 ->
  let l := wrapped_lambda (num p) (num q) in
  (num p = 1 /\ num q = 1 -> @create_keys release p q e = Panic PDivZero) /\
  (num p <> 1 \/ num q <> 1 -> N.gcd (num e) l <> 1 -> @create_keys release p q e = Panic PUnwrap) /\
  (num p <> 1 \/ num q <> 1 -> N.gcd (num e) l = 1 ->
   exists n d, @create_keys release p q e =
      Ok ({| priv_n := n; priv_d := d |}, {| pub_n := n; pub_e := e |}) /\
    canonical n /\ canonical d /\ num n = wrapped_modulus (num p) (num q) /\
    (0 < l -> num d <= l /\ (num e * num d) mod l = 1 mod l) /\ (l = 0 -> num e = 1 /\ num d = 1)).
Proof. exact create_keys_release. Qed.

Theorem c73_not_u128_panics : forall p q e, canonical p -> canonical q -> canonical e ->
  2 ^ 128 <= num p \/ 2 ^ 128 <= num q \/ 2 ^ 128 <= num e ->
  @create_keys release p q e = Panic PUnwrap.
Proof. exact create_keys_release_not_u128. Qed.

(** Two primes of 65 bits: no panic, but a modulus that is not their product and
    a message that does not survive. *)
Theorem c73_keys_refuted : exists p q e priv pub m c r,
  canonical p /\ canonical q /\ canonical e /\
  prime_N (num p) /\ prime_N (num q) /\ num p <> num q /\ num e < 2 ^ 128 /\
  N.gcd (num e) (N.lcm (num p - 1) (num q - 1)) = 1 /\
  @create_keys debug p q e = Panic POverflow /\
  @create_keys release p q e = Ok (priv, pub) /\ num (pub_n pub) <> num p * num q /\
  canonical m /\ num m < num (pub_n pub) /\
  @rsa_encrypt release (fun k => k) (rsa_from_public pub) m = Ok c /\
  @rsa_decrypt release (fun k => k) (rsa_from_private priv) c = Ok r /\ num r <> num m.
Proof. exact release_wrong_keys. Qed.

Example c73_case :
  @inverse release 3 (2 ^ 127 + 2) = Ok (Some 113427455640312821154458202477256070487) /\
  (3 * 113427455640312821154458202477256070487) mod (2 ^ 127 + 2) = 1 /\
  @inverse debug 3 (2 ^ 127 + 2) = Panic POverflow /\
  wrapped_modulus (2 ^ 64) (2 ^ 64) = 0 /\ wrapped_lambda (2 ^ 64) (2 ^ 64) = 2 ^ 64 - 1 /\
  @create_keys release [] [3] [1] = Ok ({| priv_n := []; priv_d := [1] |}, {| pub_n := []; pub_e := [1] |}) /\
  @create_keys debug [] [3] [1] = Panic POverflow.
Proof. do 6 (split; [vm_compute; reflexivity|]). vm_compute. reflexivity. Qed.

(** C74. RC2 keys outside of the domain are still rejected. *)
Theorem c74_rc2 : forall key t1, bytes key -> t1 < 2 ^ 16 ->
  ~ ((1 <= length key <= 128)%nat /\ 1 <= t1 <= 1024) ->
  @rc2_from_key release key t1 = Panic PIndex.
Proof. exact rc2_release_panics. Qed.

Theorem c74_unpad : @pkcs_unpad release 0 [] = Panic PIndex /\
  forall n b, (0 < n)%nat -> length b = n -> @pkcs_unpad release n b = @pkcs_unpad debug n b.
Proof. exact (conj unpad_zero unpad_same). Qed.

(** The parser stops at the same inputs, always with an index out of bounds. *)
Theorem c74_asn1 : forall b, @asn1_try_from release b = index_for_overflow (@asn1_try_from debug b).
Proof. exact ifo_try_from. Qed.

Theorem c74_asn1_panics : forall bs p, bytes bs ->
  @asn1_try_from release bs = Panic p <-> p = PIndex /\ exists p', crash p' bs.
Proof. exact asn1_release_panics. Qed.

Theorem c74_keys : forall p,
  @private_key_try_from release p = index_for_overflow (@private_key_try_from debug p) /\
  @public_key_try_from release p = index_for_overflow (@public_key_try_from debug p).
Proof. exact (fun p => conj (ifo_private_key p) (ifo_public_key p)). Qed.

Theorem c74_decrypt_message : forall E capf key ct (ps : padding_scheme E),
  sized capf key -> bytes ct -> allocates capf (length ct + 4) ->
  let v := rsa_power (be_num ct) (num (rsa_exponent key)) (num (rsa_modulo key)) in
  @decrypt_message release E capf key ct ps =
  if v <? 256 ^ N.of_nat (length ct)
  then (let* r := ps_decode ps [] (be_bytes (length ct) v) (length ct) in runwrap r)
  else Panic PIndex.
Proof. exact @decrypt_message_release. Qed.

(** The number of bits of a number of 2^29 bytes or more is silently wrong. *)
Theorem c74_bits_used : forall a, canonical a ->
  @bits_used release a = Ok (N.size (num a) mod 2 ^ 32).
Proof. exact bits_used_release. Qed.

(** OAEP checks the length itself: in both builds a message that is too long is rejected in
    the same way. *)
Theorem c74_oaep_too_long : forall (P : profile) hn h label m k v, h label = Ok v ->
  (k < length m + 2 * hn + 2)%nat -> @oaep_encode P hn h label m k = Panic PExplicit.
Proof. exact oaep_too_long. Qed.

(** With the modulus 0 the length for the padding wraps around to 2^29; what is encoded with
    that length then fails the assertion. *)
Theorem c74_empty_modulus : forall E capf e m (ps : padding_scheme E),
  (forall p, ps_encode ps [] m (N.to_nat (2 ^ 29)) = Panic p ->
     @encrypt_message release E capf {| rsa_exponent := e; rsa_modulo := [] |} m ps = Panic p) /\
  (forall b, ps_encode ps [] m (N.to_nat (2 ^ 29)) = Ok b -> bytes b ->
     @encrypt_message release E capf {| rsa_exponent := e; rsa_modulo := [] |} m ps = Panic PAssert).
Proof. exact empty_modulus. Qed.

Example c74_case_modulus :
  let ps := {| ps_encode := fun _ m _ => Ok (0 :: m); ps_decode := fun _ m _ => Ok (@ROk _ unit m) |} in
  @encrypt_message release unit (fun k => k) {| rsa_exponent := [3]; rsa_modulo := [] |} [7] ps = Panic PAssert /\
  @encrypt_message debug unit (fun k => k) {| rsa_exponent := [3]; rsa_modulo := [] |} [7] ps = Panic POverflow.
Proof.
  intros ps. split; [|vm_compute; reflexivity].
  apply (proj2 (c74_empty_modulus unit (fun k => k) [3] [7] ps) [0; 7]); [reflexivity|repeat constructor].
Qed.

Example c74_case :
  @rc2_from_key release [1] 1025 = Panic PIndex /\ @rc2_from_key debug [1] 1025 = Panic POverflow /\
  @asn1_try_from debug [4; 0x91; 0] = Panic POverflow /\ crash POverflow [4; 0x91; 0] /\
  (forall r, @asn1_try_from release [4; 0x91; 0] = r -> r = Panic PIndex).
Proof.
  split; [apply c74_rc2; [repeat constructor|reflexivity|]|].
  { intros [_ [_ H]]. apply H. reflexivity. }
  split; [vm_compute; reflexivity|]. split; [vm_compute; reflexivity|].
  split; [apply (crash_digits 4 17 [0]); split; reflexivity|].
  intros r <-. rewrite c74_asn1. vm_compute. reflexivity.
Qed.

Print Assumptions c72_value.
Print Assumptions c72_panic.
Print Assumptions c72_pad.
Print Assumptions c72_aes.
Print Assumptions c72_rc2.
Print Assumptions c72_rc5.
Print Assumptions c72_hashes.
Print Assumptions c72_big.
Print Assumptions c72_rsa.
Print Assumptions c72_oaep.
Print Assumptions c72_message.
Print Assumptions c72_rsa_padding.
Print Assumptions c72_asn1.
Print Assumptions c72_keys.
Print Assumptions c72_block_decryption.
Print Assumptions c72_digests.
Print Assumptions c73_inverse.
Print Assumptions c73_create_keys.
Print Assumptions c73_not_u128_panics.
Print Assumptions c73_keys_refuted.
Print Assumptions c74_rc2.
Print Assumptions c74_unpad.
Print Assumptions c74_asn1.
Print Assumptions c74_asn1_panics.
Print Assumptions c74_keys.
Print Assumptions c74_decrypt_message.
Print Assumptions c74_bits_used.
Print Assumptions c74_oaep_too_long.
Print Assumptions c74_empty_modulus.
