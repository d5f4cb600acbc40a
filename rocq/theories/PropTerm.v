(** * C100: every call returns or panics

    [Panic PFuel] is how the model says that a loop has not ended. *)
From Verif Require Import Base.
From Verif Require Import ModelPad ModelBlock ModelAes ModelRc ModelMd ModelSha ModelBig ModelRsa
  ModelPem ModelKey ModelOracle.
From Verif Require Import ProofTerm ProofTerm2 ProofTerm3.
Local Open Scope N_scope.

(** The arithmetic of RSA, for keys of any kind and both kinds of build. *)
Theorem c100_rsa : forall (P : profile) capf k m, bytes m ->
  rsa_encrypt capf k m <> Panic PFuel /\ rsa_decrypt capf k m <> Panic PFuel.
Proof.
  exact (fun P capf k m Hm =>
    conj (fine_ends _ (post_fine _ _ (post_pow_mod capf m (rsa_exponent k) (rsa_modulo k) Hm)))
         (fine_ends _ (post_fine _ _ (post_pow_mod capf m (rsa_exponent k) (rsa_modulo k) Hm)))).
Qed.
Print Assumptions c100_rsa.

Theorem c100_create_keys : forall (P : profile) p q e, bytes p -> bytes q -> bytes e ->
  create_keys p q e <> Panic PFuel.
Proof. exact (fun P p q e Hp Hq He => fine_ends _ (fine_create_keys p q e Hp Hq He)). Qed.
Print Assumptions c100_create_keys.

Theorem c100_messages : forall (P : profile) capf k m, bytes m ->
  encrypt_message capf k m rsa_padding <> Panic PFuel /\ decrypt_message capf k m rsa_padding <> Panic PFuel.
Proof.
  exact (fun P capf k m Hm =>
    conj (fine_ends _ (fine_encrypt_message capf k m rsa_padding post_rsa_encode Hm))
         (fine_ends _ (fine_decrypt_message capf k m rsa_padding fine_rsa_decode Hm))).
Qed.
Print Assumptions c100_messages.

(** OAEP with any hash function that returns and never returns nothing. *)
Theorem c100_oaep : forall (P : profile) hasher hn label m n,
  (forall x, hasher x <> Panic PFuel /\ hasher x <> Ok []) ->
  oaep_encode hn hasher label m n <> Panic PFuel /\ oaep_decode hn hasher label m n <> Panic PFuel.
Proof.
  exact (fun P hasher hn label m n H =>
    let H' := fun x => ends_nonempty _ (proj1 (H x)) (proj2 (H x)) in
    conj (fine_ends _ (fine_oaep_encode hasher H' hn label m n))
         (fine_ends _ (fine_oaep_decode hasher H' hn label m n))).
Qed.
Print Assumptions c100_oaep.

(** It is not true of every hash function: with one that has no output, [mgf1] does not
    return in a release build, however long one waits; in a debug build it panics when its
    counter overflows. *)
Theorem c100_mgf1_refuted : exists hasher, (forall x : list N, hasher x = Ok (@nil N)) /\
  forall fuel seed n, (0 < n)%nat ->
    @mgf1_loop release fuel hasher (length seed) (seed ++ [0; 0; 0; 0]) [] 0 n = Panic PFuel.
Proof.
  exact (ex_intro _ (fun _ => Ok []) (conj (fun _ => eq_refl)
    (fun fuel seed n Hn => no_output_release fuel (length seed) (seed ++ [0; 0; 0; 0]) 0 n Hn
       (app_length seed [0; 0; 0; 0]) eq_refl))).
Qed.
Print Assumptions c100_mgf1_refuted.

Theorem c100_mgf1_debug : forall fuel seed n, (0 < n)%nat -> 2 ^ 32 <= N.of_nat fuel ->
  @mgf1_loop debug fuel (fun _ => Ok []) (length seed) (seed ++ [0; 0; 0; 0]) [] 0 n = Panic POverflow.
Proof.
  exact (fun fuel seed n Hn F => no_output_debug fuel (length seed) (seed ++ [0; 0; 0; 0]) 0 n Hn
    (app_length seed [0; 0; 0; 0]) eq_refl F).
Qed.
Print Assumptions c100_mgf1_debug.

(** ASN.1 and keys, for any input. *)
Theorem c100_asn1 : forall (P : profile) bs, asn1_try_from bs <> Panic PFuel.
Proof. exact (fun P bs => fine_ends _ (fine_asn1_try_from bs)). Qed.
Print Assumptions c100_asn1.

Theorem c100_keys : forall (P : profile) p,
  private_key_try_from p <> Panic PFuel /\ public_key_try_from p <> Panic PFuel.
Proof. exact (fun P p => conj (fine_ends _ (fine_private_key_try_from p)) (fine_ends _ (fine_public_key_try_from p))). Qed.
Print Assumptions c100_keys.

Theorem c100_biguint : forall (P : profile) capf a b c i s,
  bits_used a <> Panic PFuel /\ is_set a i <> Panic PFuel /\ update a i s <> Panic PFuel /\
  big_from_u128 c <> Panic PFuel /\ big_from_be_bytes a <> Panic PFuel /\ big_as_u128 a <> Panic PFuel /\
  add_assign_u8 a c <> Panic PFuel /\ add_assign a b <> Panic PFuel /\ big_cmp a b <> Panic PFuel /\
  sub_assign capf a b <> Panic PFuel /\ shr_assign a i <> Panic PFuel /\ rem_assign capf a b <> Panic PFuel.
Proof.
  exact (fun P capf a b c i s =>
    conj (fine_ends _ (fine_bits_used a)) (conj (fine_ends _ (fine_is_set a i)) (conj (fine_ends _ (fine_update a i s))
    (conj (fine_ends _ (fine_from_u128 c)) (conj (fine_ends _ (fine_from_be_bytes a)) (conj (fine_ends _ (fine_as_u128 a))
    (conj (fine_ends _ (fine_add_assign_u8 a c)) (conj (fine_ends _ (fine_add_assign a b)) (conj (fine_ends _ (fine_big_cmp a b))
    (conj (fine_ends _ (fine_sub_assign capf a b)) (conj (fine_ends _ (fine_shr_assign a i))
          (fine_ends _ (fine_rem_assign capf a b))))))))))))).
Qed.
Print Assumptions c100_biguint.

(** The ciphers, and the encryption of messages with any cipher and mode that return. *)
Theorem c100_ciphers : forall (P : profile) nk key t r c2 (a : aes) (s : rc4) (c5 : rc5) b,
  aes_make nk key <> Panic PFuel /\ aes_encrypt a b <> Panic PFuel /\ aes_decrypt a b <> Panic PFuel /\
  rc2_from_key key t <> Panic PFuel /\ rc2_encrypt c2 b <> Panic PFuel /\ rc2_decrypt c2 b <> Panic PFuel /\
  rc4_new key <> Panic PFuel /\ rc4_encrypt s b <> Panic PFuel /\ rc4_decrypt s b <> Panic PFuel /\
  rc5_new key r <> Panic PFuel /\ rc5_encrypt c5 b <> Panic PFuel /\ rc5_decrypt c5 b <> Panic PFuel.
Proof.
  exact (fun P nk key t r c2 a s c5 b =>
    conj (fine_ends _ (fine_aes_make nk key)) (conj (fine_ends _ (fine_aes_encrypt a b)) (conj (fine_ends _ (fine_aes_decrypt a b))
    (conj (fine_ends _ (fine_rc2_from_key key t)) (conj (fine_ends _ (fine_rc2_encrypt c2 b)) (conj (fine_ends _ (fine_rc2_decrypt c2 b))
    (conj (fine_ends _ (fine_rc4_new key)) (conj (fine_ends _ (fine_rc4_encrypt s b)) (conj (fine_ends _ (fine_rc4_decrypt s b))
    (conj (fine_ends _ (fine_rc5_new key r)) (conj (fine_ends _ (fine_rc5_encrypt c5 b))
          (fine_ends _ (fine_rc5_decrypt c5 b))))))))))))).
Qed.
Print Assumptions c100_ciphers.

Theorem c100_block : forall (P : profile) S n cipher (mode : cipher_mode S) st m,
  (forall s b, cm_encrypt_block mode cipher s b <> Panic PFuel) ->
  (forall s b, cm_decrypt_block mode cipher s b <> Panic PFuel) ->
  snd (be_encrypt n cipher mode st m) <> Panic PFuel /\ snd (be_decrypt n cipher mode st m) <> Panic PFuel.
Proof.
  exact (fun P S n cipher mode st m He Hd =>
    conj (fine_ends _ (fine_be_encrypt n cipher mode st m (fun s b => ends_fine _ (He s b))))
         (fine_ends _ (fine_be_decrypt n cipher mode st m (fun s b => ends_fine _ (Hd s b))))).
Qed.
Print Assumptions c100_block.

Theorem c100_hashes : forall (P : profile) m,
  md2_hash m <> Panic PFuel /\ md4_hash m <> Panic PFuel /\ md5_hash m <> Panic PFuel /\
  sha1 m <> Panic PFuel /\ sha224 m <> Panic PFuel /\ sha256 m <> Panic PFuel /\
  sha384 m <> Panic PFuel /\ sha512 m <> Panic PFuel.
Proof.
  exact (fun P m =>
    conj (fine_ends _ (fine_md2_hash m)) (conj (fine_ends _ (fine_md4_hash m)) (conj (fine_ends _ (fine_md5_hash m))
    (conj (fine_ends _ (fine_sha1 m)) (conj (fine_ends _ (fine_sha224 m)) (conj (fine_ends _ (fine_sha256 m))
    (conj (fine_ends _ (fine_sha384 m)) (fine_ends _ (fine_sha512 m))))))))).
Qed.
Print Assumptions c100_hashes.

(** The amount of fuel is not part of the model's meaning: more of it does not change a
    result. *)
Theorem c100_fuel : forall (P : profile) k fuel,
  (forall capf r a b m, mul_mod_loop fuel capf r a b m <> Panic PFuel ->
     mul_mod_loop (fuel + k) capf r a b m = mul_mod_loop fuel capf r a b m) /\
  (forall r nr t nt, inverse_loop fuel r nr t nt <> Panic PFuel ->
     inverse_loop (fuel + k) r nr t nt = inverse_loop fuel r nr t nt) /\
  (forall h l hc o c n, mgf1_loop fuel h l hc o c n <> Panic PFuel ->
     mgf1_loop (fuel + k) h l hc o c n = mgf1_loop fuel h l hc o c n) /\
  (forall bs, parse_from_bytes fuel bs <> Panic PFuel ->
     parse_from_bytes (fuel + k) bs = parse_from_bytes fuel bs).
Proof.
  exact (fun P k fuel => conj (fun capf r a b m => ext_use _ _ (ext_mul_mod_loop k capf fuel r a b m))
    (conj (fun r nr t nt => ext_use _ _ (ext_inverse_loop k fuel r nr t nt))
    (conj (fun h l hc o c n => ext_use _ _ (ext_mgf1_loop h k fuel l hc o c n))
          (fun bs => ext_use _ _ (ext_parse k fuel bs))))).
Qed.
Print Assumptions c100_fuel.

(** The modulus zero, a number with a superfluous zero and an even modulus: all return. *)
Example c100_case :
  @rsa_encrypt release (fun n => n) {| rsa_exponent := [3]; rsa_modulo := [] |} [2] = Ok [8] /\
  rsa_encrypt (P := debug) (fun n => n) {| rsa_exponent := [3]; rsa_modulo := [33] |} [2; 0] = Panic PExplicit /\
  rsa_encrypt (P := debug) (fun n => n) {| rsa_exponent := [3]; rsa_modulo := [10] |} [7] = Ok [3].
Proof. vm_compute. repeat split. Qed.
