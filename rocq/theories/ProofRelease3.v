(** * A pair of primes for which the release build makes wrong keys *)
From Coq Require Import ZifyBool ZifyNat ZifyN.
From Verif Require Import Base BaseLemmas SpecRelease ModelBig ModelRsa ModelMd ModelSha SpecBig SpecRsa
  SpecMd SpecSha.
From Verif Require Import ProofPrime ProofBig ProofBig3 ProofRsa ProofMd2 ProofMd ProofSha ProofSha2 ProofRelease ProofRelease2.

Lemma power_fast a e m : m <> 0 -> e <> 0 ->
  rsa_power a e m = Z.to_N (pow_mod_pos (Z.of_N a) (N.succ_pos (e - 1)) (Z.of_N m)).
Proof.
  intros Hm He. rewrite pow_mod_pos_ok by lia. unfold rsa_power.
  assert (E : Z.pos (N.succ_pos (e - 1)) = Z.of_N e).
  { change (Z.pos (N.succ_pos (e - 1))) with (Z.of_N (N.pos (N.succ_pos (e - 1)))).
    rewrite N.succ_pos_spec. lia. }
  rewrite E, <- N2Z.inj_pow, <- N2Z.inj_mod by auto. now rewrite N2Z.id.
Qed.

Definition wide_p : list N := [1; 0; 0; 0; 74; 0; 0; 0; 1].
Definition wide_q : list N := [1; 0; 0; 0; 6; 0; 0; 0; 1].
Definition wide_e : list N := [1; 0; 1].
Definition wide_n : list N := [1; 0; 0; 0; 80; 0; 0; 0; 190; 1; 0; 0; 80].
Definition wide_d : list N := [1; 0; 255; 255; 36; 6; 35; 250; 12].

Lemma wide_encrypt : rsa_power (num [2]) (num wide_e) (num wide_n) = 3091085746509938060978869251836.
Proof. rewrite power_fast by discriminate. vm_compute. reflexivity. Qed.
Lemma wide_decrypt : rsa_power 3091085746509938060978869251836 (num wide_d) (num wide_n)
  = 3000482901270353308919888918526.
Proof. rewrite power_fast by discriminate. vm_compute. reflexivity. Qed.

Ltac canon := split; [repeat constructor; reflexivity|discriminate].

Lemma release_wrong_keys : exists p q e priv pub m c r,
  canonical p /\ canonical q /\ canonical e /\
  prime_N (num p) /\ prime_N (num q) /\ num p <> num q /\ num e < 2 ^ 128 /\
  N.gcd (num e) (N.lcm (num p - 1) (num q - 1)) = 1 /\
  @create_keys debug p q e = Panic POverflow /\
  @create_keys release p q e = Ok (priv, pub) /\ num (pub_n pub) <> num p * num q /\
  canonical m /\ num m < num (pub_n pub) /\
  @rsa_encrypt release (fun k => k) (rsa_from_public pub) m = Ok c /\
  @rsa_decrypt release (fun k => k) (rsa_from_private priv) c = Ok r /\ num r <> num m.
Proof.
  assert (C : canonical wide_n /\ canonical wide_e /\ canonical wide_d /\ canonical [2]).
  { split; [canon|]. split; [canon|]. split; canon. }
  destruct C as (Cn & Ce & Cd & Cm).
  assert (Al : allocates (fun k => k) 100).
  { intros k Hk. split; [auto|]. unfold capacity_ok. change (2 ^ 29) with 536870912. lia. }
  destruct (rsa_encrypt_spec (fun k => k) 100 {| rsa_exponent := wide_e; rsa_modulo := wide_n |} [2]
    Ce Cn Cm eq_refl eq_refl ltac:(apply Nat.leb_le; reflexivity) ltac:(apply Nat.leb_le; reflexivity) Al)
    as (c & E1 & _ & C1 & V1).
  cbn [rsa_exponent rsa_modulo] in V1. rewrite wide_encrypt in V1.
  assert (Lc : (length c <= 13)%nat).
  { apply (canonical_length_lt c 13 C1). change (from_le c) with (num c). rewrite V1.
    vm_compute. reflexivity. }
  destruct (rsa_encrypt_spec (fun k => k) 100 {| rsa_exponent := wide_d; rsa_modulo := wide_n |} c
    Cd Cn C1 eq_refl eq_refl ltac:(lia) ltac:(apply Nat.leb_le; reflexivity) Al) as (r & _ & E2 & C2 & V2).
  cbn [rsa_exponent rsa_modulo] in V2. rewrite V1, wide_decrypt in V2.
  exists wide_p, wide_q, wide_e, {| priv_n := wide_n; priv_d := wide_d |},
    {| pub_n := wide_n; pub_e := wide_e |}, [2], c, r.
  split; [canon|]. split; [canon|]. split; [canon|].
  split; [apply (proth_prime 2147483685 33 7); vm_compute; reflexivity|].
  split; [apply (proth_prime 2147483651 33 3); vm_compute; reflexivity|].
  split; [discriminate|]. split; [reflexivity|]. split; [vm_compute; reflexivity|].
  split; [vm_compute; reflexivity|]. split; [vm_compute; reflexivity|]. split; [vm_compute; discriminate|].
  split; [exact Cm|]. split; [reflexivity|].
  split; [eapply agr_ok; [apply agr_rsa_encrypt|exact E1]|].
  split; [eapply agr_ok; [apply agr_rsa_decrypt|exact E2]|].
  rewrite V2. discriminate.
Qed.

(** ** Digests *)

Lemma digests_release m : bytes m -> N.of_nat (length m) < 2 ^ 61 ->
  @md2_hash release m = Ok (md2_spec m) /\ @md4_hash release m = Ok (md4_spec m) /\
  @md5_hash release m = Ok (md5_spec m) /\ @sha1 release m = Ok (sha1_spec m) /\
  @sha224 release m = Ok (sha224_spec m) /\ @sha256 release m = Ok (sha256_spec m) /\
  @sha384 release m = Ok (sha384_spec m) /\ @sha512 release m = Ok (sha512_spec m).
Proof.
  intros Hb Hl.
  assert (Hl' : N.of_nat (length m) < 2 ^ 125) by (eapply N.lt_trans; [exact Hl|reflexivity]).
  split; [exact (agr_ok _ _ _ (agr_md2_hash m) (proj1 (md2_conforms m Hb)))|].
  split; [exact (agr_ok _ _ _ (agr_md4_hash m) (md4_conforms m Hl))|].
  split; [exact (agr_ok _ _ _ (agr_md5_hash m) (md5_conforms m Hl))|].
  split; [exact (agr_ok _ _ _ (agr_sha1 m) (sha1_conforms m Hb Hl))|].
  split; [exact (agr_ok _ _ _ (agr_sha224 m) (sha224_conforms m Hb Hl))|].
  split; [exact (agr_ok _ _ _ (agr_sha256 m) (sha256_conforms m Hb Hl))|].
  split; [exact (agr_ok _ _ _ (agr_sha384 m) (sha384_conforms m Hb Hl'))|].
  exact (agr_ok _ _ _ (agr_sha512 m) (sha512_conforms m Hb Hl')).
Qed.
