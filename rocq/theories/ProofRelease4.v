(** * Proofs: release builds, OAEP of long messages and an empty modulus *)
From Coq Require Import ZifyBool ZifyNat ZifyN.
From Verif Require Import Base BaseLemmas SpecRelease ModelBig ModelRsa SpecBig SpecRsa
  ProofBig ProofBig2 ProofBig3 ProofRsa ProofRelease ProofRelease2 ProofRelease3.
Local Open Scope N_scope.

Lemma oaep_too_long (P : profile) hn h label m k v : h label = Ok v -> (k < length m + 2 * hn + 2)%nat ->
  @oaep_encode P hn h label m k = Panic PExplicit.
Proof. intros E L. unfold oaep_encode. rewrite E. cbn [bind]. now rewrite (proj2 (Nat.ltb_lt _ _) L). Qed.

Lemma empty_modulus E capf e m (ps : padding_scheme E) :
  (forall p, ps_encode ps [] m (N.to_nat (2 ^ 29)) = Panic p ->
     @encrypt_message release E capf {| rsa_exponent := e; rsa_modulo := [] |} m ps = Panic p) /\
  (forall b, ps_encode ps [] m (N.to_nat (2 ^ 29)) = Ok b -> bytes b ->
     @encrypt_message release E capf {| rsa_exponent := e; rsa_modulo := [] |} m ps = Panic PAssert).
Proof.
  assert (B0 : @bits_used release [] = Ok 0) by reflexivity.
  assert (En : (ix ((2 ^ 32 - 1) / 8) + 1)%nat = N.to_nat (2 ^ 29)).
  { unfold ix. change ((2 ^ 32 - 1) / 8) with (2 ^ 29 - 1). lia. }
  assert (S : @csub release 32 0 1 = Ok (2 ^ 32 - 1)) by reflexivity.
  unfold encrypt_message. cbn [rsa_modulo]. rewrite B0. cbn [bind]. rewrite S. cbn [bind]. rewrite En. split.
  - intros p ->. reflexivity.
  - intros b -> Hb. cbn [bind].
    rewrite from_be_bytes_ok. cbn [bind]. set (c := trim_trailing_zeroes (rev b)).
    assert (Cc : canonical c) by (apply trim_canonical, Forall_rev, Hb).
    unfold big_lt, big_cmp. rewrite (bits_used_release c Cc), B0. cbn [bind].
    destruct (N.compare_spec (N.size (num c) mod 2 ^ 32) 0) as [Z|Z|Z]; [|exfalso; revert Z; apply N.nlt_0_r|reflexivity].
    rewrite Z. reflexivity.
Qed.
