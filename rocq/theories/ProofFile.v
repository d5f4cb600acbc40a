(** * From key files to decrypted messages *)
From Coq Require Import String ZifyBool ZifyNat ZifyN.
From Verif Require Import Base BaseLemmas ModelBig ModelRsa ModelPem ModelKey
  SpecEndian ProofEndian SpecBig ProofBig ProofBig2 ProofBig3 SpecRsa SpecMsg SpecText SpecPem SpecAsn1
  SpecKey ProofMsg ProofKey.
Local Open Scope N_scope.
Local Open Scope list_scope.
Ltac Zify.zify_post_hook ::= Z.div_mod_to_equations.

Lemma canonical_digits a : canonical a -> 0 < num a -> length a = digits (num a).
Proof.
  intros C H. assert (Hne : a <> []) by (intros ->; cbn in H; lia).
  destruct (modulus_length a C Hne) as (<- & _ & _). unfold digits, ix.
  rewrite (N.size_log2 (num a)) by lia. replace (N.succ (N.log2 (num a)) - 1) with (N.log2 (num a)) by lia. lia.
Qed.

Lemma canonical_countable a : canonical a -> N.size (num a) <= 2 ^ 32 - 8 -> countable a.
Proof.
  intros C H. unfold countable. destruct a as [|x a]; [reflexivity|].
  destruct (modulus_length (x :: a) C ltac:(discriminate)) as (<- & _ & P). unfold ix.
  change (2 ^ 32 - 8) with 4294967288 in H. change (2 ^ 29) with 536870912. lia.
Qed.

Lemma end_to_end capf p q e d dp dq qi s1 s2 msg :
  prime_N p -> prime_N q -> p <> q -> key_pair p q e d ->
  pem_text s1 (text "PUBLIC KEY") (public_key_der (p * q) e) ->
  pem_text s2 (text "PRIVATE KEY") (private_key_der (p * q) e d p q dp dq qi) ->
  size (public_key_der (p * q) e) < 2 ^ 64 ->
  size (private_key_der (p * q) e d p q dp dq qi) < 2 ^ 64 ->
  N.size e <= 2 ^ 32 - 8 -> N.size d <= 2 ^ 32 - 8 -> allocates capf (digits (p * q) + 4) ->
  bytes msg -> (length msg + 66 <= digits (p * q))%nat ->
  exists pub priv ct, import_public s1 = Ok (Some pub) /\ import_private s2 = Ok (Some priv) /\
    encrypt_message capf (rsa_from_public pub) msg rsa_padding = Ok ct /\
    (length ct = digits (p * q) ->
     decrypt_message capf (rsa_from_private priv) ct rsa_padding = Ok msg).
Proof.
  intros Hp Hq Hne Hk T1 T2 S1 S2 He Hd Ha Hb Hl.
  destruct (public_text _ _ _ S1 T1) as (pub & I1 & C1 & N1 & C2 & N2).
  destruct (private_text _ _ _ _ _ _ _ _ _ S2 T2) as (priv & I2 & C3 & N3 & C4 & N4).
  exists pub, priv.
  assert (Hpq : 1 < p * q).
  { unfold prime_N in *. pose proof (Znumtheory.prime_ge_2 _ Hp). pose proof (Znumtheory.prime_ge_2 _ Hq). nia. }
  assert (L1 : length (pub_n pub) = digits (p * q)) by (rewrite canonical_digits by (auto; lia); congruence).
  assert (L3 : length (priv_n priv) = digits (p * q)) by (rewrite canonical_digits by (auto; lia); congruence).
  assert (Z1 : sized capf (rsa_from_public pub)).
  { split; [exact C2|]. split; [exact C1|]. split; [cbn [rsa_from_public rsa_modulo]; now rewrite N1|].
    cbn [rsa_from_public rsa_modulo rsa_exponent]. rewrite L1. split; [|exact Ha].
    apply canonical_countable; [exact C2|now rewrite N2]. }
  assert (Z2 : sized capf (rsa_from_private priv)).
  { split; [exact C4|]. split; [exact C3|]. split; [cbn [rsa_from_private rsa_modulo]; now rewrite N3|].
    cbn [rsa_from_private rsa_modulo rsa_exponent]. rewrite L3. split; [|exact Ha].
    apply canonical_countable; [exact C4|now rewrite N4]. }
  assert (M : matching p q (rsa_from_public pub) (rsa_from_private priv)).
  { split; [exact Hp|]. split; [exact Hq|]. split; [exact Hne|].
    cbn [rsa_from_public rsa_from_private rsa_modulo rsa_exponent].
    split; [apply num_inj; auto; congruence|]. split; [exact N1|]. now rewrite N2, N4. }
  destruct (encrypt_rsa_padding capf (rsa_from_public pub) msg Z1 Hb) as (ct & E & _).
  { cbn [rsa_from_public rsa_modulo]. rewrite L1. exact Hl. }
  exists ct. do 3 (split; [assumption|]). intros L.
  apply (message_roundtrip capf p q _ _ msg ct M Z1 Z2 Hb E).
  cbn [rsa_from_public rsa_modulo]. congruence.
Qed.
