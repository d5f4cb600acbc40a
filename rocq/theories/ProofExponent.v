(** * Proofs: exponents and messages for which RSA encryption does nothing *)
From Verif Require Import Base BaseLemmas ModelBig ModelRsa SpecEndian SpecBig SpecRsa
  ProofEndian ProofBig ProofBig2 ProofBig3 ProofRsaMath ProofRsa.
From Coq Require Import ZifyBool ZifyNat ZifyN.
Local Open Scope N_scope.
Local Open Scope list_scope.

Lemma power_one_mod p q e m : prime_N p -> prime_N q -> p <> q ->
  e mod N.lcm (p - 1) (q - 1) = 1 mod N.lcm (p - 1) (q - 1) -> rsa_power m e (p * q) = m mod (p * q).
Proof.
  intros Pp Pq Hne He. rewrite <- (rsa_round_trip p q e 1 m Pp Pq Hne) by (unfold key_pair; now rewrite N.mul_1_r).
  unfold rsa_power at 2. rewrite N.pow_1_r. symmetry. apply N.mod_mod.
  pose proof (prime_N_ge2 p Pp). pose proof (prime_N_ge2 q Pq). nia.
Qed.

(** A key whose exponent is one modulo the least common multiple leaves every message as it is. *)
Lemma identity_key capf k p q key m : prime_N p -> prime_N q -> p <> q ->
  num (rsa_modulo key) = p * q ->
  num (rsa_exponent key) mod N.lcm (p - 1) (q - 1) = 1 mod N.lcm (p - 1) (q - 1) ->
  canonical (rsa_exponent key) -> canonical (rsa_modulo key) -> canonical m -> countable (rsa_exponent key) ->
  (length m + 4 <= k)%nat -> (length (rsa_modulo key) + 4 <= k)%nat -> allocates capf k ->
  num m < num (rsa_modulo key) -> rsa_encrypt capf key m = Ok m.
Proof.
  intros Pp Pq Hne Hn He Ce Cn Cm Ke Lm Ln Hal Lt.
  assert (N1 : 1 < num (rsa_modulo key)).
  { rewrite Hn. pose proof (prime_N_ge2 p Pp). pose proof (prime_N_ge2 q Pq). nia. }
  destruct (rsa_encrypt_spec capf k key m Ce Cn Cm N1 Ke Lm Ln Hal) as (c & E & _ & C & V).
  rewrite E. f_equal. apply num_inj; auto. rewrite V, Hn, power_one_mod by auto.
  apply N.mod_small. now rewrite <- Hn.
Qed.

(** [create_keys] accepts the exponent one. *)
Lemma exponent_one capf p q m : canonical p -> canonical q -> prime_N (num p) -> prime_N (num q) ->
  num p * num q < 2 ^ 128 -> allocates capf 20 -> canonical m -> num m < num p * num q ->
  exists priv pub, create_keys p q [1] = Ok (priv, pub) /\ rsa_encrypt capf (rsa_from_public pub) m = Ok m.
Proof.
  intros Cp Cq Pp Pq Hn Hal Cm Lm.
  assert (C1 : canonical [1]) by (split; [repeat constructor|discriminate]).
  destruct (create_keys_ok p q [1]) as (n & d & E & Cn & Cd & Vn & _); auto; [reflexivity|apply N.gcd_1_l|].
  exists {| priv_n := n; priv_d := d |}, {| pub_n := n; pub_e := [1] |}. split; [exact E|].
  assert (N1 : 1 < num n).
  { rewrite Vn. pose proof (prime_N_ge2 _ Pp). pose proof (prime_N_ge2 _ Pq). nia. }
  assert (Ln : (length n <= 16)%nat) by (apply num_16; auto; now rewrite Vn).
  assert (Lm' : (length m <= 16)%nat) by (apply num_16; auto; lia).
  destruct (rsa_encrypt_spec capf 20 (rsa_from_public {| pub_n := n; pub_e := [1] |}) m) as (c & Ec & _ & Cc & Vc);
    cbn [rsa_from_public rsa_exponent rsa_modulo pub_n pub_e]; auto; [reflexivity|lia|lia|].
  rewrite Ec. f_equal. apply num_inj; auto. rewrite Vc. cbn [rsa_from_public rsa_exponent rsa_modulo pub_n pub_e].
  change (num [1]) with 1. unfold rsa_power. rewrite N.pow_1_r, Vn. now apply N.mod_small.
Qed.

(** ** Messages that every key leaves as they are *)

Lemma minus_one_power n j : 2 <= n -> (n - 1) ^ (2 * j + 1) mod n = n - 1.
Proof.
  intros H. rewrite N.pow_add_r, N.pow_mul_r, N.pow_1_r.
  assert (S : (n - 1) ^ 2 mod n = 1).
  { replace ((n - 1) ^ 2) with (1 + (n - 2) * n) by (rewrite N.pow_2_r; nia).
    rewrite N.mod_add by lia. apply N.mod_small. lia. }
  rewrite <- N.mul_mod_idemp_l, <- pow_mod_idemp, S, N.pow_1_l, N.mod_1_l, N.mul_1_l by lia.
  apply N.mod_small. lia.
Qed.

Lemma fixed_messages capf k key m : canonical (rsa_exponent key) -> canonical (rsa_modulo key) -> canonical m ->
  1 < num (rsa_modulo key) -> countable (rsa_exponent key) ->
  (length m + 4 <= k)%nat -> (length (rsa_modulo key) + 4 <= k)%nat -> allocates capf k ->
  num (rsa_exponent key) mod 2 = 1 -> num m = 0 \/ num m = 1 \/ num m = num (rsa_modulo key) - 1 ->
  rsa_encrypt capf key m = Ok m.
Proof.
  intros Ce Cn Cm N1 Ke Lm Ln Hal Ho Hm.
  destruct (rsa_encrypt_spec capf k key m Ce Cn Cm N1 Ke Lm Ln Hal) as (c & E & _ & C & V).
  rewrite E. f_equal. apply num_inj; auto. rewrite V. unfold rsa_power.
  assert (He : num (rsa_exponent key) = 2 * (num (rsa_exponent key) / 2) + 1)
    by (rewrite <- Ho; apply N.div_mod; lia).
  destruct Hm as [ -> |[ -> | -> ]].
  - rewrite N.pow_0_l by lia. apply N.mod_0_l. lia.
  - rewrite N.pow_1_l. now apply N.mod_1_l.
  - rewrite He. apply minus_one_power. lia.
Qed.
