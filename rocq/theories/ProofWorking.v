(** * Proofs for C129: the private exponents that decrypt what a public key encrypts *)
From Coq Require Import List ZArith NArith Znumtheory Lia Bool.
From Verif Require Import Base BaseLemmas ModelBig ModelRsa SpecEndian SpecBig SpecRsa SpecUnconcealed
  ProofAsn1 ProofBig ProofBig2 ProofBig3 ProofRsaMath ProofRsa ProofKey ProofUnconcealed.
Import ListNotations.
Local Open Scope N_scope.

Lemma all_unconcealed n x : (forall m, m < n -> m ^ x mod n = m) ->
  N.of_nat (length (unconcealed n x)) = n.
Proof.
  intros H. unfold unconcealed.
  replace (filter _ _) with (map N.of_nat (seq 0 (N.to_nat n))).
  - rewrite map_length, seq_length. apply N2Nat.id.
  - symmetry. rewrite (filter_ext_in _ (fun _ => true)).
    + induction (map N.of_nat _) as [|a l IH]; [reflexivity|]. cbn [filter]. now rewrite IH.
    + intros m Hm. apply in_map_iff in Hm as (i & <- & Hi). apply in_seq in Hi.
      apply N.eqb_eq, H. lia.
Qed.

Lemma gcd_le a b : b <> 0 -> N.gcd a b <= b.
Proof. intros H. apply N.divide_pos_le; [lia|apply N.gcd_divide_r]. Qed.

Lemma mod_one_divide x l : l <> 0 -> 0 < x -> x mod l = 1 mod l <-> N.divide l (x - 1).
Proof.
  intros H Hx. split.
  - intros E. apply N.mod_divide; [exact H|].
    replace x with ((x - 1) + 1) in E by lia.
    destruct (N.eq_dec l 1) as [->|D]; [apply N.mod_1_r|].
    rewrite (N.mod_small 1 l) in E by lia.
    pose proof (N.mod_lt (x - 1) l H) as B.
    rewrite <- N.add_mod_idemp_l in E by exact H.
    destruct (N.eq_dec ((x - 1) mod l + 1) l) as [F|F].
    + rewrite F, N.mod_same in E by exact H. discriminate E.
    + rewrite N.mod_small in E by lia. lia.
  - intros [k K]. replace x with (1 + k * l) by lia. now apply N.mod_add.
Qed.

Section Pair.
  Context (p q : N) (Pp : prime_N p) (Pq : prime_N q) (Hne : p <> q).

  Lemma lcm_ge2 : 2 <= N.lcm (p - 1) (q - 1).
  Proof using Pp Pq Hne.
    pose proof (prime_N_ge2 p Pp). pose proof (prime_N_ge2 q Pq).
    assert (L0 : N.lcm (p - 1) (q - 1) <> 0) by (rewrite N.lcm_eq_0; lia).
    assert (LP : 0 < N.lcm (p - 1) (q - 1)) by lia.
    pose proof (N.divide_pos_le _ _ LP (N.divide_lcm_l (p - 1) (q - 1))).
    pose proof (N.divide_pos_le _ _ LP (N.divide_lcm_r (p - 1) (q - 1))). lia.
  Qed.

  Lemma pow_mod_mod a k : (a mod (p * q)) ^ k mod (p * q) = a ^ k mod (p * q).
  Proof using Pp Pq.
    pose proof (prime_N_ge2 p Pp) as P2. pose proof (prime_N_ge2 q Pq) as Q2.
    assert (Hn : p * q <> 0) by (clear - P2 Q2; nia).
    induction k using N.peano_ind; [reflexivity|].
    rewrite !N.pow_succ_r', N.mul_mod, IHk, N.mod_mod, <- N.mul_mod by auto. reflexivity.
  Qed.

  Lemma working_iff e d : (forall m, m < p * q -> rsa_power (rsa_power m e (p * q)) d (p * q) = m) <->
    key_pair p q e d.
  Proof using Pp Pq Hne.
    pose proof (prime_N_ge2 p Pp) as P2. pose proof (prime_N_ge2 q Pq) as Q2.
    assert (Hn : p * q <> 0) by nia. pose proof lcm_ge2 as L2. split.
    - intros H.
      assert (F : forall m, m < p * q -> m ^ (e * d) mod (p * q) = m).
      { intros m Hm. specialize (H m Hm). unfold rsa_power in H.
        now rewrite pow_mod_mod, <- N.pow_mul_r in H. }
      assert (X : 0 < e * d).
      { destruct (N.eq_dec (e * d) 0) as [Z|Z]; [|lia]. exfalso.
        specialize (F 0 ltac:(lia)). rewrite Z, N.pow_0_r, N.mod_1_l in F by nia. discriminate F. }
      pose proof (all_unconcealed _ _ F) as C.
      rewrite (unconcealed_count p q Pp Pq Hne) in C by exact X.
      pose proof (gcd_le (e * d - 1) (p - 1) ltac:(lia)) as G1.
      pose proof (gcd_le (e * d - 1) (q - 1) ltac:(lia)) as G2.
      assert (E1 : N.gcd (e * d - 1) (p - 1) = p - 1) by nia.
      assert (E2 : N.gcd (e * d - 1) (q - 1) = q - 1) by nia.
      unfold key_pair. apply mod_one_divide; [lia|exact X|].
      apply N.lcm_least.
      + rewrite <- E1. apply N.gcd_divide_l.
      + rewrite <- E2. apply N.gcd_divide_l.
    - intros K m Hm. rewrite rsa_round_trip by assumption. now apply N.mod_small.
  Qed.

  Lemma exponents_class e d d' : key_pair p q e d ->
    key_pair p q e d' <-> d' mod N.lcm (p - 1) (q - 1) = d mod N.lcm (p - 1) (q - 1).
  Proof using Pp Pq Hne.
    pose proof lcm_ge2 as L2. unfold key_pair. set (l := N.lcm (p - 1) (q - 1)) in *.
    assert (L0 : l <> 0) by lia. intros K. split.
    - intros K'.
      assert (A : (d' * (e * d)) mod l = d' mod l).
      { rewrite <- N.mul_mod_idemp_r, K, N.mul_mod_idemp_r, N.mul_1_r by exact L0. reflexivity. }
      assert (B : (d * (e * d')) mod l = d mod l).
      { rewrite <- N.mul_mod_idemp_r, K', N.mul_mod_idemp_r, N.mul_1_r by exact L0. reflexivity. }
      rewrite <- A, <- B. f_equal. lia.
    - intros E. rewrite <- N.mul_mod_idemp_r, E, N.mul_mod_idemp_r by exact L0. exact K.
  Qed.

  Lemma exponent_least e d d' : key_pair p q e d -> key_pair p q e d' ->
    d <= N.lcm (p - 1) (q - 1) -> 0 < d <= d' /\ d < N.lcm (p - 1) (q - 1).
  Proof using Pp Pq Hne.
    pose proof lcm_ge2 as L2. intros K K' B.
    assert (L0 : N.lcm (p - 1) (q - 1) <> 0) by lia.
    assert (D : d < N.lcm (p - 1) (q - 1)).
    { destruct (N.eq_dec d (N.lcm (p - 1) (q - 1))) as [E|E]; [|lia]. exfalso.
      unfold key_pair in K. rewrite E, N.mod_mul, N.mod_small in K by lia. discriminate K. }
    assert (Z : d <> 0).
    { intros ->. unfold key_pair in K. rewrite N.mul_0_r, N.mod_0_l, N.mod_small in K by lia.
      discriminate K. }
    pose proof (proj1 (exponents_class e d d' K) K') as E.
    rewrite (N.mod_small d) in E by exact D.
    pose proof (N.mod_le d' _ L0). lia.
  Qed.
End Pair.

(** ** The code *)

Lemma working_code capf k p q e n d : prime_N p -> prime_N q -> p <> q -> num n = p * q ->
  canonical n -> canonical d -> canonical e -> countable e -> countable d -> allocates capf k ->
  (length n + 4 <= k)%nat ->
  (forall m, canonical m -> num m < p * q ->
     exists c, rsa_encrypt capf {| rsa_exponent := e; rsa_modulo := n |} m = Ok c /\
       rsa_decrypt capf {| rsa_exponent := d; rsa_modulo := n |} c = Ok m) <->
  key_pair p q (num e) (num d).
Proof.
  intros Pp Pq Hne Hn Cn Cd Ce Ke Kd Hal Lk.
  pose proof (prime_N_ge2 p Pp) as P2. pose proof (prime_N_ge2 q Pq) as Q2.
  assert (N1 : 1 < num n) by nia.
  assert (Len : forall m, canonical m -> num m < p * q -> (length m <= length n)%nat).
  { intros m Cm Hm. apply canonical_length_mono; auto; [apply Cn|].
    change (num m <= num n). lia. }
  rewrite <- (working_iff p q Pp Pq Hne). split.
  - intros H m Hm.
    assert (Fit : m < 256 ^ N.of_nat (length n)).
    { eapply N.lt_trans; [exact Hm|]. rewrite <- Hn. apply from_le_lt, Cn. }
    destruct (from_be_spec (be_bytes (length n) m)) as (b & _ & Cb & Vb); [apply be_bytes_bytes|].
    rewrite be_num_be_bytes in Vb by exact Fit.
    specialize (H b Cb ltac:(lia)). destruct H as (c & E & D).
    specialize (Len b Cb ltac:(lia)).
    destruct (rsa_encrypt_spec capf k {| rsa_exponent := e; rsa_modulo := n |} b) as (c' & E' & _ & Cc & Vc);
      auto; cbn [rsa_exponent rsa_modulo] in *; try lia.
    rewrite E in E'. injection E' as <-.
    assert (Lc : (length c <= length n)%nat).
    { apply canonical_length_mono; auto; [apply Cn|]. change (num c <= num n). rewrite Vc.
      unfold rsa_power. apply N.lt_le_incl, N.mod_lt. lia. }
    destruct (rsa_encrypt_spec capf k {| rsa_exponent := d; rsa_modulo := n |} c) as (r & _ & D' & Cr & Vr);
      auto; cbn [rsa_exponent rsa_modulo] in *; try lia.
    rewrite D in D'. injection D' as <-. rewrite Vc, Hn, Vb in Vr. now symmetry.
  - intros H m Cm Hm. pose proof (Len m Cm Hm) as L.
    destruct (rsa_encrypt_spec capf k {| rsa_exponent := e; rsa_modulo := n |} m) as (c & E & _ & Cc & Vc);
      auto; cbn [rsa_exponent rsa_modulo] in *; try lia.
    exists c. split; [exact E|].
    assert (Lc : (length c <= length n)%nat).
    { apply canonical_length_mono; auto; [apply Cn|]. change (num c <= num n). rewrite Vc.
      unfold rsa_power. apply N.lt_le_incl, N.mod_lt. lia. }
    destruct (rsa_encrypt_spec capf k {| rsa_exponent := d; rsa_modulo := n |} c) as (r & _ & D & Cr & Vr);
      auto; cbn [rsa_exponent rsa_modulo] in *; try lia.
    rewrite D. f_equal. apply num_inj; auto. rewrite Vr, Vc, Hn. now apply H.
Qed.

(** Of the exponents that decrypt everything, [create_keys] makes the smallest. *)
Lemma created_least capf k p q e priv pub d' : canonical p -> canonical q -> canonical e ->
  prime_N (num p) -> prime_N (num q) -> num p <> num q ->
  create_keys p q e = Ok (priv, pub) -> canonical d' -> countable d' ->
  allocates capf k -> (20 <= k)%nat ->
  (forall m, canonical m -> num m < num p * num q ->
     exists c, rsa_encrypt capf (rsa_from_public pub) m = Ok c /\
       rsa_decrypt capf {| rsa_exponent := d'; rsa_modulo := priv_n priv |} c = Ok m) <->
  exists i, num d' = num (priv_d priv) + i * N.lcm (num p - 1) (num q - 1).
Proof.
  intros Cp Cq Ce Pp Pq Hne E Cd' Kd' Hal Lk.
  destruct (create_keys_modulus _ _ _ _ _ E (canonical_bytes _ Cp) (canonical_bytes _ Cq))
    as (_ & _ & L & V).
  rewrite V in L.
  assert (He : num e < 2 ^ 128).
  { unfold create_keys in E. rewrite !as_u128_spec in E by auto.
    destruct (num p <? 2 ^ 128); [|discriminate]. destruct (num q <? 2 ^ 128); [|discriminate].
    destruct (N.ltb_spec (num e) (2 ^ 128)); [auto|discriminate]. }
  destruct (N.eq_dec (N.gcd (num e) (N.lcm (num p - 1) (num q - 1))) 1) as [G|G].
  2:{ rewrite create_keys_not_coprime in E by auto. discriminate. }
  destruct (create_keys_ok p q e Cp Cq Ce Pp Pq L He G) as (n & d & E' & Cn & Cd & Vn & Ld & K).
  rewrite E in E'. apply Ok_inj in E'. injection E' as -> ->. cbn [priv_d priv_n].
  pose proof (num_16 n Cn ltac:(lia)) as Ln. pose proof (num_16 e Ce He) as Le.
  unfold rsa_from_public. cbn [pub_n pub_e].
  rewrite (working_code capf k (num p) (num q)) by (auto using length_countable; lia).
  rewrite (exponents_class _ _ Pp Pq Hne _ _ _ K).
  pose proof (lcm_ge2 _ _ Pp Pq Hne) as L2.
  destruct (exponent_least _ _ Pp Pq Hne _ _ _ K K Ld) as [_ D].
  set (l := N.lcm (num p - 1) (num q - 1)) in *. rewrite (N.mod_small (num d)) by exact D. split.
  - intros H. exists (num d' / l). rewrite <- H. pose proof (N.div_mod (num d') l). lia.
  - intros (i & ->). rewrite N.mod_add by lia. now apply N.mod_small.
Qed.
