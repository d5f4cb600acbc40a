(** * Proofs: Pollard's p - 1 method, and the upper half of the private exponent *)
From Coq Require Import ZArith Znumtheory.
From Verif Require Import Base BaseLemmas ModelBig ModelRsa SpecBig SpecRsa SpecSmooth ProofBig ProofBig3 ProofRsaMath ProofRsa
  ProofFactor ProofCycle.
From Coq Require Import ZifyBool ZifyNat ZifyN.
Ltac Zify.zify_post_hook ::= idtac.
Local Open Scope N_scope.

Lemma power_of_two_ok b n : n <> 0 -> power_of_two b n = 2 ^ factorial b mod n.
Proof.
  intros H. induction b as [|b IH]; cbn [power_of_two factorial].
  - now rewrite N.pow_1_r.
  - rewrite IH, pow_mod_idemp by exact H. rewrite <- N.pow_mul_r. f_equal. f_equal. apply N.mul_comm.
Qed.

Lemma two_power_one p x : prime_N p -> 2 < p -> (p - 1 | x) -> 2 ^ x mod p = 1.
Proof.
  intros Hp H2 [k ->]. apply N2Z.inj. rewrite pow_mod_Z by lia.
  assert (D : (Z.of_N p - 1 | Z.of_N (k * (p - 1)))%Z).
  { exists (Z.of_N k). rewrite N2Z.inj_mul, N2Z.inj_sub by (clear - H2; lia). reflexivity. }
  pose proof (fermat_power (Z.of_N p) 2 (Z.of_N (k * (p - 1))) Hp (N2Z.is_nonneg _) D) as F.
  rewrite Z.pow_add_r in F by (discriminate || apply N2Z.is_nonneg). change (2 ^ 1)%Z with 2%Z in F.
  set (y := (2 ^ Z.of_N (k * (p - 1)))%Z) in *. change (Z.of_N 2) with 2%Z. fold y. change (Z.of_N 1) with 1%Z.
  assert (C : (Z.of_N p | 2 * (y - 1))%Z).
  { replace (2 * (y - 1))%Z with (2 * y - 2)%Z by ring. apply Z.mod_divide; [lia|].
    rewrite Zminus_mod, F, Z.sub_diag. apply Z.mod_0_l. lia. }
  apply prime_mult in C; [|exact Hp]. destruct C as [C|[c C]].
  - apply Z.divide_pos_le in C; lia.
  - replace y with (1 + c * Z.of_N p)%Z by lia. rewrite Z_mod_plus_full. apply Z.mod_small. lia.
Qed.

Lemma mod_mul_mod a p q : p <> 0 -> q <> 0 -> (a mod (p * q)) mod p = a mod p.
Proof.
  intros Hp Hq. rewrite (N.div_mod a (p * q)) at 2 by lia.
  replace (p * q * (a / (p * q)) + a mod (p * q)) with (a mod (p * q) + q * (a / (p * q)) * p) by ring.
  symmetry. apply N.mod_add. exact Hp.
Qed.

Lemma gcd_finds p q x : prime_N p -> prime_N q -> p <> q -> 2 < p -> 2 < q -> x mod p = 1 -> x mod q <> 1 ->
  N.gcd (x - 1) (p * q) = p.
Proof.
  intros Hp Hq Hne P2 Q2 Xp Xq.
  assert (X1 : 1 <= x).
  { destruct (N.eq_dec x 0) as [E|E]; [|clear - E; lia]. rewrite E, N.mod_0_l in Xp by (clear - P2; lia). discriminate. }
  apply N2Z.inj. rewrite gcd_Z, N2Z.inj_mul, N2Z.inj_sub by exact X1. apply gcd_is.
  - exact Hp.
  - exact Hq.
  - intros E. apply Hne. now apply N2Z.inj.
  - exists (Z.of_N (x / p)). pose proof (N.div_mod x p ltac:(clear - P2; lia)) as E. rewrite Xp in E. clear - E X1 P2.
    remember (x / p) as y. clear Heqy. nia.
  - intros [c C]. apply Xq. assert (c0 : (0 <= c)%Z) by (clear - C X1 Q2; nia).
    assert (Ex : x = 1 + Z.to_N c * q) by (clear - C X1 c0; nia).
    rewrite Ex, N.mod_add by (clear - Q2; lia). apply N.mod_1_l. clear - Q2; lia.
Qed.

Lemma pollard_finds b p q : prime_N p -> prime_N q -> p <> q -> 2 < p -> 2 < q ->
  (p - 1 | factorial b) -> 2 ^ factorial b mod q <> 1 -> pollard b (p * q) = p.
Proof.
  intros Hp Hq Hne P2 Q2 D Nq. assert (p0 : p <> 0) by (clear - P2; lia). assert (q0 : q <> 0) by (clear - Q2; lia).
  unfold pollard. rewrite power_of_two_ok by (clear - P2 Q2; nia).
  apply gcd_finds; try assumption.
  - rewrite mod_mul_mod by assumption. apply two_power_one; assumption.
  - rewrite (N.mul_comm p q), mod_mul_mod by assumption. exact Nq.
Qed.

Lemma pollard_sound b n : n <> 0 -> (pollard b n | n).
Proof. intros _. apply N.gcd_divide_r. Qed.

Lemma pollard_created b p q e priv pub : canonical p -> canonical q -> canonical e ->
  prime_N (num p) -> prime_N (num q) -> num p <> num q -> 2 < num p -> 2 < num q ->
  create_keys p q e = Ok (priv, pub) -> (num p - 1 | factorial b) -> 2 ^ factorial b mod num q <> 1 ->
  pollard b (num (pub_n pub)) = num p.
Proof.
  intros Cp Cq Ce Pp Pq Hne P2 Q2 E D H.
  destruct (created_parts p q e priv pub Cp Cq Ce Pp Pq E) as (_ & _ & _ & _ & Vn & _). rewrite Vn. now apply pollard_finds.
Qed.

Lemma pollard_accepted p q e b : canonical p -> canonical q -> canonical e ->
  prime_N (num p) -> prime_N (num q) -> num p <> num q -> 2 < num p -> 2 < num q -> num p * num q < 2 ^ 128 ->
  num e < 2 ^ 128 -> N.gcd (num e) (N.lcm (num p - 1) (num q - 1)) = 1 ->
  (num p - 1 | factorial b) -> 2 ^ factorial b mod num q <> 1 ->
  exists priv pub, create_keys p q e = Ok (priv, pub) /\ pollard b (num (pub_n pub)) = num p.
Proof.
  intros Cp Cq Ce Pp Pq Hne P2 Q2 L He G D H.
  destruct (create_keys_ok p q e Cp Cq Ce Pp Pq L He G) as (n & d & E & _).
  eexists. eexists. split; [exact E|]. exact (pollard_created b p q e _ _ Cp Cq Ce Pp Pq Hne P2 Q2 E D H).
Qed.

(** ** The upper half of the private exponent *)
Lemma lcm_gcd a b : a <> 0 -> N.gcd a b * N.lcm a b = a * b.
Proof.
  intros H. unfold N.lcm. destruct (N.gcd_divide_r a b) as [c Hc].
  assert (g0 : N.gcd a b <> 0) by (intros Z0; apply N.gcd_eq_0_l in Z0; contradiction).
  remember (N.gcd a b) as g. clear Heqg. rewrite Hc, N.div_mul by exact g0. ring.
Qed.

Lemma upper_half p q e d : 2 <= p -> 2 <= q -> 1 < N.lcm (p - 1) (q - 1) -> key_pair p q e d -> d <= N.lcm (p - 1) (q - 1) ->
  let g := N.gcd (p - 1) (q - 1) in
  exists k, k < e /\ d <= k * (p * q) / (g * e) + 1 /\ k * (p * q) / (g * e) <= d + (p + q) / g.
Proof.
  intros P2 Q2 L1 K Hd g. unfold key_pair in K. set (l := N.lcm (p - 1) (q - 1)) in *.
  assert (G : g * l = (p - 1) * (q - 1)).
  { unfold l. apply lcm_gcd. clear - P2; lia. }
  assert (g1 : 1 <= g).
  { destruct (N.eq_dec g 0) as [E|]; [|lia]. rewrite E in G. clear - G P2 Q2. nia. }
  rewrite (N.mod_1_l l) in K by exact L1.
  pose proof (N.div_mod (e * d) l ltac:(lia)) as E. rewrite K in E. set (k := e * d / l) in *. exists k.
  assert (e1 : 1 <= e) by (clear - E; nia).
  assert (ke : k < e) by (clear - E Hd L1; nia).
  assert (M : g * e * d = g + k * ((p - 1) * (q - 1))).
  { rewrite <- G. replace (g * e * d) with (g * (e * d)) by ring. rewrite E. ring. }
  assert (F : (p - 1) * (q - 1) + p + q = p * q + 1) by (clear - P2 Q2; nia).
  assert (ge : 1 <= g * e) by (clear - g1 e1; nia).
  split; [exact ke|]. split.
  - assert (B : g * e * d <= g * e + k * (p * q)).
    { rewrite M. assert (g <= g * e) by (clear - g1 e1; nia).
      assert ((p - 1) * (q - 1) <= p * q) as X by (clear - P2 Q2; nia).
      pose proof (N.mul_le_mono_l _ _ k X). lia. }
    assert (W : d - 1 <= k * (p * q) / (g * e)).
    { apply N.div_le_lower_bound; [lia|]. rewrite N.mul_sub_distr_l. lia. }
    lia.
  - assert (B : k * (p * q) <= g * e * d + e * (p + q)).
    { rewrite M. pose proof (N.mul_le_mono_r k e (p + q) ltac:(lia)) as X.
      assert (Y : k * (p * q) + k = k * ((p - 1) * (q - 1)) + k * (p + q)).
      { replace (k * (p * q) + k) with (k * (p * q + 1)) by ring. rewrite <- F. ring. }
      lia. }
    rewrite (N.mul_comm g e), <- N.div_div by lia.
    assert (B2 : k * (p * q) / e <= g * d + (p + q)).
    { apply N.div_le_upper_bound; [lia|]. replace (e * (g * d + (p + q))) with (g * e * d + e * (p + q)) by ring. exact B. }
    pose proof (N.div_le_mono _ _ g ltac:(lia) B2) as B3.
    replace (g * d + (p + q)) with (p + q + d * g) in B3 by ring. rewrite N.div_add in B3 by lia. lia.
Qed.

Lemma half_created p q e priv pub : canonical p -> canonical q -> canonical e ->
  prime_N (num p) -> prime_N (num q) -> num p <> num q -> create_keys p q e = Ok (priv, pub) ->
  let g := N.gcd (num p - 1) (num q - 1) in
  exists k, k < num (pub_e pub) /\
    let x := k * num (pub_n pub) / (g * num (pub_e pub)) in
    num (priv_d priv) <= x + 1 /\ x <= num (priv_d priv) + (num p + num q) / g.
Proof.
  intros Cp Cq Ce Pp Pq Hne E g.
  destruct (created_parts p q e priv pub Cp Cq Ce Pp Pq E) as (Ee & _ & _ & _ & Vn & K & _ & _ & _ & Hd & _).
  rewrite Ee, Vn. cbv zeta. pose proof (prime_N_ge2 _ Pp) as P2. pose proof (prime_N_ge2 _ Pq) as Q2.
  apply upper_half; auto.
  assert (Z0 : N.lcm (num p - 1) (num q - 1) <> 0) by (intros Z0; apply N.lcm_eq_0 in Z0; lia).
  destruct (N.eq_dec (N.lcm (num p - 1) (num q - 1)) 1) as [L1|L1]; [|lia].
  pose proof (N.divide_lcm_l (num p - 1) (num q - 1)) as D1. pose proof (N.divide_lcm_r (num p - 1) (num q - 1)) as D2.
  rewrite L1 in D1, D2. apply N.divide_1_r in D1, D2. lia.
Qed.
