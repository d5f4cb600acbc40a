(** * Proofs: encrypting again and again *)
From Verif Require Import Base BaseLemmas ModelBig ModelRsa SpecBig SpecRsa SpecCycle ProofBig ProofBig3 ProofRsaMath ProofRsa ProofKeys.
From Coq Require Import ZifyBool ZifyNat ZifyN.
Ltac Zify.zify_post_hook ::= idtac.
Local Open Scope N_scope.

Lemma again_S f j m : again f (S j) m = let* c := again f j m in f c.
Proof.
  revert m. induction j as [|j IH]; intros m.
  - cbn [again bind]. destruct (f m) as [c|e]; reflexivity.
  - cbn [again]. destruct (f m) as [c|e]; cbn [bind]; [|reflexivity]. rewrite <- IH. reflexivity.
Qed.

(** Some power of a unit is one. *)
Lemma unit_order l e d : 0 < l -> (e * d) mod l = 1 mod l -> exists j, (0 < j)%nat /\ N.of_nat j <= l /\ e ^ N.of_nat j mod l = 1 mod l.
Proof.
  intros Hl U. set (pw := fun i => e ^ N.of_nat i mod l).
  destruct (repeated N.eq_dec (map pw (seq 0 (S (N.to_nat l))))) as (a & l1 & l2 & l3 & E).
  { intros D. assert (I : incl (map pw (seq 0 (S (N.to_nat l)))) (map N.of_nat (seq 0 (N.to_nat l)))).
    { intros y Iy. apply in_map_iff in Iy. destruct Iy as (i & <- & _). apply in_map_iff. exists (N.to_nat (pw i)).
      split; [apply N2Nat.id|]. apply in_seq. pose proof (N.mod_lt (e ^ N.of_nat i) l ltac:(lia)) as B. unfold pw. lia. }
    pose proof (NoDup_incl_length D I) as B. rewrite !map_length, !seq_length in B. lia. }
  set (i := length l1). set (i' := (length l1 + S (length l2))%nat).
  assert (Ln : (i' < S (N.to_nat l))%nat).
  { apply (f_equal (@length N)) in E. rewrite map_length, seq_length, !app_length in E. cbn [length] in E.
    rewrite app_length in E. cbn [length] in E. unfold i'. lia. }
  assert (P : forall x, (x < S (N.to_nat l))%nat -> nth x (map pw (seq 0 (S (N.to_nat l)))) 0 = pw x).
  { intros x Hx. rewrite (nth_indep _ 0 (pw 0%nat)) by (rewrite map_length, seq_length; exact Hx).
    now rewrite map_nth, seq_nth by exact Hx. }
  assert (A : pw i = a).
  { rewrite <- P by lia. rewrite E. unfold i. rewrite app_nth2, Nat.sub_diag by lia. reflexivity. }
  assert (A' : pw i' = a).
  { rewrite <- P by lia. rewrite E. unfold i'. rewrite app_nth2 by lia.
    replace (length l1 + S (length l2) - length l1)%nat with (S (length l2)) by lia. cbn [nth].
    rewrite app_nth2, Nat.sub_diag by lia. reflexivity. }
  exists (S (length l2)). split; [lia|]. split; [unfold i' in Ln; lia|].
  assert (C : forall i, (e ^ N.of_nat i * d ^ N.of_nat i) mod l = 1 mod l).
  { clear - Hl U. induction i as [|i IH]; [reflexivity|]. rewrite Nat2N.inj_succ, !N.pow_succ_r'.
    replace (e * e ^ N.of_nat i * (d * d ^ N.of_nat i)) with ((e * d) * (e ^ N.of_nat i * d ^ N.of_nat i)) by ring.
    rewrite N.mul_mod, U, IH by lia. rewrite <- N.mul_mod by lia. reflexivity. }
  assert (Q : e ^ N.of_nat i' = e ^ N.of_nat i * e ^ N.of_nat (S (length l2))).
  { rewrite <- N.pow_add_r. f_equal. unfold i', i. lia. }
  rewrite <- (N.mul_1_l (e ^ N.of_nat (S (length l2)))).
  rewrite N.mul_mod, <- (C i), <- N.mul_mod by lia.
  replace (e ^ N.of_nat i * d ^ N.of_nat i * e ^ N.of_nat (S (length l2))) with (e ^ N.of_nat i' * d ^ N.of_nat i) by (rewrite Q; ring).
  rewrite N.mul_mod by lia. unfold pw in A, A'. rewrite A', <- A. rewrite <- N.mul_mod by lia. reflexivity.
Qed.

Lemma power_power m e k n : n <> 0 -> rsa_power (rsa_power m e n) k n = rsa_power m (e * k) n.
Proof. intros H. unfold rsa_power. rewrite pow_mod_idemp by exact H. now rewrite <- N.pow_mul_r. Qed.

Section Public.
  Context (capf : nat -> nat) (k : nat) (key : rsa_encryption).
  Context (Ce : canonical (rsa_exponent key)) (Cn : canonical (rsa_modulo key)).
  Context (N1 : 1 < num (rsa_modulo key)) (Ke : countable (rsa_exponent key)).
  Context (Ln : (length (rsa_modulo key) + 4 <= k)%nat) (Hal : allocates capf k).

  Lemma below_length m : canonical m -> num m < num (rsa_modulo key) -> (length m + 4 <= k)%nat.
  Proof using Cn Ln.
    intros Cm H. assert (L : (length m <= length (rsa_modulo key))%nat).
    { apply canonical_length_mono; auto using canonical_bytes. change num with from_le in *. clear - H. lia. }
    clear - L Ln. lia.
  Qed.

  Lemma again_power j m : canonical m -> num m < num (rsa_modulo key) ->
    exists c, again (rsa_encrypt capf key) j m = Ok c /\ canonical c /\
      num c = rsa_power (num m) (num (rsa_exponent key) ^ N.of_nat j) (num (rsa_modulo key)).
  Proof using Ce Cn N1 Ke Ln Hal.
    intros Cm Lt. induction j as [|j (c & E & Cc & V)].
    - exists m. split; [reflexivity|]. split; [exact Cm|]. unfold rsa_power. cbn [N.of_nat]. rewrite N.pow_0_r, N.pow_1_r.
      symmetry. now apply N.mod_small.
    - rewrite again_S, E. cbn [bind].
      assert (Lc : num c < num (rsa_modulo key)) by (rewrite V; unfold rsa_power; apply N.mod_lt; lia).
      destruct (rsa_encrypt_spec capf k key c) as (r & E1 & _ & C1 & V1); auto using below_length.
      exists r. split; [exact E1|]. split; [exact C1|]. rewrite V1, V, power_power by lia. f_equal.
      rewrite Nat2N.inj_succ, N.pow_succ_r'. apply N.mul_comm.
  Qed.
End Public.

Lemma cycle_key capf k p q e n d : prime_N p -> prime_N q -> p <> q -> key_pair p q (num e) (num d) -> num n = p * q ->
  canonical n -> canonical e -> countable e -> allocates capf k -> (length n + 4 <= k)%nat ->
  exists j, (0 < j)%nat /\ N.of_nat j <= N.lcm (p - 1) (q - 1) /\ forall m, canonical m -> num m < p * q ->
    again (rsa_encrypt capf {| rsa_exponent := e; rsa_modulo := n |}) j m = Ok m.
Proof.
  intros Hp Hq Hne K Hn Cn Ce Ke Hal Ln. pose proof (prime_N_ge2 _ Hp) as P2. pose proof (prime_N_ge2 _ Hq) as Q2.
  assert (Hl : 0 < N.lcm (p - 1) (q - 1)).
  { apply N.neq_0_lt_0. intros Z0. apply N.lcm_eq_0 in Z0. lia. }
  destruct (unit_order _ _ _ Hl K) as (j & J0 & Jl & J). exists j. split; [exact J0|]. split; [exact Jl|].
  intros m Cm Lt. destruct (again_power capf k {| rsa_exponent := e; rsa_modulo := n |}) with (j := j) (m := m) as (c & E & Cc & V);
    cbn [rsa_exponent rsa_modulo] in *; auto; try (rewrite Hn; clear - P2 Q2 Lt; nia).
  rewrite E. f_equal. apply num_inj; auto. rewrite V.
  assert (K1 : key_pair p q (num e ^ N.of_nat j) 1) by (unfold key_pair; rewrite N.mul_1_r; exact J).
  pose proof (rsa_round_trip p q (num e ^ N.of_nat j) 1 (num m) Hp Hq Hne K1) as R.
  rewrite power_power in R by (clear - P2 Q2; nia). rewrite N.mul_1_r in R. rewrite Hn, R. now apply N.mod_small.
Qed.

(** Encryption of numbers below the modulus is injective, so whoever comes back to the ciphertext has
    passed the message. *)
Lemma cycle_passes capf k p q e n d m c j : prime_N p -> prime_N q -> p <> q -> key_pair p q (num e) (num d) -> num n = p * q ->
  canonical n -> canonical e -> canonical d -> countable e -> countable d -> allocates capf k -> (length n + 4 <= k)%nat ->
  canonical m -> num m < p * q -> rsa_encrypt capf {| rsa_exponent := e; rsa_modulo := n |} m = Ok c ->
  again (rsa_encrypt capf {| rsa_exponent := e; rsa_modulo := n |}) (S j) c = Ok c ->
  again (rsa_encrypt capf {| rsa_exponent := e; rsa_modulo := n |}) j c = Ok m.
Proof.
  intros Hp Hq Hne K Hn Cn Ce Cd Ke Kd Hal Ln Cm Lt E A. pose proof (prime_N_ge2 _ Hp) as P2. pose proof (prime_N_ge2 _ Hq) as Q2.
  assert (N1 : 1 < num n) by (rewrite Hn; clear - P2 Q2; nia).
  set (key := {| rsa_exponent := e; rsa_modulo := n |}) in *.
  assert (Lm : (length m + 4 <= k)%nat) by (apply (below_length k key); cbn [key rsa_modulo]; auto; rewrite Hn; exact Lt).
  destruct (rsa_encrypt_spec capf k key m) as (c' & E1 & _ & C1 & V1); cbn [key rsa_exponent rsa_modulo]; auto.
  rewrite E in E1. apply Ok_inj in E1. subst c'.
  assert (Lc : num c < p * q) by (rewrite V1; unfold rsa_power; cbn [key rsa_modulo]; rewrite <- Hn; apply N.mod_lt; lia).
  destruct (again_power capf k key) with (j := j) (m := c) as (x & Ex & Cx & Vx);
    cbn [key rsa_exponent rsa_modulo]; auto; [rewrite Hn; exact Lc|].
  rewrite again_S, Ex in A. cbn [bind] in A. rewrite Ex. f_equal.
  assert (Lx : num x < p * q) by (rewrite Vx; unfold rsa_power; cbn [key rsa_modulo]; rewrite <- Hn; apply N.mod_lt; lia).
  assert (L2 : (length x + 4 <= k)%nat) by (apply (below_length k key); cbn [key rsa_modulo]; auto; rewrite Hn; exact Lx).
  destruct (rsa_roundtrip_spec capf k p q e n d x) as (y & F1 & _ & r & F2 & Cr & Vr); auto.
  fold key in F1. rewrite A in F1. apply Ok_inj in F1. subst y.
  destruct (rsa_roundtrip_spec capf k p q e n d m) as (y & F3 & _ & r' & F4 & Cr' & Vr'); auto.
  fold key in F3. rewrite E in F3. apply Ok_inj in F3. subst y. rewrite F2 in F4. apply Ok_inj in F4. subst r'.
  apply num_inj; auto. rewrite !N.mod_small in Vr, Vr' by assumption. congruence.
Qed.

(** ** Keys made by [create_keys] *)
Lemma created_parts p q e priv pub : canonical p -> canonical q -> canonical e ->
  prime_N (num p) -> prime_N (num q) -> create_keys p q e = Ok (priv, pub) ->
  pub_e pub = e /\ pub_n pub = priv_n priv /\ canonical (pub_n pub) /\ canonical (priv_d priv) /\
  num (pub_n pub) = num p * num q /\ key_pair (num p) (num q) (num e) (num (priv_d priv)) /\
  (length e <= 16)%nat /\ (length (priv_d priv) <= 16)%nat /\ (length (pub_n pub) <= 16)%nat /\
  num (priv_d priv) <= N.lcm (num p - 1) (num q - 1) /\ num p * num q < 2 ^ 128.
Proof.
  intros Cp Cq Ce Pp Pq E.
  destruct (create_keys_modulus _ _ _ _ _ E (canonical_bytes _ Cp) (canonical_bytes _ Cq)) as (_ & _ & L & V).
  rewrite V in L.
  assert (He : num e < 2 ^ 128).
  { unfold create_keys in E. rewrite !as_u128_spec in E by auto.
    destruct (num p <? 2 ^ 128); [|discriminate]. destruct (num q <? 2 ^ 128); [|discriminate].
    destruct (N.ltb_spec (num e) (2 ^ 128)); [auto|discriminate]. }
  destruct (N.eq_dec (N.gcd (num e) (N.lcm (num p - 1) (num q - 1))) 1) as [G|G].
  2:{ rewrite create_keys_not_coprime in E by auto. discriminate. }
  destruct (create_keys_ok p q e Cp Cq Ce Pp Pq L He G) as (n & d & E' & Cn & Cd & Vn & Ld & K).
  rewrite E in E'. apply Ok_inj in E'. injection E' as -> ->. cbn [pub_e pub_n priv_n priv_d].
  pose proof (lcm_bound _ _ Pp Pq L) as B.
  assert (Dd : num d < 2 ^ 128).
  { change (2 ^ 127) with 170141183460469231731687303715884105728 in B.
    change (2 ^ 128) with 340282366920938463463374607431768211456. clear - B Ld. lia. }
  assert (Ln : num n < 2 ^ 128) by (rewrite Vn; exact L).
  repeat (split; [first [reflexivity|assumption|now apply num_16]|]). exact L.
Qed.

Lemma cycle_created capf k p q e priv pub : canonical p -> canonical q -> canonical e ->
  prime_N (num p) -> prime_N (num q) -> num p <> num q -> create_keys p q e = Ok (priv, pub) ->
  allocates capf k -> (20 <= k)%nat ->
  exists j, (0 < j)%nat /\ N.of_nat j <= N.lcm (num p - 1) (num q - 1) /\
    forall m, canonical m -> num m < num p * num q -> again (rsa_encrypt capf (rsa_from_public pub)) j m = Ok m.
Proof.
  intros Cp Cq Ce Pp Pq Hne E Hal Hk.
  destruct (created_parts p q e priv pub Cp Cq Ce Pp Pq E) as (Ee & En & Cn & Cd & Vn & K & Le & Ld & Ln & _).
  unfold rsa_from_public. rewrite Ee.
  apply (cycle_key capf k (num p) (num q) e (pub_n pub) (priv_d priv)); auto using length_countable. clear - Ln Hk. lia.
Qed.

Lemma passes_created capf k p q e priv pub m c j : canonical p -> canonical q -> canonical e ->
  prime_N (num p) -> prime_N (num q) -> num p <> num q -> create_keys p q e = Ok (priv, pub) ->
  allocates capf k -> (20 <= k)%nat -> canonical m -> num m < num p * num q ->
  rsa_encrypt capf (rsa_from_public pub) m = Ok c -> again (rsa_encrypt capf (rsa_from_public pub)) (S j) c = Ok c ->
  again (rsa_encrypt capf (rsa_from_public pub)) j c = Ok m.
Proof.
  intros Cp Cq Ce Pp Pq Hne E Hal Hk Cm Lm.
  destruct (created_parts p q e priv pub Cp Cq Ce Pp Pq E) as (Ee & En & Cn & Cd & Vn & K & Le & Ld & Ln & _).
  unfold rsa_from_public. rewrite Ee.
  apply (cycle_passes capf k (num p) (num q) e (pub_n pub) (priv_d priv)); auto using length_countable. clear - Ln Hk. lia.
Qed.
