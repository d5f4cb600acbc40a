(** * Proofs: the keys that are created disclose their primes to who knows both exponents *)
From Coq Require Import List ZArith NArith Znumtheory Lia Bool.
From Verif Require Import Base BaseLemmas ModelBig ModelRsa SpecBig SpecRsa SpecFactor ProofRsaMath ProofRsa ProofFactor.
Import ListNotations.
Local Open Scope N_scope.

Lemma key_multiple p q e d : 2 < p -> 2 < q -> 1 < e -> key_pair p q e d ->
  0 < e * d - 1 /\ N.divide (p - 1) (e * d - 1) /\ N.divide (q - 1) (e * d - 1).
Proof.
  unfold key_pair. intros P Q E K. set (l := N.lcm (p - 1) (q - 1)) in *.
  assert (Dl : N.divide (p - 1) l) by apply N.divide_lcm_l.
  assert (Dr : N.divide (q - 1) l) by apply N.divide_lcm_r.
  assert (L2 : 1 < l).
  { assert (l <> 0) by (unfold l; intros Z; apply N.lcm_eq_0 in Z; lia).
    apply N.divide_pos_le in Dl; lia. }
  rewrite (N.mod_small 1) in K by lia.
  assert (H0 : e * d <> 0) by (intros Z; rewrite Z, N.mod_0_l in K by lia; discriminate K).
  assert (D : N.divide l (e * d - 1)).
  { exists (e * d / l). pose proof (N.div_mod (e * d) l ltac:(lia)) as M. rewrite K in M. lia. }
  split; [assert (d <> 0) by (intros ->; lia); assert (2 * 1 <= e * d) by (apply N.mul_le_mono; lia); lia|]. split; eapply N.divide_trans; eassumption.
Qed.

Lemma key_sound p q e d a g : prime_N p -> prime_N q -> p <> q -> 2 < p -> 2 < q -> 1 < e -> key_pair p q e d ->
  N.gcd a (p * q) = 1 -> factor_with (p * q) (e * d - 1) a = Some g -> g = p \/ g = q.
Proof.
  intros Pp Pq Hne P Q E K. destruct (key_multiple p q e d P Q E K) as (M & D1 & D2).
  exact (factor_sound p q _ Pp Pq Hne P Q M D1 D2 a g).
Qed.

Lemma key_half p q e d : prime_N p -> prime_N q -> p <> q -> 2 < p -> 2 < q -> 1 < e -> key_pair p q e d ->
  (length (units (p * q)) <= 2 * length (successes (p * q) (e * d - 1)))%nat.
Proof.
  intros Pp Pq Hne P Q E K. destruct (key_multiple p q e d P Q E K) as (M & D1 & D2).
  exact (at_least_half p q _ Pp Pq Hne P Q M D1 D2).
Qed.

Lemma some_success p q e d : prime_N p -> prime_N q -> p <> q -> 2 < p -> 2 < q -> 1 < e -> key_pair p q e d ->
  exists a, a < p * q /\ (factor_with (p * q) (e * d - 1) a = Some p \/ factor_with (p * q) (e * d - 1) a = Some q).
Proof.
  intros Pp Pq Hne P Q E K. pose proof (key_half p q e d Pp Pq Hne P Q E K) as H.
  destruct (successes (p * q) (e * d - 1)) as [|a l] eqn:S.
  - assert (I : In 1 (units (p * q))) by (apply (in_units p q); split; [nia|apply N.gcd_1_l]).
    destruct (units (p * q)); [destruct I|cbn [length] in H; lia].
  - assert (I : In a (successes (p * q) (e * d - 1))) by (rewrite S; now left).
    unfold successes in I. apply filter_In in I as [I F]. apply (in_units p q) in I as [L G].
    exists a. split; [exact L|]. destruct (factor_with (p * q) (e * d - 1) a) as [g|] eqn:W; [|discriminate F].
    destruct (key_sound p q e d a g Pp Pq Hne P Q E K G W) as [->| ->]; auto.
Qed.

Lemma created_keys_disclose p q e priv pub : canonical p -> canonical q -> canonical e ->
  prime_N (num p) -> prime_N (num q) -> num p <> num q -> 2 < num p -> 2 < num q -> 1 < num e ->
  create_keys p q e = Ok (priv, pub) ->
  let n := num (pub_n pub) in let m := num (pub_e pub) * num (priv_d priv) - 1 in
  (forall a g, N.gcd a n = 1 -> factor_with n m a = Some g -> g = num p \/ g = num q) /\
  (length (units n) <= 2 * length (successes n m))%nat /\
  exists a, a < n /\ (factor_with n m a = Some (num p) \/ factor_with n m a = Some (num q)).
Proof.
  intros Cp Cq Ce Pp Pq Hne P Q E H.
  destruct (N.lt_ge_cases (num p) (2 ^ 128)) as [Bp|Bp]; [|rewrite create_keys_not_u128 in H by auto; discriminate H].
  destruct (N.lt_ge_cases (num q) (2 ^ 128)) as [Bq|Bq]; [|rewrite create_keys_not_u128 in H by auto; discriminate H].
  destruct (N.lt_ge_cases (num e) (2 ^ 128)) as [Be|Be]; [|rewrite create_keys_not_u128 in H by auto; discriminate H].
  destruct (N.lt_ge_cases (num p * num q) (2 ^ 128)) as [Bn|Bn];
    [|rewrite create_keys_too_big in H by (auto; lia); discriminate H].
  destruct (N.eq_dec (N.gcd (num e) (N.lcm (num p - 1) (num q - 1))) 1) as [G|G];
    [|rewrite create_keys_not_coprime in H by auto; discriminate H].
  destruct (create_keys_ok p q e Cp Cq Ce Pp Pq Bn Be G) as (n & d & K & _ & _ & Vn & _ & KP).
  rewrite K in H. injection H as <- <-. cbn [pub_n pub_e priv_d]. rewrite Vn.
  split; [intros a g; now apply key_sound|]. split; [now apply key_half|now apply some_success].
Qed.
