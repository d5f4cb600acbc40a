(** * Proofs: Fermat's method on the moduli of [create_keys] *)
From Coq Require Import NArith ZArith List Lia Znumtheory.
From Verif Require Import Base BaseLemmas ModelBig ModelRsa SpecBig SpecRsa SpecFermat ProofBig3 ProofRsa.
From Coq Require Import ZifyBool ZifyNat ZifyN.
Ltac Zify.zify_post_hook ::= idtac.
Local Open Scope N_scope.

Lemma ceil_sqrt_spec n : n <= ceil_sqrt n * ceil_sqrt n /\ forall a, n <= a * a -> ceil_sqrt n <= a.
Proof.
  unfold ceil_sqrt. pose proof (N.sqrt_spec n ltac:(lia)) as [L U]. cbv zeta.
  destruct (N.eqb_spec (N.sqrt n * N.sqrt n) n) as [E|E].
  - split; [lia|]. intros a Ha. rewrite <- E in Ha. apply N.square_le_mono; lia.
  - split; [nia|]. intros a Ha. assert (N.sqrt n < a); [|lia].
    apply N.square_lt_mono; lia.
Qed.

(** Soundness, and the shape of what is found. *)
Lemma fermat_from_sound k : forall n a x y, n <= a * a -> fermat_from k n a = Some (x, y) ->
  x * y = n /\ x <= y /\ (exists b, a <= b /\ b < a + N.of_nat k /\ x + y = 2 * b).
Proof.
  induction k as [|k IH]; intros n a x y Ha; cbn [fermat_from]; [discriminate|]. cbv zeta.
  pose proof (N.sqrt_spec (a * a - n) ltac:(lia)) as [L U].
  destruct (N.eqb_spec (a * a - N.sqrt (a * a - n) * N.sqrt (a * a - n)) n) as [E|E]; intros H.
  - injection H as <- <-. remember (N.sqrt (a * a - n)) as b.
    assert (b <= a) by (apply N.square_le_mono; lia).
    split; [|split; [lia|exists a; lia]].
    rewrite N.mul_sub_distr_r, N.mul_add_distr_l, N.mul_add_distr_l, (N.mul_comm b a). lia.
  - apply IH in H; [|nia]. destruct H as (H1 & H2 & b & H3 & H4 & H5). split; [exact H1|]. split; [exact H2|].
    exists b. lia.
Qed.

(** The first that allows it. *)
Lemma fermat_from_finds j : forall k n a t, n + t * t = (a + N.of_nat j) * (a + N.of_nat j) -> n <= a * a ->
  (forall i b, (i < j)%nat -> n + b * b <> (a + N.of_nat i) * (a + N.of_nat i)) -> (j < k)%nat ->
  fermat_from k n a = Some (a + N.of_nat j - t, a + N.of_nat j + t).
Proof.
  induction j as [|j IH]; intros k n a t E Ha No Hk; (destruct k as [|k]; [lia|]); cbn [fermat_from]; cbv zeta.
  - rewrite N.add_0_r in *. replace (a * a - n) with (t * t) by lia.
    rewrite N.sqrt_square. replace (a * a - t * t) with n by lia. rewrite N.eqb_refl. reflexivity.
  - pose proof (N.sqrt_spec (a * a - n) ltac:(lia)) as [L U].
    destruct (N.eqb_spec (a * a - N.sqrt (a * a - n) * N.sqrt (a * a - n)) n) as [F|F].
    + exfalso. apply (No O (N.sqrt (a * a - n))); [lia|]. rewrite N.add_0_r. lia.
    + replace (a + N.of_nat (S j)) with (a + 1 + N.of_nat j) by lia. apply IH; [|nia| |lia].
      * rewrite E. f_equal; lia.
      * intros i b Hi. replace (a + 1 + N.of_nat i) with (a + N.of_nat (S i)) by lia. apply No. lia.
Qed.

Lemma prime_pair p q x y : prime_N p -> prime_N q -> q <= p -> x * y = p * q -> x <= y ->
  (x = 1 /\ y = p * q) \/ (x = q /\ y = p).
Proof.
  unfold prime_N. intros Pp Pq Lqp E L.
  pose proof (prime_ge_2 _ Pp). pose proof (prime_ge_2 _ Pq).
  assert (D : (Z.of_N p | Z.of_N x * Z.of_N y)%Z).
  { exists (Z.of_N q). rewrite <- N2Z.inj_mul, E, N2Z.inj_mul. ring. }
  apply (prime_mult _ Pp) in D.
  assert (PQ : p * q <> 0) by (apply N.neq_mul_0; lia).
  assert (X : x <> 0) by (intros ->; apply PQ; rewrite <- E; reflexivity).
  assert (Y : y <> 0) by (intros ->; apply PQ; rewrite <- E; apply N.mul_0_r).
  assert (EZ : (Z.of_N x * Z.of_N y = Z.of_N p * Z.of_N q)%Z) by (rewrite <- !N2Z.inj_mul; now rewrite E).
  assert (QP : (Z.of_N q <= Z.of_N p)%Z) by lia. assert (XY : (Z.of_N x <= Z.of_N y)%Z) by lia.
  destruct D as [[z D]|[z D]].
  - assert (0 < z)%Z by nia.
    assert (Ez : (z * Z.of_N y = Z.of_N q)%Z) by (apply (Z.mul_reg_l _ _ (Z.of_N p)); [lia|rewrite <- EZ, D; ring]).
    destruct (prime_divisors _ Pq z) as [F|[F|[F|F]]]; [exists (Z.of_N y); lia|lia| | |lia].
    + right. subst z. nia.
    + exfalso. subst z. nia.
  - assert (0 < z)%Z by nia.
    assert (Ez : (z * Z.of_N x = Z.of_N q)%Z) by (apply (Z.mul_reg_l _ _ (Z.of_N p)); [lia|rewrite <- EZ, D; ring]).
    destruct (prime_divisors _ Pq z) as [F|[F|[F|F]]]; [exists (Z.of_N x); lia|lia| | |lia].
    + right. subst z. nia.
    + left. subst z. nia.
Qed.

(** The middle of the two primes is the first that allows it. *)
Lemma middle_first p q s t a b : prime_N p -> prime_N q -> p = s + t -> q = s - t -> t <= s ->
  p * q + b * b = a * a -> s <= a.
Proof.
  intros Pp Pq Ep Eq Lt E. assert (b <= a) by (apply N.square_le_mono; lia).
  destruct (prime_pair p q (a - b) (a + b) Pp Pq) as [[H1 H2]|[H1 H2]]; [lia| |lia| |lia].
  - rewrite N.mul_sub_distr_r, !N.mul_add_distr_l, (N.mul_comm b a). lia.
  - unfold prime_N in *. pose proof (prime_ge_2 _ Pp). pose proof (prime_ge_2 _ Pq).
    assert (p + q <= 1 + p * q) by nia. lia.
Qed.

Lemma odd_prime p : prime_N p -> 2 < p -> exists h, p = 2 * h + 1.
Proof.
  unfold prime_N. intros P H. exists (p / 2). pose proof (N.div_mod p 2 ltac:(lia)) as E.
  pose proof (N.mod_upper_bound p 2 ltac:(lia)).
  destruct (N.eq_dec (p mod 2) 1) as [M|M]; [lia|]. exfalso.
  destruct (prime_divisors _ P 2%Z) as [F|[F|[F|F]]]; try lia.
  exists (Z.of_N (p / 2)). lia.
Qed.

Lemma halves p q : prime_N p -> prime_N q -> 2 < q -> q <= p ->
  exists s t, p = s + t /\ q = s - t /\ t < s /\ (p + q) / 2 = s /\ p - q = 2 * t.
Proof.
  intros Pp Pq Hq L. destruct (odd_prime p Pp ltac:(lia)) as [h ->]. destruct (odd_prime q Pq Hq) as [i ->].
  exists (h + i + 1), (h - i). split; [lia|]. split; [lia|]. split; [lia|]. split; [|lia].
  replace (2 * h + 1 + (2 * i + 1)) with ((h + i + 1) * 2) by lia. apply N.div_mul. lia.
Qed.

Lemma fermat_primes p q k : prime_N p -> prime_N q -> 2 < q -> q <= p ->
  fermat k (p * q) = (if (p + q) / 2 <? ceil_sqrt (p * q) + N.of_nat k then Some (q, p) else None) /\
  8 * ceil_sqrt (p * q) * ((p + q) / 2 - ceil_sqrt (p * q)) <= (p - q) * (p - q).
Proof.
  intros Pp Pq Hq L. destruct (halves p q Pp Pq Hq L) as (s & t & Ep & Eq & Lt & Es & Ed).
  rewrite Es, Ed. unfold fermat. destruct (ceil_sqrt_spec (p * q)) as [Lc Uc].
  remember (ceil_sqrt (p * q)) as c eqn:Ec. clear Ec.
  assert (En : p * q + t * t = s * s).
  { subst p q. rewrite N.mul_sub_distr_l, !N.mul_add_distr_r, (N.mul_comm t s).
    assert (t * t <= s * s) by nia. lia. }
  assert (Cs : c <= s) by (apply Uc; lia).
  split.
  - destruct (N.ltb_spec s (c + N.of_nat k)) as [K|K].
    + rewrite (fermat_from_finds (N.to_nat (s - c)) k (p * q) c t).
      * replace (c + N.of_nat (N.to_nat (s - c))) with s by lia. f_equal. f_equal; lia.
      * replace (c + N.of_nat (N.to_nat (s - c))) with s by lia. exact En.
      * exact Lc.
      * intros i b Hi E. apply (middle_first p q s t) in E; auto; lia.
      * lia.
    + destruct (fermat_from k (p * q) c) as [[x y]|] eqn:E; [|reflexivity]. exfalso.
      apply fermat_from_sound in E; [|exact Lc]. destruct E as (E1 & E2 & b & B1 & B2 & B3).
      destruct (prime_pair p q x y Pp Pq L E1 E2) as [[-> ->]|[-> ->]]; [|lia].
      assert (p + q <= 1 + p * q) by nia. lia.
  - assert (H : 2 * c * (s - c) <= t * t); [|lia].
    assert (A : (s - c) * (s + c) <= t * t).
    { rewrite N.mul_sub_distr_r, !N.mul_add_distr_l, (N.mul_comm c s). lia. }
    apply N.le_trans with ((s - c) * (s + c)); [|exact A].
    rewrite (N.mul_comm (2 * c)). apply N.mul_le_mono_l. lia.
Qed.

Lemma created_modulus p q e priv pub : canonical p -> canonical q -> canonical e ->
  prime_N (num p) -> prime_N (num q) -> create_keys p q e = Ok (priv, pub) -> num (pub_n pub) = num p * num q.
Proof.
  intros Cp Cq Ce Pp Pq H.
  destruct (N.lt_ge_cases (num p) (2 ^ 128)) as [Bp|Bp]; [|rewrite create_keys_not_u128 in H by auto; discriminate H].
  destruct (N.lt_ge_cases (num q) (2 ^ 128)) as [Bq|Bq]; [|rewrite create_keys_not_u128 in H by auto; discriminate H].
  destruct (N.lt_ge_cases (num e) (2 ^ 128)) as [Be|Be]; [|rewrite create_keys_not_u128 in H by auto; discriminate H].
  assert (P2 : 2 <= num p) by (unfold prime_N in Pp; pose proof (prime_ge_2 _ Pp); lia).
  assert (Q2 : 2 <= num q) by (unfold prime_N in Pq; pose proof (prime_ge_2 _ Pq); lia).
  destruct (N.lt_ge_cases (num p * num q) (2 ^ 128)) as [Bn|Bn];
    [|rewrite create_keys_too_big in H by (auto; lia); discriminate H].
  destruct (N.eq_dec (N.gcd (num e) (N.lcm (num p - 1) (num q - 1))) 1) as [G|G];
    [|rewrite create_keys_not_coprime in H by auto; discriminate H].
  destruct (create_keys_ok p q e Cp Cq Ce Pp Pq Bn Be G) as (n & d & K & _ & _ & Vn & _ & KP).
  rewrite K in H. injection H as <- <-. exact Vn.
Qed.

Lemma fermat_created p q e priv pub k : canonical p -> canonical q -> canonical e ->
  prime_N (num p) -> prime_N (num q) -> 2 < num q -> num q <= num p -> create_keys p q e = Ok (priv, pub) ->
  let c := ceil_sqrt (num (pub_n pub)) in
  fermat k (num (pub_n pub)) = (if (num p + num q) / 2 <? c + N.of_nat k then Some (num q, num p) else None) /\
  8 * c * ((num p + num q) / 2 - c) <= (num p - num q) * (num p - num q).
Proof.
  intros Cp Cq Ce Pp Pq Hq L H. cbv zeta. rewrite (created_modulus p q e priv pub Cp Cq Ce Pp Pq H).
  exact (fermat_primes (num p) (num q) k Pp Pq Hq L).
Qed.

Lemma fermat_first p q e priv pub : canonical p -> canonical q -> canonical e ->
  prime_N (num p) -> prime_N (num q) -> 2 < num q -> num q <= num p -> create_keys p q e = Ok (priv, pub) ->
  (num p - num q) * (num p - num q) < 8 * ceil_sqrt (num (pub_n pub)) ->
  fermat 1 (num (pub_n pub)) = Some (num q, num p).
Proof.
  intros Cp Cq Ce Pp Pq Hq L H D.
  destruct (fermat_created p q e priv pub 1 Cp Cq Ce Pp Pq Hq L H) as [F B]. cbv zeta in F, B.
  rewrite F. remember (ceil_sqrt (num (pub_n pub))) as c. remember ((num p + num q) / 2) as s.
  destruct (N.ltb_spec s (c + N.of_nat 1)) as [|G]; [reflexivity|]. exfalso.
  assert (8 * c * 1 <= 8 * c * (s - c)) by (apply N.mul_le_mono_l; lia). lia.
Qed.

Lemma fermat_accepted p q e : canonical p -> canonical q -> canonical e ->
  prime_N (num p) -> prime_N (num q) -> 2 < num q -> num q <= num p -> num p * num q < 2 ^ 128 ->
  num e < 2 ^ 128 -> N.gcd (num e) (N.lcm (num p - 1) (num q - 1)) = 1 ->
  (num p - num q) * (num p - num q) < 8 * ceil_sqrt (num p * num q) ->
  exists priv pub, create_keys p q e = Ok (priv, pub) /\ fermat 1 (num (pub_n pub)) = Some (num q, num p).
Proof.
  intros Cp Cq Ce Pp Pq Hq L Bn Be G D.
  destruct (create_keys_ok p q e Cp Cq Ce Pp Pq Bn Be G) as (n & d & K & _ & _ & Vn & _ & KP).
  eexists. eexists. split; [exact K|]. apply (fermat_first p q e _ _ Cp Cq Ce Pp Pq Hq L K).
  cbn [pub_n]. rewrite Vn. exact D.
Qed.

Lemma fermat_sound k n x y : fermat k n = Some (x, y) -> x * y = n /\ x <= y.
Proof.
  intros H. apply fermat_from_sound in H; [|apply ceil_sqrt_spec]. split; apply H.
Qed.
