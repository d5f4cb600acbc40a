(** * Proofs: the two exponents of an RSA key disclose the primes *)
From Coq Require Import List ZArith NArith Znumtheory Lia Bool.
From Verif Require Import SpecRsa SpecFactor ProofRsaMath.
Import ListNotations.
Local Open Scope Z_scope.

(** ** Congruences *)

Definition cong (n a b : Z) : Prop := (n | a - b).

Lemma cong_refl n a : cong n a a.
Proof. exists 0. ring. Qed.
Lemma cong_sym n a b : cong n a b -> cong n b a.
Proof. intros [k H]. exists (- k). lia. Qed.
Lemma cong_trans n a b c : cong n a b -> cong n b c -> cong n a c.
Proof. intros [k H] [j G]. exists (k + j). lia. Qed.
Lemma cong_mul n a b c d : cong n a b -> cong n c d -> cong n (a * c) (b * d).
Proof. intros [k H] [j G]. exists (k * c + b * j). rewrite Z.mul_add_distr_r. 
  replace (k * c * n) with ((k * n) * c) by ring. rewrite <- H. rewrite <- Z.mul_assoc, <- G. ring. Qed.
Lemma cong_pow n a b k : 0 <= k -> cong n a b -> cong n (a ^ k) (b ^ k).
Proof.
  intros Hk H. pattern k. apply natlike_ind; [apply cong_refl| |exact Hk].
  intros j Hj IH. rewrite !Z.pow_succ_r by exact Hj. now apply cong_mul.
Qed.
Lemma cong_mod n a : n <> 0 -> cong n (a mod n) a.
Proof. intros H. exists (- (a / n)). pose proof (Z.div_mod a n H). lia. Qed.
Lemma cong_eq n a b : n <> 0 -> cong n a b -> a mod n = b mod n.
Proof. intros H [k E]. replace a with (b + k * n) by lia. now apply Z.mod_add. Qed.
Lemma cong_small n a b : 0 <= a < n -> 0 <= b < n -> cong n a b -> a = b.
Proof. intros Ha Hb H. apply cong_eq in H; [|lia]. now rewrite !Z.mod_small in H. Qed.
Lemma cong_weaken p q a b : cong (p * q) a b -> cong p a b.
Proof. intros [k H]. exists (k * q). lia. Qed.
Lemma cong_weaken_r p q a b : cong (p * q) a b -> cong q a b.
Proof. intros [k H]. exists (k * p). lia. Qed.
Lemma cong_of_mod n a b : n <> 0 -> a mod n = b mod n -> cong n a b.
Proof.
  intros H E. apply cong_trans with (a mod n); [apply cong_sym, cong_mod, H|]. rewrite E. now apply cong_mod.
Qed.

Lemma minus_one_cong p : 2 < p -> ~ cong p (-1) 1.
Proof. intros H D. apply Z.divide_opp_r in D. apply Z.divide_pos_le in D; lia. Qed.

Lemma crt p q r s : prime p -> prime q -> p <> q ->
  exists x, 0 <= x < p * q /\ cong p x r /\ cong q x s.
Proof.
  intros Pp Pq Hne. assert (P1 : 1 < p) by (destruct Pp; auto). assert (Q1 : 1 < q) by (destruct Pq; auto).
  assert (RP : rel_prime p q).
  { apply prime_rel_prime; auto. intros D. apply Hne. apply prime_div_prime; auto. }
  destruct (rel_prime_bezout p q RP) as [u v E].
  exists ((s * (u * p) + r * (v * q)) mod (p * q)). split; [apply Z.mod_pos_bound; nia|].
  assert (N0 : p * q <> 0) by nia.
  split.
  - apply cong_trans with (s * (u * p) + r * (v * q)); [apply (cong_weaken p q), cong_mod, N0|].
    exists (s * u - r * u). replace (v * q) with (1 - u * p) by lia. ring.
  - apply cong_trans with (s * (u * p) + r * (v * q)); [apply (cong_weaken_r p q), cong_mod, N0|].
    exists (r * v - s * v). replace (u * p) with (1 - v * q) by lia. ring.
Qed.

Lemma cong_both p q a b : prime p -> prime q -> p <> q -> cong p a b -> cong q a b -> cong (p * q) a b.
Proof. intros Pp Pq Hne H1 H2. now apply divide_distinct_primes. Qed.

(** ** A square root of one gives a factor *)

Lemma gcd_is p q x : prime p -> prime q -> p <> q -> (p | x) -> ~ (q | x) -> Z.gcd x (p * q) = p.
Proof.
  intros Pp Pq Hne D1 D2. assert (P1 : 1 < p) by (destruct Pp; auto).
  destruct D1 as [k ->].
  replace (k * p) with (p * k) by ring. rewrite Z.gcd_mul_mono_l_nonneg by lia.
  assert (G : Z.gcd k q = 1).
  { apply Zgcd_1_rel_prime. apply rel_prime_sym, prime_rel_prime; auto.
    intros D. apply D2. now apply Z.divide_mul_l. }
  rewrite G. ring.
Qed.

Lemma root_splits p q x : prime p -> prime q -> p <> q -> 2 < p -> 2 < q ->
  cong (p * q) (x * x) 1 -> ~ cong (p * q) x 1 -> ~ cong (p * q) x (-1) ->
  Z.gcd (x - 1) (p * q) = p \/ Z.gcd (x - 1) (p * q) = q.
Proof.
  intros Pp Pq Hne P2 Q2 H N1 N2.
  assert (F : forall r, prime r -> cong r (x * x) 1 -> cong r x 1 \/ cong r x (-1)).
  { intros r Pr D. unfold cong in *. replace (x * x - 1) with ((x - 1) * (x - -1)) in D by ring.
    now apply prime_mult in D. }
  assert (X : forall r, 2 < r -> cong r x (-1) -> ~ (r | x - 1)).
  { intros r R2 D D'. apply (minus_one_cong r R2). apply cong_trans with x; [now apply cong_sym|exact D']. }
  destruct (F p Pp (cong_weaken p q _ _ H)) as [A|A], (F q Pq (cong_weaken_r p q _ _ H)) as [B|B].
  - exfalso. apply N1. now apply cong_both.
  - left. apply gcd_is; auto.
  - right. rewrite Z.mul_comm. apply gcd_is; auto.
  - exfalso. apply N2. now apply cong_both.
Qed.

(** ** What the search finds, and when it finds nothing *)

Local Notation two s := (2 ^ Z.of_nat s).

Lemma pow_mod_Z (n a k : N) : n <> 0%N -> Z.of_N (a ^ k mod n) = (Z.of_N a ^ Z.of_N k) mod Z.of_N n.
Proof. intros H. now rewrite N2Z.inj_mod, N2Z.inj_pow. Qed.

Lemma gcd_Z (a b : N) : Z.of_N (N.gcd a b) = Z.gcd (Z.of_N a) (Z.of_N b).
Proof. now destruct a, b. Qed.

Lemma half_pow s t : ((2 ^ N.of_nat (S s) * t) / 2 = 2 ^ N.of_nat s * t)%N.
Proof.
  replace (2 ^ N.of_nat (S s) * t)%N with (2 ^ N.of_nat s * t * 2)%N; [apply N.div_mul; lia|].
  rewrite Nat2N.inj_succ, N.pow_succ_r'. ring.
Qed.

Lemma even_pow s t : N.odd (2 ^ N.of_nat (S s) * t) = false.
Proof. rewrite Nat2N.inj_succ, N.pow_succ_r', N.odd_mul, N.odd_mul. reflexivity. Qed.

Lemma square_pow (a t : Z) s : 0 <= t -> a ^ (two (S s) * t) = a ^ (two s * t) * a ^ (two s * t).
Proof.
  intros H. rewrite <- Z.pow_add_r by nia. f_equal. rewrite Nat2Z.inj_succ, Z.pow_succ_r by lia. ring.
Qed.

Lemma exp_Z s t : Z.of_N (2 ^ N.of_nat s * t) = two s * Z.of_N t.
Proof. now rewrite N2Z.inj_mul, N2Z.inj_pow, nat_N_Z. Qed.

Lemma split_step fuel n a s t : split_at (S fuel) n a (2 ^ N.of_nat (S s) * t) =
  let x := (a ^ (2 ^ N.of_nat s * t) mod n)%N in
  if (x =? 1)%N then split_at fuel n a (2 ^ N.of_nat s * t)
  else if (x =? n - 1)%N then None else Some (N.gcd (x - 1) n).
Proof. cbn [split_at]. now rewrite even_pow, half_pow. Qed.

Section Search.
  Context (n a t : N) (Hn : (2 < n)%N) (Ht : N.odd t = true).
  Let nz := Z.of_N n.
  Let az := Z.of_N a.
  Let tz := Z.of_N t.

  Lemma residue_cong s : cong nz (Z.of_N (a ^ (2 ^ N.of_nat s * t) mod n)) (az ^ (two s * tz)).
  Proof using Hn.
    unfold nz, az, tz. rewrite pow_mod_Z, exp_Z by lia. apply cong_mod. lia.
  Qed.

  Lemma search_none s : forall fuel, (s < fuel)%nat -> cong nz (az ^ (two s * tz)) 1 ->
    split_at fuel n a (2 ^ N.of_nat s * t) = None ->
    cong nz (az ^ tz) 1 \/ exists j, (j < s)%nat /\ cong nz (az ^ (two j * tz)) (-1).
  Proof using Hn Ht.
    induction s as [|s IH]; intros fuel Hf H1 H.
    - left. change (two 0) with 1 in H1. now rewrite Z.mul_1_l in H1.
    - destruct fuel as [|fuel]; [lia|]. rewrite split_step in H. cbv zeta in H.
      pose proof (residue_cong s) as R. remember (a ^ (2 ^ N.of_nat s * t) mod n)%N as x eqn:Ex. clear Ex.
      destruct (x =? 1)%N eqn:E1.
      + apply N.eqb_eq in E1. subst x. destruct (IH fuel) as [C|(j & Hj & C)]; auto; [lia|now apply cong_sym|].
        right. exists j. split; [lia|exact C].
      + destruct (x =? n - 1)%N eqn:E2; [|discriminate H].
        apply N.eqb_eq in E2. subst x. right. exists s. split; [lia|].
        apply cong_trans with (Z.of_N (n - 1)); [now apply cong_sym|]. exists 1. unfold nz. lia.
  Qed.

  Lemma search_some s : forall fuel g, cong nz (az ^ (two s * tz)) 1 ->
    split_at fuel n a (2 ^ N.of_nat s * t) = Some g ->
    exists x, cong nz (x * x) 1 /\ ~ cong nz x 1 /\ ~ cong nz x (-1) /\ Z.of_N g = Z.gcd (x - 1) nz.
  Proof using Hn Ht.
    induction s as [|s IH]; intros fuel g H1 H.
    - destruct fuel as [|fuel]; [discriminate H|]. cbn [split_at] in H.
      change (2 ^ N.of_nat 0)%N with 1%N in H. rewrite N.mul_1_l, Ht in H. discriminate H.
    - destruct fuel as [|fuel]; [discriminate H|]. rewrite split_step in H. cbv zeta in H.
      pose proof (residue_cong s) as R.
      assert (L : (a ^ (2 ^ N.of_nat s * t) mod n < n)%N) by (apply N.mod_lt; lia).
      remember (a ^ (2 ^ N.of_nat s * t) mod n)%N as x eqn:Ex. clear Ex.
      destruct (x =? 1)%N eqn:E1.
      + apply N.eqb_eq in E1. subst x. apply (IH fuel g); [now apply cong_sym|exact H].
      + destruct (x =? n - 1)%N eqn:E2; [discriminate H|].
        apply N.eqb_neq in E1, E2. injection H as <-.
        assert (S1 : cong nz (Z.of_N x * Z.of_N x) 1).
        { apply cong_trans with (az ^ (two (S s) * tz)); [|exact H1].
          rewrite square_pow by (unfold tz; lia). now apply cong_mul. }
        assert (X0 : x <> 0%N).
        { intros ->. apply cong_eq in S1; [|unfold nz; lia]. rewrite Z.mod_0_l, Z.mod_1_l in S1 by (unfold nz; lia). lia. }
        exists (Z.of_N x). split; [exact S1|]. split; [|split].
        * intros C. apply cong_small in C; unfold nz; lia.
        * intros C. assert (C2 : cong nz (Z.of_N x) (nz - 1)).
          { apply cong_trans with (-1); [exact C|]. exists (-1). ring. }
          apply cong_small in C2; unfold nz in *; lia.
        * unfold nz. replace (Z.of_N x - 1) with (Z.of_N (x - 1)) by lia. apply gcd_Z.
  Qed.
End Search.

(** ** At least half of the units succeed *)

Lemma pow_two_more (a t : Z) j i : 0 <= t -> (j <= i)%nat ->
  a ^ (two i * t) = (a ^ (two j * t)) ^ two (i - j).
Proof.
  intros Ht H. rewrite <- Z.pow_mul_r by nia. f_equal.
  replace (Z.of_nat i) with (Z.of_nat j + Z.of_nat (i - j)) by lia. rewrite Z.pow_add_r by lia. ring.
Qed.

Lemma minus_one_even k : (0 < k)%nat -> (-1) ^ two k = 1.
Proof.
  intros H. destruct k as [|k]; [lia|]. rewrite Nat2Z.inj_succ, Z.pow_succ_r by lia.
  rewrite Z.pow_mul_r by lia. replace ((-1) ^ 2) with 1 by reflexivity. apply Z.pow_1_l. lia.
Qed.

Lemma minus_one_odd t : 0 <= t -> Z.odd t = true -> (-1) ^ t = -1.
Proof.
  intros H Ho. pose proof (Zodd_ex t) as E. apply Zodd_bool_iff in Ho. destruct (E Ho) as [k ->].
  rewrite Z.pow_add_r, Z.pow_mul_r by lia. replace ((-1) ^ 2) with 1 by reflexivity.
  rewrite Z.pow_1_l by lia. reflexivity.
Qed.

(** Some residue has minus one as its power. *)
Definition reaches (p t : Z) (i : nat) : bool :=
  existsb (fun b => b ^ (two i * t) mod p =? p - 1) (residues p).

Lemma reaches_true p t i : 2 < p -> reaches p t i = true ->
  exists b, 1 <= b < p /\ cong p (b ^ (two i * t)) (-1).
Proof.
  intros Hp H. apply existsb_exists in H as (b & Hb & E). apply in_residues in Hb; [|lia].
  exists b. split; [exact Hb|]. apply Z.eqb_eq in E.
  apply cong_trans with (p - 1); [|exists 1; ring]. rewrite <- E. apply cong_sym, cong_mod. lia.
Qed.

Lemma true_reaches p t i b : 2 < p -> 0 <= t -> ~ (p | b) -> cong p (b ^ (two i * t)) (-1) -> reaches p t i = true.
Proof.
  intros Hp Ht Hb H. apply existsb_exists. exists (b mod p). split.
  - apply in_residues; [lia|]. pose proof (Z.mod_pos_bound b p ltac:(lia)).
    enough (b mod p <> 0) by lia. intros E. apply Hb. apply Z.mod_divide; [lia|exact E].
  - apply Z.eqb_eq. assert (C : cong p ((b mod p) ^ (two i * t)) (p - 1)).
    { apply cong_trans with (b ^ (two i * t)); [apply cong_pow; [nia|apply cong_mod; lia]|].
      apply cong_trans with (-1); [exact H|]. exists (-1). ring. }
    apply cong_eq in C; [|lia]. rewrite C. apply Z.mod_small. lia.
Qed.

Lemma last_true (f : nat -> bool) s : f 0%nat = true -> f s = false ->
  exists i, (i < s)%nat /\ f i = true /\ forall j, (i < j <= s)%nat -> f j = false.
Proof.
  intros H0. induction s as [|s IH]; intros Hs; [congruence|].
  destruct (f s) eqn:E.
  - exists s. split; [lia|]. split; [exact E|]. intros j Hj. replace j with (S s) by lia. exact Hs.
  - destruct (IH eq_refl) as (i & Li & Ei & Hi). exists i. split; [lia|]. split; [exact Ei|].
    intros j Hj. destruct (Nat.eq_dec j (S s)) as [->|]; [exact Hs|apply Hi; lia].
Qed.

(** A level [i] such that every failing [a] is plus or minus one there, and one unit is not. *)
Lemma separating p q t s : prime p -> prime q -> p <> q -> 2 < p -> 2 < q -> 0 <= t -> Z.odd t = true ->
  (p - 1 | two s * t) -> (q - 1 | two s * t) ->
  exists i c, (i < s)%nat /\ 0 <= c < p * q /\ ~ (p | c) /\ ~ (q | c) /\
    ~ cong (p * q) (c ^ (two i * t)) 1 /\ ~ cong (p * q) (c ^ (two i * t)) (-1) /\
    forall a j, ~ (p | a) -> (j < s)%nat -> cong (p * q) (a ^ (two j * t)) (-1) -> (j <= i)%nat.
Proof.
  intros Pp Pq Hne P2 Q2 Ht Ho Dp Dq.
  set (f := fun i => reaches p t i || reaches q t i).
  assert (R0 : forall r, 2 < r -> reaches r t 0 = true).
  { intros r R2. apply (true_reaches r t 0 (-1)); auto.
    - intros D. apply Z.divide_opp_r, Z.divide_pos_le in D; lia.
    - change (two 0) with 1. rewrite Z.mul_1_l, minus_one_odd by auto. apply cong_refl. }
  assert (Rs : forall r, prime r -> 2 < r -> (r - 1 | two s * t) -> reaches r t s = false).
  { intros r Pr R2 [k Dr]. destruct (reaches r t s) eqn:E; [|reflexivity]. exfalso.
    apply reaches_true in E as (b & Hb & C); [|lia].
    apply (minus_one_cong r R2). apply cong_trans with (b ^ (two s * t)); [now apply cong_sym|].
    assert (K0 : 0 <= k) by nia.
    rewrite Dr, Z.mul_comm, Z.pow_mul_r by lia.
    apply cong_trans with (1 ^ k); [|rewrite Z.pow_1_l by lia; apply cong_refl].
    apply cong_pow; [lia|]. apply cong_of_mod; [lia|].
    rewrite fermat; [now rewrite Z.mod_1_l by lia|exact Pr|]. now apply not_divide_residue. }
  destruct (last_true f s) as (i & Li & Ei & Hi).
  { unfold f. now rewrite R0. }
  { unfold f. now rewrite !Rs. }
  assert (C : exists c, 0 <= c < p * q /\ ~ (p | c) /\ ~ (q | c) /\
    ~ cong (p * q) (c ^ (two i * t)) 1 /\ ~ cong (p * q) (c ^ (two i * t)) (-1)).
  { assert (G : forall p q, prime p -> prime q -> p <> q -> 2 < p -> 2 < q -> reaches p t i = true ->
      exists c, 0 <= c < p * q /\ ~ (p | c) /\ ~ (q | c) /\
        ~ cong (p * q) (c ^ (two i * t)) 1 /\ ~ cong (p * q) (c ^ (two i * t)) (-1)).
    { clear - Ht. intros p q Pp Pq Hne P2 Q2 R. apply reaches_true in R as (b & Hb & Cb); [|lia].
      destruct (crt p q b 1 Pp Pq Hne) as (c & Hc & Cp & Cq). exists c. split; [exact Hc|].
      assert (Ep : cong p (c ^ (two i * t)) (-1)).
      { apply cong_trans with (b ^ (two i * t)); [apply cong_pow; [nia|exact Cp]|exact Cb]. }
      assert (Eq : cong q (c ^ (two i * t)) 1).
      { apply cong_trans with (1 ^ (two i * t)); [apply cong_pow; [nia|exact Cq]|].
        rewrite Z.pow_1_l by nia. apply cong_refl. }
      split; [|split; [|split]].
      - intros D. apply (not_divide_residue p b Hb). replace b with (c - (c - b)) by ring.
        now apply Z.divide_sub_r.
      - intros D. apply (not_divide_residue q 1); [lia|]. replace 1 with (c - (c - 1)) by ring.
        now apply Z.divide_sub_r.
      - intros D. apply cong_weaken in D. apply (minus_one_cong p P2).
        apply cong_trans with (c ^ (two i * t)); [now apply cong_sym|exact D].
      - intros D. apply cong_weaken_r in D. apply (minus_one_cong q Q2).
        apply cong_trans with (c ^ (two i * t)); [now apply cong_sym|exact Eq]. }
    unfold f in Ei. apply orb_prop in Ei as [Ei|Ei].
    - apply G; auto.
    - destruct (G q p) as (c & H1 & H2 & H3 & H4 & H5); auto.
      exists c. rewrite (Z.mul_comm p q). auto. }
  destruct C as (c & Hc & Dc1 & Dc2 & C1 & C2). exists i, c.
  split; [exact Li|]. split; [exact Hc|]. do 4 (split; [assumption|]).
  intros a j Ha Hj Cj. destruct (Nat.le_gt_cases j i) as [|L]; [assumption|]. exfalso.
  specialize (Hi j). unfold f in Hi. rewrite (true_reaches p t j a) in Hi; auto.
  - cbn [orb] in Hi. discriminate Hi. lia.
  - now apply cong_weaken in Cj.
Qed.

(** ** The numbers of the key *)

Lemma odd_part m : (0 < m)%N -> exists s t, m = (2 ^ N.of_nat s * t)%N /\ N.odd t = true /\ (s < N.size_nat m)%nat.
Proof.
  destruct m as [|m]; [lia|]. intros _. cbn [N.size_nat].
  induction m as [m IH|m IH|].
  - exists 0%nat, (N.pos m~1). split; [now rewrite N.mul_1_l|]. split; [reflexivity|cbn [Pos.size_nat]; lia].
  - destruct IH as (s & t & E & Ho & L). exists (S s), t. split; [|split; [exact Ho|cbn [Pos.size_nat]; lia]].
    rewrite Nat2N.inj_succ, N.pow_succ_r'. change (N.pos m~0) with (2 * N.pos m)%N. rewrite E. ring.
  - exists 0%nat, 1%N. split; [reflexivity|]. split; [reflexivity|cbn [Pos.size_nat]; lia].
Qed.

Section Key.
  Context (p q m : N) (Pp : prime_N p) (Pq : prime_N q) (Hne : p <> q) (P2 : (2 < p)%N) (Q2 : (2 < q)%N)
    (Hm : (0 < m)%N) (Dp : N.divide (p - 1) m) (Dq : N.divide (q - 1) m).
  Let n : N := (p * q)%N.

  Lemma unit_iff a : N.gcd a n = 1%N <-> ~ (Z.of_N p | Z.of_N a) /\ ~ (Z.of_N q | Z.of_N a).
  Proof using Pp Pq Hne P2 Q2 Dp Dq Hm.
    unfold n. split.
    - intros G. assert (GZ : Z.gcd (Z.of_N a) (Z.of_N p * Z.of_N q) = 1).
      { rewrite <- N2Z.inj_mul, <- gcd_Z, G. reflexivity. }
      assert (P1 : 1 < Z.of_N p) by (destruct Pp; auto). assert (Q1 : 1 < Z.of_N q) by (destruct Pq; auto).
      split; intros D; (assert (D1 : forall r, 1 < r -> (r | Z.of_N a) -> (r | Z.of_N p * Z.of_N q) -> False);
        [intros r R1 A B; pose proof (Z.gcd_greatest _ _ _ A B) as X; rewrite GZ in X; apply Z.divide_pos_le in X; lia|]).
      + apply (D1 (Z.of_N p)); auto. apply Z.divide_factor_l.
      + apply (D1 (Z.of_N q)); auto. apply Z.divide_factor_r.
    - intros [A B]. apply N2Z.inj. rewrite gcd_Z, N2Z.inj_mul. apply Zgcd_1_rel_prime.
      apply rel_prime_mult; apply rel_prime_sym, prime_rel_prime; assumption.
  Qed.

  Lemma key_divides : (Z.of_N p - 1 | Z.of_N m) /\ (Z.of_N q - 1 | Z.of_N m).
  Proof using Pp Pq Hne P2 Q2 Dp Dq Hm.
    destruct Dp as [k E], Dq as [j F]. split; [exists (Z.of_N k)|exists (Z.of_N j)]; nia.
  Qed.

  Lemma unit_power a : N.gcd a n = 1%N -> cong (Z.of_N n) (Z.of_N a ^ Z.of_N m) 1.
  Proof using Pp Pq Hne P2 Q2 Dp Dq Hm.
    intros G. apply unit_iff in G as [A B]. unfold n. rewrite N2Z.inj_mul.
    assert (F : forall r, prime r -> 2 < r -> (r - 1 | Z.of_N m) -> ~ (r | Z.of_N a) -> cong r (Z.of_N a ^ Z.of_N m) 1).
    { intros r Pr R2 [k E] Hd. assert (0 <= k) by nia. rewrite E, Z.mul_comm, Z.pow_mul_r by lia.
      apply cong_trans with (1 ^ k); [|rewrite Z.pow_1_l by lia; apply cong_refl].
      apply cong_pow; [lia|]. apply cong_of_mod; [lia|]. rewrite fermat by assumption. now rewrite Z.mod_1_l by lia. }
    destruct key_divides as [D1 D2].
    apply cong_both; auto; [lia|apply F; auto; lia|apply F; auto; lia].
  Qed.

  Lemma factor_sound a g : N.gcd a n = 1%N -> factor_with n m a = Some g -> g = p \/ g = q.
  Proof using Pp Pq Hne P2 Q2 Dp Dq Hm.
    intros G H. unfold factor_with in H.
    destruct (odd_part m Hm) as (s & t & E & Ho & L).
    assert (N2 : (2 < n)%N) by (unfold n; nia).
    pose proof (unit_power a G) as U. rewrite E, exp_Z in U. rewrite E in H.
    destruct (search_some n a t N2 Ho s _ g U H) as (x & S1 & S2 & S3 & Eg).
    unfold n in *. rewrite N2Z.inj_mul in *.
    assert (Hz : Z.of_N p <> Z.of_N q) by lia. assert (Zp : 2 < Z.of_N p) by lia. assert (Zq : 2 < Z.of_N q) by lia.
    destruct (root_splits (Z.of_N p) (Z.of_N q) x Pp Pq Hz Zp Zq S1 S2 S3) as [R|R]; rewrite R in Eg; [left|right]; lia.
  Qed.

  Lemma in_units a : In a (units n) <-> (a < n)%N /\ N.gcd a n = 1%N.
  Proof using Type.
    clear. unfold units. rewrite filter_In, N.eqb_eq, in_map_iff. split.
    - intros [(k & <- & Hk) G]. apply in_seq in Hk. split; [lia|exact G].
    - intros [L G]. split; [|exact G]. exists (N.to_nat a). split; [lia|]. apply in_seq. lia.
  Qed.

  Lemma units_nodup : NoDup (units n).
  Proof using Type.
    clear. unfold units. apply NoDup_filter, FinFun.Injective_map_NoDup; [intros x y; lia|apply seq_NoDup].
  Qed.

  Definition found (a : N) : bool := match factor_with n m a with Some _ => true | None => false end.

  Lemma count_split (f : N -> bool) l :
    (length l = length (filter f l) + length (filter (fun a => negb (f a)) l))%nat.
  Proof using Type. clear. induction l as [|a l IH]; [reflexivity|]. cbn [filter length]. destruct (f a); cbn [negb length]; lia. Qed.

  Lemma failing_level : exists i t c, 0 <= t /\
    (c < n)%N /\ N.gcd c n = 1%N /\
    ~ cong (Z.of_N n) (Z.of_N c ^ (two i * t)) 1 /\ ~ cong (Z.of_N n) (Z.of_N c ^ (two i * t)) (-1) /\
    forall a, N.gcd a n = 1%N -> found a = false ->
      cong (Z.of_N n) (Z.of_N a ^ (two i * t)) 1 \/ cong (Z.of_N n) (Z.of_N a ^ (two i * t)) (-1).
  Proof using Pp Pq Hne P2 Q2 Dp Dq Hm.
    destruct (odd_part m Hm) as (s & t & E & Ho & L).
    assert (N2 : (2 < n)%N) by (unfold n; nia).
    destruct key_divides as [D1 D2]. rewrite E, exp_Z in D1, D2.
    destruct (separating (Z.of_N p) (Z.of_N q) (Z.of_N t) s) as (i & c & Li & Hc & A & B & C1 & C2 & HB); auto; try lia.
    { destruct t as [|[x|x|]]; [discriminate Ho|reflexivity|discriminate Ho|reflexivity]. }
    exists i, (Z.of_N t), (Z.to_N c). assert (Ec : Z.of_N (Z.to_N c) = c) by lia. rewrite Ec.
    assert (En : Z.of_N n = Z.of_N p * Z.of_N q) by (unfold n; lia). rewrite En.
    split; [lia|]. split; [lia|]. split; [apply unit_iff; rewrite Ec; auto|].
    split; [exact C1|]. split; [exact C2|].
    intros a G F. unfold found in F. destruct (factor_with n m a) as [g|] eqn:FW; [discriminate F|].
    pose proof (unit_power a G) as U. unfold factor_with in FW. rewrite E, exp_Z in U.
    rewrite E in FW. rewrite E in L.
    destruct (search_none n a t N2 Ho s _ L U FW) as [C|(j & Lj & C)]; rewrite En in C.
    - left. replace (two i * Z.of_N t) with (Z.of_N t * two i) by ring. rewrite Z.pow_mul_r by lia.
      apply cong_trans with (1 ^ two i); [apply cong_pow; [lia|exact C]|]. rewrite Z.pow_1_l by lia. apply cong_refl.
    - apply unit_iff in G as [Ga _]. pose proof (HB (Z.of_N a) j Ga Lj C) as Lji.
      destruct (Nat.eq_dec j i) as [->|Nji]; [now right|]. left.
      rewrite (pow_two_more (Z.of_N a) (Z.of_N t) j i) by lia.
      apply cong_trans with ((-1) ^ two (i - j)); [apply cong_pow; [lia|exact C]|].
      rewrite minus_one_even by lia. apply cong_refl.
  Qed.

  Lemma at_least_half : (length (units n) <= 2 * length (successes n m))%nat.
  Proof using Pp Pq Hne P2 Q2 Dp Dq Hm.
    unfold successes. fold found. rewrite (count_split found (units n)).
    enough (H : (length (filter (fun a => negb (found a)) (units n)) <= length (filter found (units n)))%nat) by lia.
    destruct failing_level as (i & t & c & Ht & Lc & Gc & C1 & C2 & HF).
    rewrite <- (map_length (fun a => (a * c) mod n)%N). apply NoDup_incl_length.
    - apply nodup_map_in; [|apply NoDup_filter, units_nodup].
      intros x y Hx Hy Exy. apply filter_In in Hx as [Hx _]. apply filter_In in Hy as [Hy _].
      apply in_units in Hx as [Lx Gx]. apply in_units in Hy as [Ly Gy].
      assert (D : (Z.of_N n | Z.of_N c * (Z.of_N x - Z.of_N y))).
      { apply (f_equal Z.of_N) in Exy. rewrite !N2Z.inj_mod, !N2Z.inj_mul in Exy.
        apply cong_of_mod in Exy; [|lia]. destruct Exy as [k Ek]. exists k. lia. }
      apply Gauss in D; [apply (cong_small (Z.of_N n)) in D; lia|].
      apply rel_prime_sym, Zgcd_1_rel_prime. rewrite <- gcd_Z, Gc. reflexivity.
    - intros z Hz. apply in_map_iff in Hz as (a & <- & Ha). apply filter_In in Ha as [Ha Fa].
      apply in_units in Ha as [La Ga]. apply negb_true_iff in Fa.
      assert (Gz : N.gcd ((a * c) mod n) n = 1%N).
      { rewrite N.gcd_mod by lia. apply N2Z.inj. rewrite gcd_Z, N2Z.inj_mul. apply Zgcd_1_rel_prime.
        apply rel_prime_mult; apply rel_prime_sym, Zgcd_1_rel_prime; rewrite <- gcd_Z; [now rewrite Ga|now rewrite Gc]. }
      apply filter_In. split; [apply in_units; split; [apply N.mod_lt; lia|exact Gz]|].
      destruct (found ((a * c) mod n)) eqn:Fz; [reflexivity|]. exfalso.
      pose proof (HF a Ga Fa) as Ka. pose proof (HF _ Gz Fz) as Kz.
      assert (Kc : cong (Z.of_N n) (Z.of_N ((a * c) mod n) ^ (two i * t))
        (Z.of_N a ^ (two i * t) * Z.of_N c ^ (two i * t))).
      { rewrite <- Z.pow_mul_l. apply cong_pow; [nia|]. rewrite N2Z.inj_mod, N2Z.inj_mul. apply cong_mod. lia. }
      set (X := Z.of_N a ^ (two i * t)) in *. set (Y := Z.of_N c ^ (two i * t)) in *.
      set (W := Z.of_N ((a * c) mod n) ^ (two i * t)) in *. clearbody X Y W.
      assert (KY : forall u v, u = 1 \/ u = -1 -> v = 1 \/ v = -1 -> cong (Z.of_N n) X u -> cong (Z.of_N n) W v ->
        cong (Z.of_N n) Y (u * v)).
      { intros u v Hu Hv Cu Cv. apply cong_trans with (u * W).
        - apply cong_sym. apply cong_trans with (u * (X * Y)); [apply cong_mul; [apply cong_refl|exact Kc]|].
          apply cong_trans with (u * (u * Y)).
          + apply cong_mul; [apply cong_refl|]. apply cong_mul; [exact Cu|apply cong_refl].
          + replace (u * (u * Y)) with (u * u * Y) by ring.
            replace (u * u) with 1 by (destruct Hu; subst; reflexivity). rewrite Z.mul_1_l. apply cong_refl.
        - apply cong_mul; [apply cong_refl|exact Cv]. }
      destruct Ka as [Ka|Ka], Kz as [Kz|Kz];
        [apply C1; apply (KY 1 1)|apply C2; apply (KY 1 (-1))|apply C2; apply (KY (-1) 1)|apply C1; apply (KY (-1) (-1))]; auto.
  Qed.
End Key.
