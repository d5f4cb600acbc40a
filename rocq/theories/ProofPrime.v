(** * Two primality tests that the examples and witnesses use *)
From Coq Require Import ZArith NArith Znumtheory List Bool Lia.
From Verif Require Import SpecRsa ProofRsaMath.
Import ListNotations.
Local Open Scope Z_scope.

(** ** Trial division, for small primes *)

Definition trial (p : Z) : bool :=
  (1 <? p) && forallb (fun i => Z.gcd (Z.of_nat i) p =? 1) (seq 1 (Z.to_nat p - 1)).

Lemma trial_prime p : trial p = true -> prime p.
Proof.
  unfold trial. intros H. apply andb_prop in H as [H1 H2]. apply Z.ltb_lt in H1.
  rewrite forallb_forall in H2. apply prime_intro; auto. intros n Hn.
  assert (I : In (Z.to_nat n) (seq 1 (Z.to_nat p - 1))) by (apply in_seq; lia).
  apply H2 in I. rewrite Z2Nat.id in I by lia. apply Z.eqb_eq in I.
  apply Zgcd_1_rel_prime. exact I.
Qed.

(** ** Proth's theorem *)

Lemma prime_divisor n : 1 < n -> exists q, prime q /\ (q | n).
Proof.
  intros H. assert (H0 : 0 <= n) by lia. revert H. pattern n. apply Zlt_0_ind; auto. clear n H0.
  intros n IH H0 H. destruct (prime_dec n) as [P|P].
  - exists n. split; auto. apply Z.divide_refl.
  - destruct (not_prime_divide n H P) as (k & Hk & D). destruct (IH k) as (q & Pq & Dq); try lia.
    exists q. split; auto. now apply Z.divide_trans with k.
Qed.

Lemma small_prime_divisor n : 1 < n -> ~ prime n -> exists q, prime q /\ (q | n) /\ q * q <= n.
Proof.
  intros H P. destruct (not_prime_divide n H P) as (k & Hk & [j Hj]).
  assert (Hj1 : 1 < j) by nia.
  destruct (Z_le_gt_dec k j) as [L|L].
  - destruct (prime_divisor k) as (q & Pq & [i Hi]); [lia|]. exists q. split; auto.
    pose proof (prime_ge_2 q Pq). assert (0 < i) by nia.
    split; [exists (j * i); rewrite Hj, Hi; ring|]. assert (q <= k) by nia. nia.
  - destruct (prime_divisor j) as (q & Pq & [i Hi]); [lia|]. exists q. split; auto.
    pose proof (prime_ge_2 q Pq). assert (0 < i) by nia.
    split; [exists (i * k); rewrite Hj, Hi; ring|]. assert (q <= j) by nia. nia.
Qed.

(** Square and multiply with reductions. *)
Fixpoint pow_mod_pos (a : Z) (e : positive) (m : Z) : Z :=
  match e with
  | xH => a mod m
  | xO e' => let r := pow_mod_pos a e' m in (r * r) mod m
  | xI e' => let r := pow_mod_pos a e' m in (((r * r) mod m) * a) mod m
  end.

Lemma pow_mod_pos_ok a e m : m <> 0 -> pow_mod_pos a e m = (a ^ Z.pos e) mod m.
Proof.
  intros Hm. induction e as [e IH|e IH|]; cbn [pow_mod_pos].
  - rewrite IH. rewrite Pos2Z.inj_xI. replace (2 * Z.pos e + 1) with (Z.pos e + Z.pos e + 1) by ring.
    rewrite !Z.pow_add_r, Z.pow_1_r by lia. rewrite <- Z.mul_mod by auto.
    now rewrite Z.mul_mod_idemp_l by auto.
  - rewrite IH. rewrite Pos2Z.inj_xO. replace (2 * Z.pos e) with (Z.pos e + Z.pos e) by ring.
    rewrite Z.pow_add_r by lia. now rewrite <- Z.mul_mod by auto.
  - now rewrite Z.pow_1_r.
Qed.

(** [p = k * 2^s + 1] with [k < 2^s] and [a^((p-1)/2) = -1 (mod p)]. *)
Definition proth (k s a : positive) : bool :=
  let p := Z.pos k * 2 ^ Z.pos s + 1 in
  (Z.pos k <? 2 ^ Z.pos s) &&
  (match ((p - 1) / 2)%Z with
   | Z.pos e => pow_mod_pos (Z.pos a) e p =? p - 1
   | _ => false
   end).

Lemma pow_odd_split n : 0 < n -> exists j t, 0 <= j /\ 0 <= t /\ n = 2 ^ j * (2 * t + 1).
Proof.
  intros H. assert (H0 : 0 <= n) by lia. revert H. pattern n. apply Zlt_0_ind; auto. clear n H0.
  intros n IH H0 H. pose proof (Z.div_mod n 2 ltac:(lia)) as D.
  pose proof (Z.mod_pos_bound n 2 ltac:(lia)) as B.
  destruct (Z.eq_dec (n mod 2) 0) as [E|E].
  - destruct (IH (n / 2)) as (j & t & Hj & Ht & En); try lia.
    exists (j + 1), t. split; [lia|]. split; [lia|].
    rewrite Z.pow_add_r, Z.pow_1_r by lia. rewrite (Z.mul_comm (2 ^ j)), <- Z.mul_assoc, <- En. lia.
  - exists 0, (n / 2). rewrite Z.pow_0_r. lia.
Qed.

Lemma proth_prime k s a : proth k s a = true -> prime (Z.pos k * 2 ^ Z.pos s + 1).
Proof.
  unfold proth. set (p := Z.pos k * 2 ^ Z.pos s + 1). intros H.
  apply andb_prop in H as [H1 H2]. apply Z.ltb_lt in H1.
  assert (S2 : 2 ^ Z.pos s = 2 * 2 ^ (Z.pos s - 1)).
  { replace (Z.pos s) with (1 + (Z.pos s - 1)) at 1 by lia. rewrite Z.pow_add_r by lia. reflexivity. }
  assert (P1 : 0 < 2 ^ (Z.pos s - 1)) by (apply Z.pow_pos_nonneg; lia).
  assert (Hp : p - 1 = 2 * (Z.pos k * 2 ^ (Z.pos s - 1))) by (unfold p; rewrite S2; ring).
  assert (He : (p - 1) / 2 = Z.pos k * 2 ^ (Z.pos s - 1)).
  { rewrite Hp, Z.mul_comm. apply Z.div_mul. lia. }
  assert (Hp1 : 1 < p) by nia.
  destruct ((p - 1) / 2) as [|e|] eqn:Ee; try discriminate.
  apply Z.eqb_eq in H2. rewrite pow_mod_pos_ok in H2 by lia. rewrite He in H2.
  destruct (prime_dec p) as [|NP]; auto. exfalso.
  destruct (small_prime_divisor p Hp1 NP) as (q & Pq & Dq & Lq).
  pose proof (prime_ge_2 q Pq) as Q2.
  set (b := Z.pos a ^ Z.pos k).
  (* b^(2^(s-1)) = -1 (mod q) *)
  assert (Hb : (q | b ^ (2 ^ (Z.pos s - 1)) + 1)).
  { unfold b. rewrite <- Z.pow_mul_r by lia. apply Z.divide_trans with p; auto.
    pose proof (Z.div_mod (Z.pos a ^ (Z.pos k * 2 ^ (Z.pos s - 1))) p ltac:(lia)) as D.
    rewrite H2 in D. rewrite D.
    exists (Z.pos a ^ (Z.pos k * 2 ^ (Z.pos s - 1)) / p + 1). ring. }
  assert (Q3 : q <> 2).
  { intros ->. destruct Dq as [i Hi]. lia. }
  assert (Nb : ~ (q | b)).
  { intros Db. assert (D1 : (q | 1)).
    { replace 1 with (b ^ 2 ^ (Z.pos s - 1) + 1 - b ^ 2 ^ (Z.pos s - 1)) by ring.
      apply Z.divide_sub_r; auto.
      replace (2 ^ (Z.pos s - 1)) with (1 + (2 ^ (Z.pos s - 1) - 1)) by ring.
      rewrite Z.pow_add_r, Z.pow_1_r by lia. now apply Z.divide_mul_l. }
    apply Z.divide_1_r_nonneg in D1; lia. }
  destruct (pow_odd_split (q - 1)) as (j & t & Hj & Ht & Eq); [lia|].
  destruct (Z_lt_le_dec j (Z.pos s)) as [L|L].
  - pose proof (fermat q b Pq Nb) as F.
    (* b^(2^(s-1) * (2t+1)) is both 1 and -1 *)
    assert (A1 : (b ^ (2 ^ (Z.pos s - 1) * (2 * t + 1))) mod q = 1).
    { replace (2 ^ (Z.pos s - 1) * (2 * t + 1)) with ((q - 1) * 2 ^ (Z.pos s - 1 - j)).
      2:{ rewrite Eq. replace (Z.pos s - 1) with (j + (Z.pos s - 1 - j)) at 2 by ring.
          rewrite Z.pow_add_r by lia. ring. }
      rewrite Z.pow_mul_r by (try apply Z.pow_nonneg; lia).
      rewrite Zpow_facts.Zpower_mod, F, Z.pow_1_l by (try apply Z.pow_nonneg; lia).
      apply Z.mod_1_l. lia. }
    assert (A2 : (b ^ (2 ^ (Z.pos s - 1) * (2 * t + 1))) mod q = (-1) mod q).
    { rewrite Z.pow_mul_r by lia. rewrite Zpow_facts.Zpower_mod by lia.
      replace (b ^ 2 ^ (Z.pos s - 1) mod q) with ((-1) mod q).
      2:{ destruct Hb as [i Hi]. replace (b ^ 2 ^ (Z.pos s - 1)) with (-1 + i * q) by lia.
          now rewrite Z_mod_plus_full. }
      rewrite <- Zpow_facts.Zpower_mod by lia. f_equal.
      rewrite Z.pow_add_r, Z.pow_mul_r by lia. change ((-1) ^ 2) with 1.
      rewrite Z.pow_1_l by lia. reflexivity. }
    rewrite A1 in A2. replace (-1) with (q - 1 + (-1) * q) in A2 by ring.
    rewrite Z_mod_plus_full, Z.mod_small in A2 by lia. lia.
  - assert (2 ^ Z.pos s <= q - 1).
    { rewrite Eq. assert (2 ^ Z.pos s <= 2 ^ j) by (apply Z.pow_le_mono_r; lia). nia. }
    unfold p in Lq. nia.
Qed.
