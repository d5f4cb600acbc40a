(** * Fermat's little theorem and the correctness of RSA, over the integers *)
From Coq Require Import List Arith NArith ZArith Znumtheory Zpow_facts Permutation Lia.
From Verif Require Import SpecRsa.
Import ListNotations.
Open Scope Z_scope.

Definition prod (l : list Z) : Z := fold_right Z.mul 1 l.

Lemma prod_perm l l' : Permutation l l' -> prod l = prod l'.
Proof.
  unfold prod. induction 1; cbn [fold_right]; auto; try lia.
Qed.

Lemma prod_map_mod p a l : 0 < p ->
  prod (map (fun x => (a * x) mod p) l) mod p = (a ^ Z.of_nat (length l) * prod l) mod p.
Proof.
  intros Hp. induction l as [|x l IH]; [reflexivity|].
  cbn [map length]. change (prod ((a * x) mod p :: ?t)) with ((a * x) mod p * prod t).
  unfold prod at 1. cbn [fold_right]. fold (prod (map (fun x0 => (a * x0) mod p) l)).
  rewrite Zmult_mod, IH, <- Zmult_mod, Nat2Z.inj_succ, Z.pow_succ_r by lia.
  rewrite Zmult_mod_idemp_l. f_equal. unfold prod. cbn [fold_right]. ring.
Qed.

Definition residues (p : Z) : list Z := map Z.of_nat (seq 1 (Z.to_nat (p - 1))).

Lemma in_residues p x : 1 < p -> In x (residues p) <-> 1 <= x < p.
Proof.
  intros Hp. unfold residues. rewrite in_map_iff. split.
  - intros (k & <- & H). apply in_seq in H. lia.
  - intros H. exists (Z.to_nat x). split; [lia|]. apply in_seq. lia.
Qed.

Lemma residues_length p : 1 < p -> Z.of_nat (length (residues p)) = p - 1.
Proof. intros. unfold residues. rewrite map_length, seq_length. lia. Qed.

Lemma residues_nodup p : NoDup (residues p).
Proof. apply FinFun.Injective_map_NoDup; [intros x y; lia|apply seq_NoDup]. Qed.

Lemma nodup_map_in {A B} (f : A -> B) l :
  (forall x y, In x l -> In y l -> f x = f y -> x = y) -> NoDup l -> NoDup (map f l).
Proof.
  intros Hf H. induction H as [|x l Hx H IH]; cbn [map]; constructor.
  - intros E. apply in_map_iff in E as (y & E & Hy). apply Hx.
    rewrite (Hf x y); auto; [now left|now right].
  - apply IH. intros u v Hu Hv. apply Hf; now right.
Qed.

Lemma not_divide_residue p x : 1 <= x < p -> ~ (p | x).
Proof. intros H D. apply Z.divide_pos_le in D; lia. Qed.

Lemma residues_mul_perm p a : prime p -> ~ (p | a) ->
  Permutation (map (fun x => (a * x) mod p) (residues p)) (residues p).
Proof.
  intros Hp Ha. assert (1 < p) by (destruct Hp; auto).
  apply NoDup_Permutation_bis.
  - apply nodup_map_in; [|apply residues_nodup].
    intros x y Hx Hy E. apply in_residues in Hx, Hy; auto.
    assert (D : (p | a * (x - y))).
    { apply Zmod_divide; [lia|]. rewrite Z.mul_sub_distr_l, Zminus_mod, E, Z.sub_diag.
      apply Z.mod_0_l. lia. }
    apply prime_mult in D as [D|D]; auto; [easy|].
    destruct (Z.eq_dec x y) as [|Hne]; auto. exfalso.
    destruct D as [k Hk]. assert (k = 0) by nia. lia.
  - rewrite map_length. lia.
  - intros y Hy. apply in_map_iff in Hy as (x & <- & Hx). apply in_residues in Hx; auto.
    apply in_residues; auto. pose proof (Z.mod_pos_bound (a * x) p ltac:(lia)).
    destruct (Z.eq_dec ((a * x) mod p) 0) as [E|]; [|lia]. exfalso.
    apply Zmod_divide in E; [|lia]. apply prime_mult in E as [E|E]; auto.
    now apply (not_divide_residue p x).
Qed.

Lemma prod_residues_prime p l : prime p -> (forall x, In x l -> ~ (p | x)) -> ~ (p | prod l).
Proof.
  intros Hp. induction l as [|x l IH]; intros H.
  - intros D. cbn in D. assert (1 < p) by (destruct Hp; auto). apply Z.divide_1_r_nonneg in D; lia.
  - intros D. unfold prod in D. cbn [fold_right] in D. fold (prod l) in D.
    apply prime_mult in D as [D|D]; auto.
    + apply (H x); auto. now left.
    + apply IH; auto. intros y Hy. apply H. now right.
Qed.

Theorem fermat p a : prime p -> ~ (p | a) -> a ^ (p - 1) mod p = 1.
Proof.
  intros Hp Ha. assert (P1 : 1 < p) by (destruct Hp; auto).
  pose proof (prod_map_mod p a (residues p) ltac:(lia)) as E.
  rewrite (prod_perm _ _ (residues_mul_perm p a Hp Ha)), residues_length in E by auto.
  assert (D : (p | (a ^ (p - 1) - 1) * prod (residues p))).
  { apply Zmod_divide; [lia|]. rewrite Z.mul_sub_distr_r, Z.mul_1_l, Zminus_mod, <- E, Z.sub_diag.
    apply Z.mod_0_l. lia. }
  apply prime_mult in D as [D|D]; auto.
  - replace (a ^ (p - 1)) with (a ^ (p - 1) - 1 + 1) by lia.
    destruct D as [k ->]. rewrite Z.add_comm, Z_mod_plus_full. apply Z.mod_1_l. lia.
  - exfalso. revert D. apply prod_residues_prime; auto.
    intros x Hx. apply in_residues in Hx; auto. now apply not_divide_residue.
Qed.

Lemma fermat_power p a x : prime p -> 0 <= x -> (p - 1 | x) -> a ^ (1 + x) mod p = a mod p.
Proof.
  intros Hp Hx [k ->]. assert (P1 : 1 < p) by (destruct Hp; auto).
  rewrite Z.pow_add_r by lia. rewrite Z.pow_1_r.
  destruct (Zdivide_dec p a) as [D|D].
  - destruct D as [c ->]. rewrite Z_mod_mult. rewrite <- Z.mul_assoc, (Z.mul_comm p), Z.mul_assoc.
    apply Z_mod_mult.
  - assert (0 <= k) by nia.
    rewrite (Z.mul_comm k), Z.pow_mul_r by lia.
    rewrite Zmult_mod, Zpower_mod, fermat by (auto; lia).
    rewrite Z.pow_1_l, <- Zmult_mod, Z.mul_1_r by lia. reflexivity.
Qed.

Lemma divide_distinct_primes p q z : prime p -> prime q -> p <> q ->
  (p | z) -> (q | z) -> (p * q | z).
Proof.
  intros Hp Hq Hne [k ->] D. apply prime_mult in D as [D|D]; auto.
  - destruct D as [c ->]. exists c. ring.
  - exfalso. apply Hne. symmetry. apply prime_div_prime; auto.
Qed.

Theorem rsa_round_trip_Z p q m x : prime p -> prime q -> p <> q -> 0 <= x ->
  (p - 1 | x) -> (q - 1 | x) -> m ^ (1 + x) mod (p * q) = m mod (p * q).
Proof.
  intros Hp Hq Hne Hx Dp Dq.
  assert (P1 : 1 < p) by (destruct Hp; auto). assert (Q1 : 1 < q) by (destruct Hq; auto).
  assert (D : forall r, prime r -> (r - 1 | x) -> (r | m ^ (1 + x) - m)).
  { intros r Hr Dr. assert (1 < r) by (destruct Hr; auto).
    apply Zmod_divide; [lia|]. rewrite Zminus_mod, (fermat_power r m x Hr Hx Dr), Z.sub_diag.
    apply Z.mod_0_l. lia. }
  destruct (divide_distinct_primes p q _ Hp Hq Hne (D p Hp Dp) (D q Hq Dq)) as [k Hk].
  replace (m ^ (1 + x)) with (m + k * (p * q)) by lia. apply Z_mod_plus_full.
Qed.

(** ** The same over [N] *)

Lemma prime_N_ge2 p : prime_N p -> (2 <= p)%N.
Proof. intros H. destruct H. lia. Qed.

Open Scope N_scope.

Lemma rsa_round_trip p q e d m : prime_N p -> prime_N q -> p <> q -> key_pair p q e d ->
  rsa_power (rsa_power m e (p * q)) d (p * q) = m mod (p * q).
Proof.
  intros Hp Hq Hne Hk. unfold rsa_power.
  pose proof (prime_N_ge2 p Hp) as P2. pose proof (prime_N_ge2 q Hq) as Q2.
  assert (Hn : p * q <> 0) by nia.
  assert (Hpow : forall a k, (a mod (p * q)) ^ k mod (p * q) = a ^ k mod (p * q)).
  { intros a k. induction k using N.peano_ind; [reflexivity|].
    rewrite !N.pow_succ_r', N.mul_mod, IHk, N.mod_mod, <- N.mul_mod by auto. reflexivity. }
  rewrite Hpow, <- N.pow_mul_r.
  unfold key_pair in Hk. set (l := N.lcm (p - 1) (q - 1)) in *.
  assert (Dp : (p - 1 | l)) by apply N.divide_lcm_l.
  assert (Dq : (q - 1 | l)) by apply N.divide_lcm_r.
  assert (Hl0 : l <> 0).
  { unfold l. rewrite N.lcm_eq_0. lia. }
  assert (Hl : l <> 1).
  { intros E. rewrite E in *. apply N.divide_1_r in Dp, Dq. lia. }
  rewrite (N.mod_1_l l) in Hk by lia.
  assert (Hed : exists x, e * d = 1 + x /\ (p - 1 | x) /\ (q - 1 | x)).
  { exists (l * ((e * d) / l)). split; [rewrite (N.div_mod (e * d) l) at 1 by auto; lia|].
    split; apply N.divide_mul_l; auto. }
  destruct Hed as (x & -> & Dpx & Dqx).
  apply N2Z.inj. rewrite !N2Z.inj_mod, N2Z.inj_pow, N2Z.inj_add, N2Z.inj_mul by auto.
  apply rsa_round_trip_Z; auto; try lia.
  - destruct Dpx as [k ->]. exists (Z.of_N k). lia.
  - destruct Dqx as [k ->]. exists (Z.of_N k). lia.
Qed.
