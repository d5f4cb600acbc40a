(** * Proofs: how many roots of one there are modulo a prime *)
From Coq Require Import List ZArith NArith Znumtheory Zpow_facts Lia Bool.
From Verif Require Import SpecRsa ProofRsaMath ProofFactor.
Import ListNotations.
Local Open Scope Z_scope.

(** ** Polynomials, the lowest coefficient first *)

Fixpoint value (l : list Z) (x : Z) : Z := match l with [] => 0 | c :: l => c + x * value l x end.

Fixpoint quotient (l : list Z) (r : Z) : list Z :=
  match l with
  | [] => []
  | _ :: l => match l with [] => [] | _ => value l r :: quotient l r end
  end.

Lemma quotient_value l r x : value l x = value l r + (x - r) * value (quotient l r) x.
Proof.
  induction l as [|c l IH]; [cbn [value quotient]; ring|].
  destruct l as [|d l]; [cbn [value quotient]; ring|].
  change (quotient (c :: d :: l) r) with (value (d :: l) r :: quotient (d :: l) r).
  remember (d :: l) as k. cbn [value]. rewrite IH at 1. ring.
Qed.

Lemma quotient_length l r : length (quotient l r) = (length l - 1)%nat.
Proof.
  induction l as [|c l IH]; [reflexivity|]. destruct l as [|d l]; [reflexivity|].
  change (quotient (c :: d :: l) r) with (value (d :: l) r :: quotient (d :: l) r). cbn [length] in *. lia.
Qed.

Lemma quotient_last l r : (1 < length l)%nat -> last (quotient l r) 0 = last l 0.
Proof.
  induction l as [|c l IH]; [cbn [length]; lia|]. intros H. destruct l as [|d l]; [cbn [length] in H; lia|].
  change (quotient (c :: d :: l) r) with (value (d :: l) r :: quotient (d :: l) r).
  destruct l as [|f l]; [cbn [quotient value last]; ring|].
  change (last (c :: d :: f :: l) 0) with (last (d :: f :: l) 0). rewrite <- IH by (cbn [length]; lia).
  change (quotient (d :: f :: l) r) with (value (f :: l) r :: quotient (f :: l) r). reflexivity.
Qed.

(** A polynomial of degree [d] has at most [d] roots modulo a prime. *)
Lemma roots_bound p : prime p -> forall l rs, l <> [] -> ~ (p | last l 0) -> NoDup rs ->
  (forall r, In r rs -> 0 <= r < p /\ (p | value l r)) -> (length rs <= length l - 1)%nat.
Proof.
  intros Pp. intros l. remember (length l) as n eqn:E. revert l E.
  induction n as [|n IH]; intros l E rs Hl Ld Nd Hr; [destruct l; [easy|discriminate E]|].
  destruct rs as [|r rs]; [cbn [length]; lia|].
  destruct n as [|n].
  - exfalso. destruct l as [|c [|d l]]; [easy| |discriminate E].
    destruct (Hr r (or_introl eq_refl)) as [_ D]. cbn [value last] in *. apply Ld. now rewrite Z.mul_0_r, Z.add_0_r in D.
  - apply NoDup_cons_iff in Nd as [Nr Nd]. destruct (Hr r (or_introl eq_refl)) as [Br Dr].
    assert (Q : (length rs <= S n - 1)%nat); [|cbn [length]; lia].
    apply (IH (quotient l r)); [rewrite quotient_length; lia| | |exact Nd|].
    + intros Q0. apply (f_equal (@length Z)) in Q0. rewrite quotient_length in Q0. cbn [length] in Q0. lia.
    + rewrite quotient_last by lia. exact Ld.
    + intros x Hx. destruct (Hr x (or_intror Hx)) as [Bx Dx]. split; [exact Bx|].
      rewrite (quotient_value l r x) in Dx.
      apply (Z.divide_add_cancel_r p _ _ Dr) in Dx. apply prime_mult in Dx as [Dx|Dx]; [|exact Dx|exact Pp].
      exfalso. apply Nr. replace r with x; [exact Hx|]. now apply (cong_small p).
Qed.

Lemma value_shift n l x : value (repeat 0 n ++ l) x = x ^ Z.of_nat n * value l x.
Proof.
  induction n as [|n IH]; [cbn [repeat app]; rewrite Z.pow_0_r; ring|].
  cbn [repeat app value]. rewrite IH, Nat2Z.inj_succ, Z.pow_succ_r by lia. ring.
Qed.

Lemma last_shift (a : Z) n (l : list Z) : l <> [] -> last (a :: repeat 0 n ++ l) 0 = last l 0.
Proof.
  intros H. destruct (exists_last H) as (k & z & ->). rewrite app_assoc, app_comm_cons, !last_last. reflexivity.
Qed.

(** [x^g - 1] *)
Definition root_poly (g : nat) : list Z := -1 :: repeat 0 (g - 1) ++ [1].
(** [1 + x^g + ... + x^(g * k)] *)
Fixpoint rest_poly (g k : nat) : list Z := match k with O => [1] | S k => 1 :: repeat 0 (g - 1) ++ rest_poly g k end.

Lemma shift_step g l x c : (0 < g)%nat -> value (c :: repeat 0 (g - 1) ++ l) x = c + x ^ Z.of_nat g * value l x.
Proof.
  intros H. cbn [value]. rewrite value_shift. replace g with (S (g - 1)) at 2 by lia.
  rewrite Nat2Z.inj_succ, Z.pow_succ_r by lia. ring.
Qed.

Lemma root_value g x : (0 < g)%nat -> value (root_poly g) x = x ^ Z.of_nat g - 1.
Proof. intros H. unfold root_poly. rewrite shift_step by exact H. cbn [value]. ring. Qed.

Lemma rest_value g k x : (0 < g)%nat ->
  (x ^ Z.of_nat g - 1) * value (rest_poly g k) x = x ^ (Z.of_nat g * Z.of_nat (S k)) - 1.
Proof.
  intros H. induction k as [|k IH].
  - cbn [rest_poly value]. rewrite Z.mul_1_r. ring.
  - cbn [rest_poly]. rewrite shift_step by exact H. rewrite Z.mul_add_distr_l.
    replace ((x ^ Z.of_nat g - 1) * (x ^ Z.of_nat g * value (rest_poly g k) x))
      with (x ^ Z.of_nat g * ((x ^ Z.of_nat g - 1) * value (rest_poly g k) x)) by ring.
    rewrite IH. replace (Z.of_nat g * Z.of_nat (S (S k))) with (Z.of_nat g + Z.of_nat g * Z.of_nat (S k)) by lia.
    rewrite (Z.pow_add_r x) by nia. ring.
Qed.

Lemma rest_nonempty g k : rest_poly g k <> [].
Proof. destruct k; discriminate. Qed.
Lemma rest_last g k : last (rest_poly g k) 0 = 1.
Proof. induction k as [|k IH]; [reflexivity|]. cbn [rest_poly]. now rewrite last_shift by apply rest_nonempty. Qed.
Lemma rest_length g k : (0 < g)%nat -> length (rest_poly g k) = S (g * k).
Proof.
  intros H. induction k as [|k IH]; cbn [rest_poly length]; [lia|]. rewrite app_length, repeat_length, IH. nia.
Qed.

(** ** The units modulo a prime *)

Definition nonzero (p : Z) : list Z := map Z.of_nat (seq 1 (Z.to_nat (p - 1))).

Lemma in_nonzero p x : In x (nonzero p) <-> 0 < x < p.
Proof.
  unfold nonzero. rewrite in_map_iff. split.
  - intros (k & <- & H). apply in_seq in H. lia.
  - intros H. exists (Z.to_nat x). split; [lia|]. apply in_seq. lia.
Qed.
Lemma nonzero_nodup p : NoDup (nonzero p).
Proof. apply FinFun.Injective_map_NoDup; [intros x y; lia|apply seq_NoDup]. Qed.
Lemma nonzero_length p : length (nonzero p) = Z.to_nat (p - 1).
Proof. unfold nonzero. now rewrite map_length, seq_length. Qed.

Lemma count_parts {A} (f : A -> bool) l :
  (length l = length (filter f l) + length (filter (fun a => negb (f a)) l))%nat.
Proof. induction l as [|a l IH]; [reflexivity|]. cbn [filter length]. destruct (f a); cbn [negb length]; lia. Qed.

Lemma roots_exact p g k : prime p -> (0 < g)%nat -> p - 1 = Z.of_nat g * Z.of_nat (S k) ->
  length (filter (fun x => x ^ Z.of_nat g mod p =? 1) (nonzero p)) = g.
Proof.
  intros Pp Hg E. pose proof (prime_ge_2 p Pp) as P2.
  pose proof (count_parts (fun x => x ^ Z.of_nat g mod p =? 1) (nonzero p)) as S. rewrite nonzero_length in S.
  assert (A : (length (filter (fun x => x ^ Z.of_nat g mod p =? 1)%Z (nonzero p)) <= length (root_poly g) - 1)%nat).
  { apply (roots_bound p Pp); [discriminate| |apply NoDup_filter, nonzero_nodup|].
    - unfold root_poly. rewrite last_shift by discriminate. cbn [last]. intros D. apply Z.divide_pos_le in D; lia.
    - intros r Hr. apply filter_In in Hr as [Hr F]. apply in_nonzero in Hr. split; [lia|].
      rewrite root_value by exact Hg. apply Z.eqb_eq in F. apply Z.mod_divide; [lia|].
      rewrite Zminus_mod, F, (Z.mod_1_l p) by lia. apply Z.mod_0_l. lia. }
  assert (B : (length (filter (fun x => negb (x ^ Z.of_nat g mod p =? 1)%Z) (nonzero p)) <= length (rest_poly g k) - 1)%nat).
  { apply (roots_bound p Pp); [apply rest_nonempty| |apply NoDup_filter, nonzero_nodup|].
    - rewrite rest_last. intros D. apply Z.divide_pos_le in D; lia.
    - intros r Hr. apply filter_In in Hr as [Hr F]. apply in_nonzero in Hr. split; [lia|].
      apply negb_true_iff, Z.eqb_neq in F.
      assert (D : (p | (r ^ Z.of_nat g - 1) * value (rest_poly g k) r)).
      { rewrite rest_value, <- E by exact Hg. apply Z.mod_divide; [lia|].
        assert (Nd : ~ (p | r)) by (intros D; apply Z.divide_pos_le in D; lia).
        rewrite Zminus_mod, (fermat p r Pp Nd), (Z.mod_1_l p) by lia. apply Z.mod_0_l. lia. }
      apply prime_mult in D as [D|D]; [|exact D|exact Pp]. exfalso. apply F.
      apply (cong_eq p) in D; [|lia]. rewrite D. apply Z.mod_1_l. lia. }
  unfold root_poly in A. cbn [length] in A. rewrite app_length, repeat_length in A. cbn [length] in A.
  rewrite rest_length in B by exact Hg. nia.
Qed.

(** ** Arbitrary exponents *)

Lemma power_gcd p x k : prime p -> ~ (p | x) -> 0 <= k ->
  x ^ k mod p = 1 <-> x ^ Z.gcd k (p - 1) mod p = 1.
Proof.
  intros Pp Nd Hk. pose proof (prime_ge_2 p Pp) as P2. pose proof (fermat p x Pp Nd) as F.
  assert (one : forall a b, 0 <= a -> 0 <= b -> x ^ a mod p = 1 -> x ^ (a * b) mod p = 1).
  { intros a b Ha Hb Hx. rewrite Z.pow_mul_r, Zpower_mod, Hx, Z.pow_1_l by lia. apply Z.mod_1_l. lia. }
  pose proof (Z.gcd_nonneg k (p - 1)) as G0. split; intros H.
  - destruct (Z.eq_dec k 0) as [->|K0]; [rewrite Z.gcd_0_l, Z.abs_eq by lia; exact F|].
    destruct (N.gcd_bezout_pos (Z.to_N k) (Z.to_N (p - 1))) as (a & b & B); [lia|].
    assert (BZ : Z.of_N a * k = Z.gcd k (p - 1) + Z.of_N b * (p - 1)).
    { apply (f_equal Z.of_N) in B. rewrite N2Z.inj_add, !N2Z.inj_mul, gcd_Z, !Z2N.id in B by lia. exact B. }
    assert (X : x ^ (k * Z.of_N a) mod p = 1) by (apply one; lia).
    rewrite (Z.mul_comm k), BZ, Z.pow_add_r, Zmult_mod in X by nia.
    rewrite (Z.mul_comm (Z.of_N b)), (one (p - 1) (Z.of_N b)), Z.mul_1_r, Z.mod_mod in X by (auto; lia). exact X.
  - destruct (Z.gcd_divide_l k (p - 1)) as [c C]. rewrite C at 1. rewrite Z.mul_comm. apply one; [exact G0| |exact H].
    destruct (Z.eq_dec (Z.gcd k (p - 1)) 0) as [Z0|Z0]; [apply Z.gcd_eq_0_r in Z0; lia|nia].
Qed.

Lemma roots_of_one p k : prime p -> 0 <= k ->
  length (filter (fun x => x ^ k mod p =? 1) (nonzero p)) = Z.to_nat (Z.gcd k (p - 1)).
Proof.
  intros Pp Hk. pose proof (prime_ge_2 p Pp) as P2.
  assert (G0 : 0 < Z.gcd k (p - 1)).
  { pose proof (Z.gcd_nonneg k (p - 1)). destruct (Z.eq_dec (Z.gcd k (p - 1)) 0) as [Z0|]; [apply Z.gcd_eq_0_r in Z0; lia|lia]. }
  rewrite (filter_ext_in _ (fun x => x ^ Z.of_nat (Z.to_nat (Z.gcd k (p - 1))) mod p =? 1)).
  - destruct (Z.gcd_divide_r k (p - 1)) as [c C]. apply (roots_exact p _ (Z.to_nat (c - 1)) Pp); [lia|]. set (g := Z.gcd k (p - 1)) in *. clearbody g. assert (0 < c) by nia. rewrite Nat2Z.inj_succ, !Z2Nat.id by lia. rewrite C. ring.
  - intros x Hx. apply in_nonzero in Hx. rewrite Z2Nat.id by lia.
    assert (Nd : ~ (p | x)) by (intros D; apply Z.divide_pos_le in D; lia).
    pose proof (power_gcd p x k Pp Nd Hk) as I. apply Bool.eq_iff_eq_true. rewrite !Z.eqb_eq. exact I.
Qed.
