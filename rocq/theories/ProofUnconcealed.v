(** * Proofs: messages that RSA encryption leaves as they are *)
From Coq Require Import List ZArith NArith Znumtheory Lia Bool.
From Verif Require Import Base BaseLemmas ModelBig ModelRsa SpecBig SpecRsa SpecUnconcealed
  ProofBig ProofBig2 ProofBig3 ProofRsaMath ProofRsa ProofFactor ProofRoots.
Import ListNotations.
Local Open Scope N_scope.

Lemma in_unconcealed n e m : In m (unconcealed n e) <-> m < n /\ m ^ e mod n = m.
Proof.
  unfold unconcealed. rewrite filter_In, N.eqb_eq, in_map_iff. split.
  - intros [(k & <- & Hk) G]. apply in_seq in Hk. split; [lia|exact G].
  - intros [L G]. split; [|exact G]. exists (N.to_nat m). split; [lia|]. apply in_seq. lia.
Qed.

Lemma unconcealed_nodup n e : NoDup (unconcealed n e).
Proof. unfold unconcealed. apply NoDup_filter, FinFun.Injective_map_NoDup; [intros x y; lia|apply seq_NoDup]. Qed.

Lemma filter_map_length {A B} (f : B -> bool) (g : A -> B) l :
  length (filter f (map g l)) = length (filter (fun x => f (g x)) l).
Proof. induction l as [|a l IH]; [reflexivity|]. cbn [map filter]. destruct (f (g a)); cbn [length]; lia. Qed.

(** ** Modulo a prime *)

Lemma fixed_cong n e m : n <> 0 -> m < n -> m ^ e mod n = m <-> cong (Z.of_N n) (Z.of_N m ^ Z.of_N e) (Z.of_N m).
Proof.
  intros H L. split; intros E.
  - apply (f_equal Z.of_N) in E. rewrite pow_mod_Z in E by exact H.
    apply cong_of_mod; [lia|]. rewrite E. symmetry. apply Z.mod_small. lia.
  - apply N2Z.inj. rewrite pow_mod_Z by exact H. apply cong_eq in E; [|lia]. rewrite E. apply Z.mod_small. lia.
Qed.

Lemma fixed_mod p e m : p <> 0 ->
  (m mod p) ^ e mod p = m mod p <-> cong (Z.of_N p) (Z.of_N m ^ Z.of_N e) (Z.of_N m).
Proof.
  intros H. rewrite fixed_cong by (auto; apply N.mod_lt; exact H).
  assert (C : cong (Z.of_N p) (Z.of_N (m mod p)) (Z.of_N m)) by (rewrite N2Z.inj_mod; apply cong_mod; lia).
  assert (D : cong (Z.of_N p) (Z.of_N (m mod p) ^ Z.of_N e) (Z.of_N m ^ Z.of_N e)) by (apply cong_pow; [lia|exact C]).
  split; intros X.
  - eapply cong_trans; [apply cong_sym, D|]. eapply cong_trans; [exact X|exact C].
  - eapply cong_trans; [exact D|]. eapply cong_trans; [exact X|apply cong_sym, C].
Qed.

Lemma fixed_unit p e x : prime p -> (0 < e)%Z -> (0 < x < p)%Z ->
  cong p (x ^ e) x <-> (x ^ (e - 1) mod p = 1)%Z.
Proof.
  intros Pp He Hx. assert (Nd : ~ (p | x)%Z) by (intros D; apply Z.divide_pos_le in D; lia).
  replace (x ^ e)%Z with (x * x ^ (e - 1))%Z by (rewrite <- Z.pow_succ_r by lia; f_equal; lia).
  unfold cong. replace (x * x ^ (e - 1) - x)%Z with (x * (x ^ (e - 1) - 1))%Z by ring. split; intros H.
  - apply prime_mult in H as [H|H]; [easy| |exact Pp]. apply (cong_eq p) in H; [|lia]. rewrite H. apply Z.mod_1_l. lia.
  - apply Z.divide_mul_r. apply (cong_of_mod p); [lia|]. rewrite H. symmetry. apply Z.mod_1_l. lia.
Qed.

Lemma unconcealed_prime p e : prime_N p -> 0 < e ->
  length (unconcealed p e) = S (N.to_nat (N.gcd (e - 1) (p - 1))).
Proof.
  intros Pp He. pose proof (prime_ge_2 _ Pp) as P2. unfold unconcealed.
  assert (E : N.to_nat p = S (N.to_nat (p - 1))) by lia. rewrite E. cbn [seq map filter].
  change (N.of_nat 0) with 0. rewrite N.pow_0_l, N.mod_0_l by lia. cbn [N.eqb length]. f_equal.
  rewrite filter_map_length.
  replace (N.to_nat (N.gcd (e - 1) (p - 1))) with (Z.to_nat (Z.gcd (Z.of_N e - 1) (Z.of_N p - 1))).
  - rewrite <- (roots_of_one (Z.of_N p) (Z.of_N e - 1)) by (auto; lia). unfold nonzero.
    rewrite filter_map_length. replace (Z.to_nat (Z.of_N p - 1)) with (N.to_nat (p - 1)) by lia.
    f_equal. apply filter_ext_in. intros k Hk. apply in_seq in Hk. apply Bool.eq_iff_eq_true.
    rewrite N.eqb_eq, Z.eqb_eq, fixed_cong, nat_N_Z by lia. apply fixed_unit; [exact Pp|lia|lia].
  - replace (Z.of_N e - 1)%Z with (Z.of_N (e - 1)) by lia. replace (Z.of_N p - 1)%Z with (Z.of_N (p - 1)) by lia.
    rewrite <- gcd_Z. lia.
Qed.

(** ** Modulo a product *)

Lemma nodup_app {A} (l k : list A) : NoDup l -> NoDup k -> (forall x, In x l -> ~ In x k) -> NoDup (l ++ k).
Proof.
  intros Hl Hk D. induction Hl as [|a l Na Hl IH]; [exact Hk|]. cbn [app]. constructor.
  - rewrite in_app_iff. intros [I|I]; [easy|]. apply (D a); [now left|exact I].
  - apply IH. intros x Hx. apply D. now right.
Qed.

Lemma list_prod_nodup {A B} (l : list A) (k : list B) : NoDup l -> NoDup k -> NoDup (list_prod l k).
Proof.
  intros Hl Hk. induction Hl as [|a l Na Hl IH]; [constructor|]. cbn [list_prod].
  apply nodup_app; [|exact IH|].
  - apply FinFun.Injective_map_NoDup; [intros x y E; now injection E|exact Hk].
  - intros [x y] Hx Hy. apply in_map_iff in Hx as (z & E & _). injection E as -> ->.
    apply in_prod_iff in Hy as [Hy _]. easy.
Qed.

Section Product.
  Context (p q : N) (Pp : prime_N p) (Pq : prime_N q) (Hne : p <> q).

  Lemma fixed_product e m : m < p * q ->
    m ^ e mod (p * q) = m <->
    (m mod p) ^ e mod p = m mod p /\ (m mod q) ^ e mod q = m mod q.
  Proof using Pp Pq Hne.
    intros L. pose proof (prime_ge_2 _ Pp) as P2. pose proof (prime_ge_2 _ Pq) as Q2.
    rewrite !fixed_mod by lia. rewrite fixed_cong, N2Z.inj_mul by nia. split.
    - intros H. split; [eapply cong_weaken; exact H|eapply cong_weaken_r; exact H].
    - intros [A B]. apply cong_both; auto. lia.
  Qed.

  Lemma residues_inj x y : x < p * q -> y < p * q -> x mod p = y mod p -> x mod q = y mod q -> x = y.
  Proof using Pp Pq Hne.
    intros Lx Ly A B. pose proof (prime_ge_2 _ Pp) as P2. pose proof (prime_ge_2 _ Pq) as Q2.
    apply N2Z.inj. apply (cong_small (Z.of_N p * Z.of_N q)); [lia|lia|].
    assert (Hz : Z.of_N p <> Z.of_N q) by (clear - Hne; lia).
    apply (cong_both _ _ _ _ Pp Pq Hz); (apply cong_of_mod; [clear - P2 Q2; lia|]); rewrite <- !N2Z.inj_mod; f_equal; assumption.
  Qed.

  Lemma residues_surj r s : r < p -> s < q -> exists x, x < p * q /\ x mod p = r /\ x mod q = s.
  Proof using Pp Pq Hne.
    intros Lr Ls. pose proof (prime_ge_2 _ Pp) as P2. pose proof (prime_ge_2 _ Pq) as Q2.
    destruct (crt (Z.of_N p) (Z.of_N q) (Z.of_N r) (Z.of_N s)) as (x & Hx & A & B); auto; [lia|].
    exists (Z.to_N x). split; [lia|].
    apply cong_eq in A; [|lia]. apply cong_eq in B; [|lia].
    split; apply N2Z.inj; rewrite N2Z.inj_mod, Z2N.id by lia.
    - rewrite A. apply Z.mod_small. lia.
    - rewrite B. apply Z.mod_small. lia.
  Qed.

  Lemma unconcealed_product e :
    length (unconcealed (p * q) e) = (length (unconcealed p e) * length (unconcealed q e))%nat.
  Proof using Pp Pq Hne.
    pose proof (prime_ge_2 _ Pp) as P2. pose proof (prime_ge_2 _ Pq) as Q2.
    rewrite <- prod_length, <- (map_length (fun m => (m mod p, m mod q))).
    apply Nat.le_antisymm; apply NoDup_incl_length.
    - apply nodup_map_in; [|apply unconcealed_nodup]. intros x y Hx Hy E.
      apply in_unconcealed in Hx as [Lx _]. apply in_unconcealed in Hy as [Ly _]. injection E as E1 E2.
      now apply residues_inj.
    - intros z Hz. apply in_map_iff in Hz as (m & <- & Hm). apply in_unconcealed in Hm as [L F].
      apply fixed_product in F as [A B]; [|exact L].
      apply in_prod; apply in_unconcealed; (split; [apply N.mod_lt; lia|assumption]).
    - apply list_prod_nodup; apply unconcealed_nodup.
    - intros [r s] Hz. apply in_prod_iff in Hz as [Hr Hs].
      apply in_unconcealed in Hr as [Lr Fr]. apply in_unconcealed in Hs as [Ls Fs].
      destruct (residues_surj r s Lr Ls) as (x & Lx & A & B). apply in_map_iff. exists x.
      split; [now rewrite A, B|]. apply in_unconcealed. split; [exact Lx|].
      apply fixed_product; [exact Lx|]. rewrite A, B. auto.
  Qed.

  Lemma unconcealed_count e : 0 < e ->
    N.of_nat (length (unconcealed (p * q) e)) = (1 + N.gcd (e - 1) (p - 1)) * (1 + N.gcd (e - 1) (q - 1)).
  Proof using Pp Pq Hne.
    intros He. rewrite unconcealed_product, !unconcealed_prime by auto. lia.
  Qed.

  Lemma at_least_nine e : 2 < p -> 2 < q -> e mod 2 = 1 -> (9 <= length (unconcealed (p * q) e))%nat.
  Proof using Pp Pq Hne.
    intros P Q Ho. assert (He : 0 < e) by (destruct e; [discriminate Ho|lia]).
    pose proof (unconcealed_count e He) as C.
    assert (G : forall r, prime_N r -> 2 < r -> 2 <= N.gcd (e - 1) (r - 1)).
    { intros r Pr R.
      assert (Dr : N.divide 2 (r - 1)).
      { destruct (N.Even_or_Odd r) as [[k K]|[k K]]; [|exists k; lia]. exfalso.
        assert (D : (2 | Z.of_N r)%Z) by (exists (Z.of_N k); lia).
        apply prime_div_prime in D; [lia|apply prime_2|exact Pr]. }
      assert (De : N.divide 2 (e - 1)).
      { exists (e / 2). pose proof (N.div_mod e 2 ltac:(lia)) as M. rewrite Ho in M. lia. }
      pose proof (N.gcd_greatest _ _ _ De Dr) as D.
      apply N.divide_pos_le in D; [exact D|]. assert (N.gcd (e - 1) (r - 1) <> 0); [|lia].
      intros Z0. apply N.gcd_eq_0_r in Z0. lia. }
    pose proof (G p Pp P) as Gp. pose proof (G q Pq Q) as Gq.
    set (a := N.gcd (e - 1) (p - 1)) in *. set (b := N.gcd (e - 1) (q - 1)) in *. clearbody a b. nia.
  Qed.

  (** ** What such a message tells *)

  Definition near (r : Z) (m : Z) : Prop := ((r | m) \/ (r | m - 1) \/ (r | m + 1))%Z.

  Lemma fixed_near r e m : prime_N r -> 0 < e -> N.gcd (e - 1) (r - 1) = 2 ->
    (m mod r) ^ e mod r = m mod r -> near (Z.of_N r) (Z.of_N m).
  Proof using Type.
    clear. intros Pr He G F. pose proof (prime_ge_2 _ Pr) as R2. apply fixed_mod in F; [|lia].
    unfold near. unfold cong in F.
    replace (Z.of_N m ^ Z.of_N e)%Z with (Z.of_N m * Z.of_N m ^ (Z.of_N e - 1))%Z in F
      by (rewrite <- Z.pow_succ_r by lia; f_equal; lia).
    replace (Z.of_N m * Z.of_N m ^ (Z.of_N e - 1) - Z.of_N m)%Z
      with (Z.of_N m * (Z.of_N m ^ (Z.of_N e - 1) - 1))%Z in F by ring.
    destruct (Zdivide_dec (Z.of_N r) (Z.of_N m)) as [D|D]; [now left|right].
    apply prime_mult in F as [F|F]; [easy| |exact Pr].
    apply (cong_eq (Z.of_N r)) in F; [|lia]. rewrite (Z.mod_1_l (Z.of_N r)) in F by lia.
    apply power_gcd in F; [|exact Pr|exact D|lia].
    apply (f_equal Z.of_N) in G. rewrite gcd_Z, !N2Z.inj_sub in G by lia.
    change (Z.of_N 1) with 1%Z in G. rewrite G in F. change (Z.of_N 2) with 2%Z in F.
    assert (X : cong (Z.of_N r) (Z.of_N m ^ 2) 1) by (apply cong_of_mod; [lia|]; rewrite F; symmetry; apply Z.mod_1_l; lia).
    unfold cong in X. replace (Z.of_N m ^ 2 - 1)%Z with ((Z.of_N m - 1) * (Z.of_N m + 1))%Z in X by ring.
    apply prime_mult in X; auto.
  Qed.

  Lemma near_splits m : 2 < p -> 2 < q -> near (Z.of_N p) (Z.of_N m) -> near (Z.of_N q) (Z.of_N m) ->
    m < p * q -> m <> 0 -> m <> 1 -> m <> p * q - 1 ->
    exists g, (g = p \/ g = q) /\
      (N.gcd m (p * q) = g \/ N.gcd (m - 1) (p * q) = g \/ N.gcd (m + 1) (p * q) = g).
  Proof using Pp Pq Hne.
    intros P Q Np Nq L M0 M1 Mn.
    assert (Hz : Z.of_N p <> Z.of_N q) by lia.
    assert (both : forall x, (Z.of_N p | x)%Z -> (Z.of_N q | x)%Z -> (0 < x)%Z -> (Z.of_N p * Z.of_N q <= x)%Z).
    { intros x A B X. apply Z.divide_pos_le; [exact X|]. now apply divide_distinct_primes. }
    assert (G : forall x : N, (Z.of_N p | Z.of_N x)%Z -> ~ (Z.of_N q | Z.of_N x)%Z -> N.gcd x (p * q) = p).
    { intros x A B. apply N2Z.inj. rewrite gcd_Z, N2Z.inj_mul. now apply gcd_is. }
    assert (E : Z.of_N (p * q) = (Z.of_N p * Z.of_N q)%Z) by lia.
    assert (E1 : Z.of_N (m - 1) = (Z.of_N m - 1)%Z) by lia.
    assert (E2 : Z.of_N (m + 1) = (Z.of_N m + 1)%Z) by lia.
    exists p. split; [now left|].
    destruct Np as [D|[D|D]].
    - left. apply G; [exact D|]. intros B. pose proof (both _ D B). lia.
    - right; left. apply G; rewrite E1; [exact D|]. intros B. pose proof (both _ D B). lia.
    - right; right. apply G; rewrite E2; [exact D|]. intros B. pose proof (both _ D B). lia.
  Qed.

  Lemma fixed_discloses e m : 2 < p -> 2 < q -> 0 < e ->
    N.gcd (e - 1) (p - 1) = 2 -> N.gcd (e - 1) (q - 1) = 2 ->
    m < p * q -> m ^ e mod (p * q) = m -> m <> 0 -> m <> 1 -> m <> p * q - 1 ->
    exists g, (g = p \/ g = q) /\
      (N.gcd m (p * q) = g \/ N.gcd (m - 1) (p * q) = g \/ N.gcd (m + 1) (p * q) = g).
  Proof using Pp Pq Hne.
    intros P Q He Gp Gq L F M0 M1 Mn. apply fixed_product in F as [A B]; [|exact L].
    apply near_splits; auto; eapply fixed_near; eauto.
  Qed.
End Product.

(** ** The code *)

Lemma encrypts_to_itself capf k key m : canonical (rsa_exponent key) -> canonical (rsa_modulo key) -> canonical m ->
  1 < num (rsa_modulo key) -> countable (rsa_exponent key) ->
  (length m + 4 <= k)%nat -> (length (rsa_modulo key) + 4 <= k)%nat -> allocates capf k ->
  rsa_encrypt capf key m = Ok m <-> In (num m) (unconcealed (num (rsa_modulo key)) (num (rsa_exponent key))).
Proof.
  intros Ce Cn Cm N1 Ke Lm Ln Hal.
  destruct (rsa_encrypt_spec capf k key m Ce Cn Cm N1 Ke Lm Ln Hal) as (c & E & _ & C & V).
  rewrite E, in_unconcealed. unfold rsa_power in V. split.
  - intros H. injection H as ->. split; [rewrite V; apply N.mod_lt; lia|now symmetry].
  - intros [L F]. f_equal. apply num_inj; auto. now rewrite V.
Qed.
