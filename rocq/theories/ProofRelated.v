(** * Proofs: two messages with a known relation *)
From Coq Require Import NArith ZArith List Lia Znumtheory.
From Verif Require Import Base BaseLemmas ModelBig ModelRsa SpecBig SpecRsa SpecRelated ProofRsa ProofWiener.
From Coq Require Import ZifyBool ZifyNat ZifyN.
Ltac Zify.zify_post_hook ::= idtac.

Lemma related_equation n a b m1 m2 : (0 < n)%Z -> ((n | m2 - (a * m1 + b)))%Z ->
  forall c1 c2, (n | c1 - m1 ^ 3)%Z -> (n | c2 - m2 ^ 3)%Z ->
  (n | related_factor a b c1 c2 * m1 - related_value a b c1 c2)%Z.
Proof.
  intros Hn [u R] c1 c2 [x X] [y Y]. unfold related_factor, related_value.
  assert (E1 : (c1 = m1 ^ 3 + x * n)%Z) by lia. assert (E2 : (c2 = m2 ^ 3 + y * n)%Z) by lia.
  assert (E3 : (m2 = a * m1 + b + u * n)%Z) by lia. rewrite E1, E2, E3. clear.
  exists (a * m1 * (3 * (a * m1 + b) ^ 2 * u + 3 * (a * m1 + b) * u ^ 2 * n + u ^ 3 * n ^ 2 + y - a ^ 3 * x)
    - b * (3 * (a * m1 + b) ^ 2 * u + 3 * (a * m1 + b) * u ^ 2 * n + u ^ 3 * n ^ 2 + y + 2 * a ^ 3 * x))%Z.
  ring.
Qed.

Lemma divide_mod_N c x n : (0 < n)%N -> c = (x mod n)%N -> (Z.of_N n | Z.of_N c - Z.of_N x)%Z.
Proof.
  intros Hn ->. exists (- Z.of_N (x / n))%Z. rewrite (N.div_mod x n) at 2 by lia. lia.
Qed.

Local Open Scope N_scope.
Lemma encrypt_cube capf k key m c :
  canonical (rsa_exponent key) -> canonical (rsa_modulo key) -> canonical m ->
  1 < num (rsa_modulo key) -> num (rsa_exponent key) = 3 -> (length m + 4 <= k)%nat -> (length (rsa_modulo key) + 4 <= k)%nat ->
  allocates capf k -> rsa_encrypt capf key m = Ok c ->
  (Z.of_N (num (rsa_modulo key)) | Z.of_N (num c) - Z.of_N (num m) ^ 3)%Z.
Proof.
  intros Ce Cn Cm Hn E3 Lm Ln Al E.
  assert (Co : countable (rsa_exponent key)).
  { apply length_countable. apply num_16; [exact Ce|]. rewrite E3. reflexivity. }
  destruct (rsa_encrypt_spec capf k key m Ce Cn Cm Hn Co Lm Ln Al) as (c' & E' & _ & _ & V).
  rewrite E in E'. apply Ok_inj in E'. subst c'. rewrite E3 in V. unfold rsa_power in V.
  change 3%Z with (Z.of_N 3). rewrite <- N2Z.inj_pow. apply divide_mod_N; [lia|exact V].
Qed.

Lemma related capf k key m1 m2 c1 c2 (a b : Z) :
  canonical (rsa_exponent key) -> canonical (rsa_modulo key) -> canonical m1 -> canonical m2 ->
  1 < num (rsa_modulo key) -> num (rsa_exponent key) = 3 ->
  (length m1 + 4 <= k)%nat -> (length m2 + 4 <= k)%nat -> (length (rsa_modulo key) + 4 <= k)%nat -> allocates capf k ->
  rsa_encrypt capf key m1 = Ok c1 -> rsa_encrypt capf key m2 = Ok c2 ->
  let n := Z.of_N (num (rsa_modulo key)) in
  ((Z.of_N (num m2) - (a * Z.of_N (num m1) + b)) mod n = 0)%Z ->
  let f := related_factor a b (Z.of_N (num c1)) (Z.of_N (num c2)) in
  let v := related_value a b (Z.of_N (num c1)) (Z.of_N (num c2)) in
  ((f * Z.of_N (num m1)) mod n = v mod n)%Z /\
  (Z.gcd f n = 1%Z -> num m1 < num (rsa_modulo key) ->
   forall x, (0 <= x < n)%Z -> ((f * x) mod n = v mod n)%Z -> x = Z.of_N (num m1)).
Proof.
  intros Ce Cn C1 C2 Hn E3 L1 L2 Ln Al E1 E2 n R f v.
  assert (Pn : (0 < n)%Z) by (unfold n; lia).
  assert (D : (n | f * Z.of_N (num m1) - v)%Z).
  { apply (related_equation n a b (Z.of_N (num m1)) (Z.of_N (num m2)) Pn).
    - apply Z.mod_divide; [lia|exact R].
    - exact (encrypt_cube capf k key m1 c1 Ce Cn C1 Hn E3 L1 Ln Al E1).
    - exact (encrypt_cube capf k key m2 c2 Ce Cn C2 Hn E3 L2 Ln Al E2). }
  clearbody f v. clear E1 E2 R. split.
  - destruct D as [z D]. replace (f * Z.of_N (num m1))%Z with (v + z * n)%Z by lia. apply Z_mod_plus_full.
  - intros G Hm x Hx X. fold n in Hm.
    assert (Dx : (n | f * (x - Z.of_N (num m1)))%Z).
    { apply Z.mod_divide; [lia|]. rewrite Z.mul_sub_distr_l.
      destruct D as [z D]. replace (f * x - f * Z.of_N (num m1))%Z with (f * x - v + (- z) * n)%Z by lia.
      rewrite Z_mod_plus_full, Zminus_mod, X, Z.sub_diag. apply Z.mod_0_l. lia. }
    apply Z.gauss in Dx; [|now rewrite Z.gcd_comm].
    destruct Dx as [z Dz]. assert (Bm : (Z.of_N (num m1) < n)%Z) by (unfold n; lia).
    assert (z = 0)%Z by nia. subst z. lia.
Qed.
