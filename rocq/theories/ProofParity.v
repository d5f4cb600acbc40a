(** * Correctness of the attack *)
From Coq Require Import ZifyBool ZifyNat ZifyN.
From Verif Require Import Base BaseLemmas ModelBig ModelRsa SpecEndian SpecBig SpecRsa SpecMsg SpecParity
  ProofBig ProofBig3 ProofRsa ProofRsaMath ProofAsn1 ProofKey ProofOaep ProofMsg.
Local Open Scope N_scope.

Lemma double_div x n : n <> 0 ->
  2 * x / n = 2 * (x / n) + (if n <=? 2 * (x mod n) then 1 else 0) /\
  (2 * x) mod n = 2 * (x mod n) - (if n <=? 2 * (x mod n) then n else 0).
Proof.
  intros H. pose proof (N.div_mod x n H) as D. pose proof (N.mod_lt x n H) as L.
  remember (x / n) as q. remember (x mod n) as r. clear Heqq Heqr.
  destruct (N.leb_spec n (2 * r)).
  - split; symmetry.
    + apply N.div_unique with (2 * r - n); nia.
    + apply N.mod_unique with (2 * q + 1); nia.
  - split; symmetry.
    + apply N.div_unique with (2 * r); nia.
    + apply N.mod_unique with (2 * q); nia.
Qed.

Lemma answers_div o n m k : n <> 0 -> m < n ->
  (forall i, 1 <= i -> o i = (n <=? 2 * ((2 ^ (i - 1) * m) mod n))) ->
  answers o k = 2 ^ N.of_nat k * m / n.
Proof.
  intros H L Ho. induction k as [|k IH].
  - cbn [answers]. change (N.of_nat 0) with 0. rewrite N.pow_0_r, N.mul_1_l, N.div_small; auto.
  - cbn [answers]. rewrite IH, Ho by lia. replace (N.of_nat (S k) - 1) with (N.of_nat k) by lia.
    rewrite Nat2N.inj_succ, N.pow_succ_r', <- N.mul_assoc. symmetry. apply double_div, H.
Qed.

Lemma read_off_ok o n m : n <> 0 -> m < n ->
  (forall i, 1 <= i -> o i = (n <=? 2 * ((2 ^ (i - 1) * m) mod n))) -> read_off o n = m.
Proof.
  intros H L Ho. unfold read_off. cbv zeta. rewrite (answers_div o n m) by assumption. rewrite N2Nat.id.
  assert (G : n < 2 ^ N.size n) by apply N.size_gt.
  remember (2 ^ N.size n) as w. clear Heqw.
  pose proof (N.div_mod (w * m) n H) as D. pose proof (N.mod_lt (w * m) n H) as R.
  remember (w * m / n) as v. remember ((w * m) mod n) as r. clear Heqv Heqr.
  symmetry. apply N.div_unique with (w - 1 - r); nia.
Qed.

Lemma odd_half x n : N.odd n = true -> N.odd ((2 * x) mod n) = (n <=? 2 * (x mod n)).
Proof.
  intros O. assert (H : n <> 0) by (intros ->; discriminate O). destruct (double_div x n H) as (_ & E). rewrite E.
  destruct (N.leb_spec n (2 * (x mod n))) as [G|G].
  - rewrite N.odd_sub, N.odd_mul, O by exact G. reflexivity.
  - rewrite N.sub_0_r, N.odd_mul. reflexivity.
Qed.

Lemma read_off_odd o n m : N.odd n = true -> m < n ->
  (forall i, 1 <= i -> o i = N.odd ((2 ^ i * m) mod n)) -> read_off o n = m.
Proof.
  intros O L Ho. assert (H : n <> 0) by (intros ->; discriminate O).
  apply read_off_ok; auto. intros i Hi. rewrite Ho by exact Hi. rewrite <- odd_half by exact O.
  rewrite N.mul_assoc, <- N.pow_succ_r'. do 4 f_equal. lia.
Qed.

Lemma decrypts_power capf key c : sized capf key -> c < num (rsa_modulo key) ->
  decrypts_to capf key c = rsa_power c (num (rsa_exponent key)) (num (rsa_modulo key)).
Proof.
  intros S L. pose proof S as (Ce & Cn & N1 & Ke & Hal). unfold decrypts_to.
  assert (B : bytes (be_bytes (length (rsa_modulo key)) c)) by apply be_bytes_bytes.
  assert (V : be_num (be_bytes (length (rsa_modulo key)) c) = c).
  { apply be_num_be_bytes. apply N.lt_trans with (1 := L). change num with from_le. apply from_le_lt, canonical_bytes, Cn. }
  destruct (from_be_spec _ B) as (a & E & Ca & Va). rewrite E. cbn [bind]. rewrite V in Va.
  assert (La : (length a <= length (rsa_modulo key))%nat).
  { apply canonical_length_mono; auto using canonical_bytes. change from_le with num. rewrite Va. now apply N.lt_le_incl. }
  destruct (rsa_encrypt_spec capf (length (rsa_modulo key) + 4)%nat key a) as (r & _ & R & _ & Vr); auto; try lia.
  rewrite R, Vr, Va. reflexivity.
Qed.

Section Key.
  Context (capf : nat -> nat) (p q : N) (enc dec : rsa_encryption).
  Context (M : matching p q enc dec) (Se : sized capf enc) (Sd : sized capf dec).

  Lemma decrypts_multiple m f : m < num (rsa_modulo enc) ->
    decrypts_to capf dec ((f ^ num (rsa_exponent enc) * rsa_power m (num (rsa_exponent enc)) (num (rsa_modulo enc)))
                          mod num (rsa_modulo enc)) = (f * m) mod num (rsa_modulo enc).
  Proof using M Se Sd.
    intros L. destruct M as (Pp & Pq & Hne & Hmod & Hn & Hk).
    assert (N0 : num (rsa_modulo enc) <> 0) by (destruct Se as (_ & _ & N1 & _); lia).
    rewrite decrypts_power; [|exact Sd|rewrite <- Hmod; now apply N.mod_lt]. rewrite <- Hmod.
    replace ((f ^ num (rsa_exponent enc) * rsa_power m (num (rsa_exponent enc)) (num (rsa_modulo enc)))
             mod num (rsa_modulo enc)) with (rsa_power (f * m) (num (rsa_exponent enc)) (num (rsa_modulo enc))).
    + rewrite Hn. now apply rsa_round_trip.
    + unfold rsa_power. rewrite N.mul_mod_idemp_r, N.pow_mul_l by auto. reflexivity.
  Qed.

  Lemma parity_attack m c : canonical m -> num m < num (rsa_modulo enc) -> N.odd (num (rsa_modulo enc)) = true ->
    rsa_encrypt capf enc m = Ok c ->
    read_off (fun i => odd_answer capf dec (((2 ^ i) ^ num (rsa_exponent enc) * num c) mod num (rsa_modulo enc)))
      (num (rsa_modulo enc)) = num m.
  Proof using M Se Sd.
    intros Cm L O E. pose proof Se as (Ce & Cn & N1 & Ke & Hal).
    assert (Lm : (length m <= length (rsa_modulo enc))%nat).
    { apply canonical_length_mono; auto using canonical_bytes. change from_le with num. now apply N.lt_le_incl. }
    destruct (rsa_encrypt_spec capf (length (rsa_modulo enc) + 4)%nat enc m) as (c' & E' & _ & _ & V); auto; try lia.
    rewrite E in E'. apply Ok_inj in E'. subst c'.
    apply read_off_odd; auto. intros i Hi. unfold odd_answer. rewrite V. f_equal. now apply decrypts_multiple.
  Qed.

  Lemma half_attack m c : canonical m -> num m < num (rsa_modulo enc) ->
    rsa_encrypt capf enc m = Ok c ->
    read_off (fun i => half_answer capf dec (((2 ^ (i - 1)) ^ num (rsa_exponent enc) * num c) mod num (rsa_modulo enc)))
      (num (rsa_modulo enc)) = num m.
  Proof using M Se Sd.
    intros Cm L E. pose proof Se as (Ce & Cn & N1 & Ke & Hal).
    assert (Lm : (length m <= length (rsa_modulo enc))%nat).
    { apply canonical_length_mono; auto using canonical_bytes. change from_le with num. now apply N.lt_le_incl. }
    destruct (rsa_encrypt_spec capf (length (rsa_modulo enc) + 4)%nat enc m) as (c' & E' & _ & _ & V); auto; try lia.
    rewrite E in E'. apply Ok_inj in E'. subst c'.
    apply read_off_ok; auto; [lia|]. intros i Hi. unfold half_answer. rewrite V. destruct M as (_ & _ & _ & Hmod & _).
    rewrite <- Hmod, decrypts_multiple by exact L. reflexivity.
  Qed.
End Key.
