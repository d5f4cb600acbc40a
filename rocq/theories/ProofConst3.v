(** * The digits of pi *)
From Coq Require Import NArith ZArith List Reals Lra Lia Bool Machin Ratan AltSeries.
From Verif Require Import SpecMd SpecConst ProofConst ProofConst2.
Local Open Scope R_scope.

(** ** The series of the arctangent *)

Lemma atan_bounds m n : (2 <= m)%Z ->
  sum_f_R0 (tg_alt (Ratan_seq (/ IZR m))) (S (2 * n)) <= atan (/ IZR m) <=
  sum_f_R0 (tg_alt (Ratan_seq (/ IZR m))) (2 * n).
Proof.
  intros Hm. apply IZR_le in Hm.
  assert (B : 0 < / IZR m < 1).
  { split; [apply Rinv_0_lt_compat; lra|]. rewrite <- Rinv_1. apply Rinv_lt_contravar; lra. }
  apply alternated_series_ineq.
  - apply Ratan_seq_decreasing. lra.
  - apply Ratan_seq_converging. lra.
  - rewrite atan_eq_ps_atan by exact B. unfold ps_atan. destruct (in_int (/ IZR m)) as [h|h]; [|lra].
    destruct (ps_atan_exists_1 (/ IZR m) h) as [v Hv]. exact Hv.
Qed.

(** [p/k - p/(m2 (k+2)) + p/(m2^2 (k+4)) - ...], [n] terms; in fixed point and exactly. *)
Fixpoint alt_sum (m2 : Z) (n : nat) (p k : Z) : Z :=
  match n with
  | O => 0
  | S n => p / k - alt_sum m2 n (p / m2) (k + 2)
  end.
Fixpoint alt_real (m2 : R) (n : nat) (p k : R) : R :=
  match n with
  | O => 0
  | S n => p / k - alt_real m2 n (p / m2) (k + 2)
  end.

Lemma alt_real_bounds m2 n : 1 <= m2 -> forall p k, 0 <= p -> 1 <= k -> 0 <= alt_real m2 n p k <= p / k.
Proof.
  intros M. assert (I : 0 < / m2 <= 1).
  { split; [apply Rinv_0_lt_compat; lra|]. rewrite <- Rinv_1. apply Rinv_le_contravar; lra. }
  induction n as [|n IH]; intros p k P K; cbn [alt_real].
  - split; [lra|]. apply Rmult_le_pos; [lra|]. apply Rlt_le, Rinv_0_lt_compat. lra.
  - assert (P' : 0 <= p / m2) by (apply Rmult_le_pos; lra).
    destruct (IH (p / m2) (k + 2) P' ltac:(lra)) as [A B]. split; [|lra].
    assert (p / m2 / (k + 2) <= p / k); [|lra].
    unfold Rdiv. assert (0 < / (k + 2)) by (apply Rinv_0_lt_compat; lra).
    assert (/ (k + 2) <= / k) by (apply Rinv_le_contravar; lra).
    apply Rmult_le_compat; [exact P'|lra| |assumption]. nra.
Qed.

Lemma alt_real_sub m2 n : m2 <> 0 -> forall p q k, 
  alt_real m2 n p k - alt_real m2 n q k = alt_real m2 n (p - q) k.
Proof.
  intros M. induction n as [|n IH]; intros p q k; cbn [alt_real]; [lra|].
  replace ((p - q) / m2) with (p / m2 - q / m2) by (field; exact M). rewrite <- IH. unfold Rdiv. ring.
Qed.

Lemma div_close p k : (0 < k)%Z -> 0 <= IZR p / IZR k - IZR (p / k) < 1.
Proof.
  intros K. pose proof (Z.div_mod p k ltac:(lia)) as D. pose proof (Z.mod_pos_bound p k K) as [M1 M2].
  revert D M1 M2. generalize (p / k)%Z (p mod k)%Z. intros q r -> M1 M2.
  apply IZR_le in M1. apply IZR_lt in M2, K. rewrite plus_IZR, mult_IZR.
  replace ((IZR k * IZR q + IZR r) / IZR k - IZR q) with (IZR r / IZR k) by (field; lra).
  split; [apply Rmult_le_pos; [lra|]; apply Rlt_le, Rinv_0_lt_compat; lra|].
  apply Rmult_lt_reg_r with (IZR k); [lra|]. unfold Rdiv. rewrite Rmult_assoc, Rinv_l; lra.
Qed.

Lemma alt_sum_close m2 n : (2 <= m2)%Z -> forall p k, (0 <= p)%Z -> (1 <= k)%Z ->
  Rabs (alt_real (IZR m2) n (IZR p) (IZR k) - IZR (alt_sum m2 n p k)) <= 2 * INR n.
Proof.
  intros M. induction n as [|n IH]; intros p k P K.
  - cbn. rewrite Rminus_0_r, Rabs_R0. lra.
  - cbn [alt_real alt_sum]. rewrite S_INR, minus_IZR.
    specialize (IH (p / m2)%Z (k + 2)%Z ltac:(apply Z.div_pos; lia) ltac:(lia)).
    pose proof (div_close p k ltac:(lia)) as D1. pose proof (div_close p m2 ltac:(lia)) as D2.
    rewrite plus_IZR in IH. apply abs_le_inv in IH.
    assert (M' : 1 <= IZR m2) by (apply IZR_le; lia). assert (K' : 1 <= IZR k) by (apply IZR_le; lia).
    pose proof (alt_real_sub (IZR m2) n ltac:(lra) (IZR p / IZR m2) (IZR (p / m2)) (IZR k + 2)) as S.
    pose proof (alt_real_bounds (IZR m2) n M' (IZR p / IZR m2 - IZR (p / m2)) (IZR k + 2) ltac:(lra) ltac:(lra)) as [B1 B2].
    assert (B3 : (IZR p / IZR m2 - IZR (p / m2)) / (IZR k + 2) <= 1).
    { apply Rmult_le_reg_r with (IZR k + 2); [lra|]. unfold Rdiv at 1. rewrite Rmult_assoc, Rinv_l; lra. }
    apply Rabs_le. change (IZR 2) with 2 in *. lra.
Qed.

(** The exact sum is the partial sum of the series. *)
Lemma alt_real_scale m2 n c : m2 <> 0 -> forall p k, alt_real m2 n (c * p) k = c * alt_real m2 n p k.
Proof.
  intros M. induction n as [|n IH]; intros p k; cbn [alt_real]; [lra|].
  replace (c * p / m2) with (c * (p / m2)) by (unfold Rdiv; ring). rewrite IH. unfold Rdiv. ring.
Qed.

Lemma sum_shift (f : nat -> R) n : sum_f_R0 f (S n) = f 0%nat + sum_f_R0 (fun i => f (S i)) n.
Proof. induction n as [|n IH]; [reflexivity|]. rewrite tech5, IH. cbn [sum_f_R0]. ring. Qed.

Lemma alt_real_sum x n : x <> 0 -> forall j,
  alt_real (/ x ^ 2) (S n) (x ^ (2 * j + 1)) (INR (2 * j + 1)) =
  sum_f_R0 (fun i => (-1) ^ i * Ratan_seq x (i + j)) n.
Proof.
  intros X. induction n as [|n IH]; intros j.
  - cbn. unfold Ratan_seq. cbn. replace (j + (j + 0) + 1)%nat with (2 * j + 1)%nat by lia. lra.
  - rewrite sum_shift.
    change (alt_real (/ x ^ 2) (S (S n)) (x ^ (2 * j + 1)) (INR (2 * j + 1))) with
      (Ratan_seq x (0 + j) - alt_real (/ x ^ 2) (S n) (x ^ (2 * j + 1) / / x ^ 2) (INR (2 * j + 1) + 2)).
    change ((-1) ^ 0) with 1. rewrite Rmult_1_l. unfold Rminus. f_equal.
    replace (x ^ (2 * j + 1) / / x ^ 2) with (x ^ (2 * S j + 1)).
    2:{ replace (2 * S j + 1)%nat with (2 + (2 * j + 1))%nat by lia. rewrite pow_add. cbn [pow]. field. exact X. }
    replace (INR (2 * j + 1) + 2) with (INR (2 * S j + 1)).
    2:{ replace (2 * S j + 1)%nat with (S (S (2 * j + 1))) by lia. rewrite !S_INR. lra. }
    rewrite IH, <- (Rmult_1_l (sum_f_R0 _ n)), Ropp_mult_distr_l, scal_sum. apply sum_eq. intros i _.
    replace (i + S j)%nat with (S i + j)%nat by lia. cbn [pow]. ring.
Qed.

Lemma alt_real_atan m n w : (1 <= m)%Z ->
  alt_real (IZR (m * m)) (S n) (w * / IZR m) 1 = w * sum_f_R0 (tg_alt (Ratan_seq (/ IZR m))) n.
Proof.
  intros M. apply IZR_le in M.
  assert (X : / IZR m <> 0) by (apply Rinv_neq_0_compat; lra).
  rewrite mult_IZR. replace (IZR m * IZR m) with (/ (/ IZR m) ^ 2) by (cbn [pow]; field; lra).
  rewrite alt_real_scale by (apply Rinv_neq_0_compat, pow_nonzero, X). f_equal.
  pose proof (alt_real_sum (/ IZR m) n X 0) as E. cbn [Nat.mul Nat.add INR] in E. rewrite pow_1 in E.
  rewrite E. apply sum_eq. intros i _. unfold tg_alt. now rewrite Nat.add_0_r.
Qed.

(** [w * atan (1/m)] from [2n+2] terms; the next term of the series is below [1/w]. *)
Lemma atan_close m n w : (2 <= m)%Z -> (0 < w)%Z -> (w mod m = 0)%Z -> (w <= m ^ (4 * Z.of_nat n + 3))%Z ->
  close w (atan (/ IZR m)) (alt_sum (m * m) (2 * n + 2) (w / m) 1) (4 * Z.of_nat n + 5).
Proof.
  intros M W D L. pose proof (atan_bounds m n M) as [B1 B2].
  pose proof (alt_sum_close (m * m) (2 * n + 2) ltac:(nia) (w / m) 1 ltac:(apply Z.div_pos; lia) ltac:(lia)) as C.
  assert (E : IZR (w / m) = IZR w * / IZR m).
  { pose proof (Z.div_mod w m ltac:(lia)) as Q. rewrite D, Z.add_0_r in Q. rewrite Q at 2. rewrite mult_IZR.
    field. apply not_0_IZR. lia. }
  rewrite E in C. replace (2 * n + 2)%nat with (S (S (2 * n))) in * by lia.
  change (IZR 1) with 1 in C. rewrite alt_real_atan in C by lia. apply abs_le_inv in C.
  cbn [sum_f_R0] in B2. unfold close. apply Rabs_le.
  assert (T : sum_f_R0 (tg_alt (Ratan_seq (/ IZR m))) (2 * n) =
              sum_f_R0 (tg_alt (Ratan_seq (/ IZR m))) (S (2 * n)) + Ratan_seq (/ IZR m) (S (2 * n))).
  { cbn [sum_f_R0]. unfold tg_alt at 3. rewrite minus1_pow, Nat.odd_succ.
    rewrite (proj2 (Nat.even_spec (2 * n)) (ex_intro _ n eq_refl)). ring. }
  assert (N0 : IZR w * Ratan_seq (/ IZR m) (S (2 * n)) <= 1).
  { unfold Ratan_seq. assert (Mr : 0 < IZR m) by (apply IZR_lt; lia).
    replace (2 * S (2 * n) + 1)%nat with (4 * n + 3)%nat by lia.
    apply IZR_le in L. replace (4 * Z.of_nat n + 3)%Z with (Z.of_nat (4 * n + 3)) in L by lia.
    rewrite <- pow_IZR in L. rewrite pow_inv.
    assert (P : 0 < IZR m ^ (4 * n + 3)) by (apply pow_lt; lra).
    assert (I1 : 1 <= INR (4 * n + 3)) by (apply (le_INR 1); lia).
    apply Rmult_le_reg_r with (IZR m ^ (4 * n + 3) * INR (4 * n + 3)); [nra|].
    replace (IZR w * (/ IZR m ^ (4 * n + 3) / INR (4 * n + 3)) * (IZR m ^ (4 * n + 3) * INR (4 * n + 3)))
      with (IZR w) by (field; lra). nra. }
  rewrite !S_INR, mult_INR in C. change (INR 2) with 2 in C.
  rewrite plus_IZR, mult_IZR, <- INR_IZR_INZ. apply IZR_lt in W. rewrite T in B2.
  set (a := atan (/ IZR m)) in *. set (s := sum_f_R0 _ (S (2 * n))) in *. set (t := Ratan_seq _ _) in *.
  set (z := IZR (alt_sum _ _ _ _)) in *. clearbody a s t z.
  assert (IZR w * s <= IZR w * a) by nra. assert (IZR w * a <= IZR w * (s + t)) by nra. lra.
Qed.

(** ** pi *)

Definition pi_check (w v : Z) (n1 n2 : nat) (k : N) : bool :=
  let a := alt_sum 25 (2 * n1 + 2) (w / 5) 1 in
  let b := alt_sum 57121 (2 * n2 + 2) (w / 239) 1 in
  let s := (16 * a - 4 * b)%Z in
  let e := (16 * (4 * Z.of_nat n1 + 5) + 4 * (4 * Z.of_nat n2 + 5))%Z in
  ((0 <? w) && (w mod 5 =? 0) && (w mod 239 =? 0) && (0 <? v) && (w mod v =? 0) &&
   (w <=? 5 ^ (4 * Z.of_nat n1 + 3)) && (w <=? 239 ^ (4 * Z.of_nat n2 + 3)) &&
   (Z.of_N k * v <=? s - e) && (s + e <? (Z.of_N k + 1) * v))%Z.

Lemma pi_check_ok w v n1 n2 k : pi_check w v n1 n2 k = true -> is_floor (IZR (w / v) * PI) k.
Proof.
  unfold pi_check. cbv zeta. intros H. repeat (apply andb_prop in H as [H ?]).
  repeat match goal with H : (_ <? _)%Z = true |- _ => apply Z.ltb_lt in H
                       | H : (_ =? _)%Z = true |- _ => apply Z.eqb_eq in H
                       | H : (_ <=? _)%Z = true |- _ => apply Z.leb_le in H end.
  assert (A : close w (atan (/ 5)) (alt_sum 25 (2 * n1 + 2) (w / 5) 1) (4 * Z.of_nat n1 + 5))
    by (apply (atan_close 5); auto; lia).
  assert (B : close w (atan (/ 239)) (alt_sum 57121 (2 * n2 + 2) (w / 239) 1) (4 * Z.of_nat n2 + 5))
    by (apply (atan_close 239); auto; lia).
  pose proof Machin_4_5_239 as Hpi. unfold close in A, B. apply abs_le_inv in A, B.
  revert A B H0 H1. generalize (alt_sum 25 (2 * n1 + 2) (w / 5) 1) (alt_sum 57121 (2 * n2 + 2) (w / 239) 1).
  generalize (4 * Z.of_nat n1 + 5)%Z (4 * Z.of_nat n2 + 5)%Z. intros e1 e2 a b A B U L.
  apply IZR_lt in U. apply IZR_le in L.
  assert (E : IZR w = IZR (w / v) * IZR v).
  { rewrite <- mult_IZR. f_equal. pose proof (Z.div_mod w v ltac:(lia)). lia. }
  unfold is_floor, real. rewrite !plus_IZR, !mult_IZR, ?minus_IZR, ?plus_IZR, ?mult_IZR in *.
  repeat match goal with H : (_ mod _ = _)%Z |- _ => clear H | H : (_ <= _ ^ _)%Z |- _ => clear H end.
  rewrite ?minus_IZR, ?plus_IZR, ?mult_IZR in *.
  assert (P : IZR w * PI = 16 * (IZR w * atan (/ 5)) - 4 * (IZR w * atan (/ 239))).
  { replace PI with (4 * (PI / 4)) by field. rewrite Hpi. ring. }
  apply IZR_lt in H5. rewrite E in P at 1. split.
  - apply Rmult_le_reg_l with (IZR v); [lra|]. nra.
  - apply Rmult_lt_reg_l with (IZR v); [lra|]. nra.
Qed.

Lemma pi_digits : is_floor (real (10 ^ 721) * PI) pi_722.
Proof.
  assert (H : pi_check (10 ^ 721 * (239 * 10 ^ 8)) (239 * 10 ^ 8) 262 77 pi_722 = true)
    by (vm_compute; reflexivity).
  apply pi_check_ok in H. rewrite Z.div_mul in H by discriminate. exact H.
Qed.
