(** * Sines and the digits of pi *)
From Coq Require Import NArith ZArith List Reals Lra Lia Bool Machin Ratan AltSeries.
From Verif Require Import SpecConst ProofConst.
Import ListNotations.
Local Open Scope R_scope.

(** ** Sine and cosine of 1 *)

(** Partial sums of the series over the denominators [(2n+1)!] and [(2n)!]. *)
Fixpoint sinnum (n : nat) : Z :=
  match n with
  | O => 1
  | S m => sinnum m * (Z.of_nat (2 * m + 2) * Z.of_nat (2 * m + 3)) + (if Nat.odd m then 1 else -1)
  end.
Fixpoint cosnum (n : nat) : Z :=
  match n with
  | O => 1
  | S m => cosnum m * (Z.of_nat (2 * m + 1) * Z.of_nat (2 * m + 2)) + (if Nat.odd m then 1 else -1)
  end.

Lemma zfact_S2 k : zfact (S (S k)) = (Z.of_nat (S k) * Z.of_nat (S (S k)) * zfact k)%Z.
Proof. cbn [zfact]. ring. Qed.

Lemma sin_sum n : sin_approx 1 n = IZR (sinnum n) / IZR (zfact (2 * n + 1)).
Proof.
  unfold sin_approx. induction n as [|n IH].
  - cbn. unfold sin_term. cbn. lra.
  - cbn [sum_f_R0]. rewrite IH. unfold sin_term. rewrite INR_fact, minus1_pow, pow1.
    cbn [sinnum]. replace (2 * S n + 1)%nat with (S (S (2 * n + 1))) by lia. rewrite zfact_S2.
    replace (S (2 * n + 1)) with (2 * n + 2)%nat by lia. replace (S (2 * n + 2)) with (2 * n + 3)%nat by lia.
    rewrite plus_IZR, !mult_IZR, Nat.odd_succ, <- Nat.negb_odd.
    pose proof (IZR_lt _ _ (zfact_pos (2 * n + 1))). assert (0 < IZR (Z.of_nat (2 * n + 2))) by (apply IZR_lt; lia).
    assert (0 < IZR (Z.of_nat (2 * n + 3))) by (apply IZR_lt; lia).
    destruct (Nat.odd n); cbn [negb]; field; lra.
Qed.

Lemma cos_sum n : cos_approx 1 n = IZR (cosnum n) / IZR (zfact (2 * n)).
Proof.
  unfold cos_approx. induction n as [|n IH].
  - cbn. unfold cos_term. cbn. lra.
  - cbn [sum_f_R0]. rewrite IH. unfold cos_term. rewrite INR_fact, minus1_pow, pow1.
    cbn [cosnum]. replace (2 * S n)%nat with (S (S (2 * n))) by lia. rewrite zfact_S2.
    replace (S (2 * n)) with (2 * n + 1)%nat by lia. replace (S (2 * n + 1)) with (2 * n + 2)%nat by lia.
    rewrite plus_IZR, !mult_IZR, Nat.odd_succ, <- Nat.negb_odd.
    pose proof (IZR_lt _ _ (zfact_pos (2 * n))). assert (0 < IZR (Z.of_nat (2 * n + 1))) by (apply IZR_lt; lia).
    assert (0 < IZR (Z.of_nat (2 * n + 2))) by (apply IZR_lt; lia).
    destruct (Nat.odd n); cbn [negb]; field; lra.
Qed.

(** [s] approximates [x] with the scale [w]: the error is at most [e]. *)
Definition close (w : Z) (x : R) (s e : Z) : Prop := Rabs (IZR w * x - IZR s) <= IZR e.

Definition between (w lo dlo hi dhi s e : Z) : bool :=
  ((0 <? w) && (0 <? dlo) && (0 <? dhi) && ((s - e) * dlo <=? w * lo) && (w * hi <=? (s + e) * dhi))%Z.

Lemma between_ok w lo dlo hi dhi s e x : between w lo dlo hi dhi s e = true ->
  IZR lo / IZR dlo <= x <= IZR hi / IZR dhi -> close w x s e.
Proof.
  unfold between. intros H [L U]. repeat (apply andb_prop in H as [H ?]).
  repeat match goal with H : (_ <? _)%Z = true |- _ => apply Z.ltb_lt in H
                       | H : (_ <=? _)%Z = true |- _ => apply Z.leb_le in H end.
  apply IZR_lt in H, H2, H3. apply IZR_le in H0, H1. rewrite !mult_IZR, ?plus_IZR, ?minus_IZR in *.
  unfold close. apply Rabs_le.
  assert (A : IZR lo <= x * IZR dlo).
  { apply Rmult_le_reg_r with (/ IZR dlo); [now apply Rinv_0_lt_compat|].
    rewrite Rmult_assoc, Rinv_r, Rmult_1_r by lra. exact L. }
  assert (B : x * IZR dhi <= IZR hi).
  { apply Rmult_le_reg_r with (/ IZR dhi); [now apply Rinv_0_lt_compat|].
    rewrite Rmult_assoc, Rinv_r, Rmult_1_r by lra. exact U. }
  assert (IZR dlo * (IZR s - IZR e) <= IZR dlo * (IZR w * x)) by nra.
  assert (IZR dhi * (IZR w * x) <= IZR dhi * (IZR s + IZR e)) by nra.
  apply Rmult_le_reg_l in H4; [|lra]. apply Rmult_le_reg_l in H5; [|lra]. lra.
Qed.

Lemma PI_gt_2 : 2 < PI. Proof. pose proof PI2_1. lra. Qed.

Lemma sin_1_close n w s e :
  between w (sinnum (2 * n + 1)) (zfact (2 * (2 * n + 1) + 1))
            (sinnum (2 * (n + 1))) (zfact (2 * (2 * (n + 1)) + 1)) s e = true ->
  close w (sin 1) s e.
Proof.
  intros H. eapply between_ok; [exact H|]. rewrite <- !sin_sum. pose proof PI_gt_2. apply sin_bound; lra.
Qed.

Lemma cos_1_close n w s e :
  between w (cosnum (2 * n + 1)) (zfact (2 * (2 * n + 1)))
            (cosnum (2 * (n + 1))) (zfact (2 * (2 * (n + 1)))) s e = true ->
  close w (cos 1) s e.
Proof.
  intros H. eapply between_ok; [exact H|]. rewrite <- !cos_sum. pose proof PI_gt_2. apply cos_bound; lra.
Qed.

(** ** Sums of angles *)

Lemma product_close w x y s t e f : (0 < w)%Z -> (Z.abs t <= w)%Z -> (0 <= f)%Z -> Rabs x <= 1 ->
  close w x s e -> close w y t f -> Rabs (IZR w * IZR w * (x * y) - IZR (s * t)) <= IZR (w * (e + f)).
Proof.
  intros W T F X A B. unfold close in *. apply IZR_lt in W. apply IZR_le in F.
  assert (T' : Rabs (IZR t) <= IZR w) by (rewrite Rabs_Zabs; now apply IZR_le).
  replace (IZR w * IZR w * (x * y) - IZR (s * t))
    with (IZR w * x * (IZR w * y - IZR t) + IZR t * (IZR w * x - IZR s)) by (rewrite mult_IZR; ring).
  eapply Rle_trans; [apply Rabs_triang|]. rewrite !Rabs_mult, (Rabs_right (IZR w)) by lra.
  rewrite mult_IZR, plus_IZR. pose proof (Rabs_pos x). pose proof (Rabs_pos (IZR t)).
  pose proof (Rabs_pos (IZR w * y - IZR t)). pose proof (Rabs_pos (IZR w * x - IZR s)).
  apply Rle_trans with (IZR w * IZR f + IZR w * IZR e); [|lra]. apply Rplus_le_compat.
  - rewrite Rmult_assoc. apply Rmult_le_compat_l; [lra|]. nra.
  - apply Rmult_le_compat; assumption.
Qed.

Lemma abs_le_inv x e : Rabs x <= e -> - e <= x <= e.
Proof. unfold Rabs. destruct (Rcase_abs x); lra. Qed.

(** Rounding down a quotient. *)
Lemma quotient_close w x n e : (0 < w)%Z -> Rabs (IZR w * IZR w * x - IZR n) <= IZR (w * e) ->
  close w x (n / w) (e + 1).
Proof.
  intros W H. unfold close. pose proof (Z.div_mod n w ltac:(lia)) as D. pose proof (Z.mod_pos_bound n w W) as M.
  revert D M. generalize (n / w)%Z (n mod w)%Z. intros q r -> M.
  rewrite plus_IZR, !mult_IZR in *. apply IZR_lt in W. destruct M as [M1 M2]. apply IZR_le in M1. apply IZR_lt in M2.
  rewrite ?plus_IZR in *. apply Rabs_le. apply abs_le_inv in H.
  set (a := IZR w * x - IZR q). replace (IZR w * IZR w * x - (IZR w * IZR q + IZR r)) with (IZR w * a - IZR r) in H
    by (unfold a; ring).
  split; apply Rmult_le_reg_l with (IZR w); lra.
Qed.

Lemma sum_close w x x' n n' e e' : Rabs (IZR w * IZR w * x - IZR n) <= IZR (w * e) ->
  Rabs (IZR w * IZR w * x' - IZR n') <= IZR (w * e') ->
  Rabs (IZR w * IZR w * (x + x') - IZR (n + n')) <= IZR (w * (e + e')) /\
  Rabs (IZR w * IZR w * (x - x') - IZR (n - n')) <= IZR (w * (e + e')).
Proof.
  intros H H'. apply abs_le_inv in H, H'. rewrite plus_IZR, minus_IZR, !mult_IZR, plus_IZR in *.
  split; apply Rabs_le; lra.
Qed.

(** From [i] to [i + 1]. *)
Definition turn (w s1 c1 : Z) (st : Z * Z * Z) (e1 : Z) : Z * Z * Z :=
  let '(s, c, e) := st in (((s * c1 + c * s1) / w)%Z, ((c * c1 - s * s1) / w)%Z, (2 * (e + e1) + 1)%Z).

Definition close_state (w : Z) (x : R) (st : Z * Z * Z) : Prop :=
  let '(s, c, e) := st in close w (sin x) s e /\ close w (cos x) c e.

Lemma sin_abs x : Rabs (sin x) <= 1. Proof. apply Rabs_le, SIN_bound. Qed.
Lemma cos_abs x : Rabs (cos x) <= 1. Proof. apply Rabs_le, COS_bound. Qed.

Lemma turn_ok w s1 c1 e1 st x : (0 < w)%Z -> (Z.abs s1 <= w)%Z -> (Z.abs c1 <= w)%Z -> (0 <= e1)%Z ->
  close_state w 1 (s1, c1, e1) -> close_state w x st -> close_state w (x + 1) (turn w s1 c1 st e1).
Proof.
  intros W S1 C1 E1 [As Ac]. destruct st as [[s c] e]. intros [Bs Bc]. unfold turn, close_state.
  pose proof (sin_abs x). pose proof (cos_abs x).
  replace (2 * (e + e1) + 1)%Z with ((e + e1) + (e + e1) + 1)%Z by ring.
  rewrite sin_plus, cos_plus. split; apply quotient_close; auto; apply sum_close; apply product_close; auto.
Qed.

(** [T] is the integer part of [2^32 |sin x|]; the scale is [2^32 * v]. *)
Definition sine_check (v : Z) (st : Z * Z * Z) (t : N) : bool :=
  let '(s, _, e) := st in ((0 <? v) && (Z.of_N t * v <=? Z.abs s - e) && (Z.abs s + e <? (Z.of_N t + 1) * v))%Z.

Lemma sine_check_ok v st x t : sine_check v st t = true -> close_state (2 ^ 32 * v) x st ->
  is_floor (real (2 ^ 32) * Rabs (sin x)) t.
Proof.
  unfold sine_check, close_state. destruct st as [[s c] e]. intros H [C _].
  repeat (apply andb_prop in H as [H ?]). apply Z.ltb_lt in H, H0. apply Z.leb_le in H1.
  unfold close in C. pose proof (Rabs_triang_inv2 (IZR (2 ^ 32 * v) * sin x) (IZR s)) as T.
  rewrite Rabs_mult in T. rewrite (Rabs_Zabs s), mult_IZR in T. rewrite mult_IZR in C.
  apply IZR_lt in H, H0. apply IZR_le in H1. rewrite mult_IZR, ?plus_IZR, ?minus_IZR in *.
  set (w := IZR (2 ^ 32)) in *. assert (W : 0 < w) by (apply IZR_lt; reflexivity).
  rewrite (Rabs_right (w * IZR v)) in T by nra.
  unfold is_floor. change (real (2 ^ 32)) with w. unfold real.
  assert (U := Rle_trans _ _ _ T C). apply abs_le_inv in U. clearbody w. clear T C.
  set (a := Rabs (sin x)) in *. clearbody a. rewrite ?mult_IZR, ?plus_IZR in *.
  split.
  - apply Rmult_le_reg_l with (IZR v); [lra|]. nra.
  - apply Rmult_lt_reg_l with (IZR v); [lra|]. nra.
Qed.

Fixpoint sine_table (v w s1 c1 e1 : Z) (st : Z * Z * Z) (ts : list N) : bool :=
  match ts with
  | [] => true
  | t :: ts => sine_check v st t && sine_table v w s1 c1 e1 (turn w s1 c1 st e1) ts
  end.

Lemma sine_table_ok v w s1 c1 e1 ts : w = (2 ^ 32 * v)%Z -> (0 < w)%Z ->
  (Z.abs s1 <= w)%Z -> (Z.abs c1 <= w)%Z -> (0 <= e1)%Z -> close_state w 1 (s1, c1, e1) ->
  forall st x, sine_table v w s1 c1 e1 st ts = true -> close_state w x st ->
  forall i, (i < length ts)%nat -> is_floor (real (2 ^ 32) * Rabs (sin (x + INR i))) (nth i ts 0%N).
Proof.
  intros Ew W S1 C1 E1 A. induction ts as [|t ts IH]; intros st x H B i Hi; [cbn in Hi; lia|].
  cbn [sine_table] in H. apply andb_prop in H as [H1 H2]. destruct i as [|i].
  - cbn [nth INR]. rewrite Rplus_0_r. rewrite Ew in B. now apply (sine_check_ok v st).
  - cbn [nth]. rewrite S_INR. replace (x + (INR i + 1)) with (x + 1 + INR i) by ring.
    apply (IH (turn w s1 c1 st e1)); [exact H2|now apply turn_ok|cbn in Hi; lia].
Qed.

(** The scale is [2^160]. *)
Definition sine_w : Z := 2 ^ 160.
Definition sine_s : Z := Eval vm_compute in (2 ^ 160 * sinnum 23 / zfact 47)%Z.
Definition sine_c : Z := Eval vm_compute in (2 ^ 160 * cosnum 23 / zfact 46)%Z.

Lemma sine_start : close_state sine_w 1 (sine_s, sine_c, 2%Z).
Proof.
  split; [apply (sin_1_close 11)|apply (cos_1_close 11)]; vm_compute; reflexivity.
Qed.

Lemma sines ts : sine_table (2 ^ 128) sine_w sine_s sine_c 2 (sine_s, sine_c, 2%Z) ts = true ->
  forall i, (i < length ts)%nat -> is_floor (real (2 ^ 32) * Rabs (sin (INR (S i)))) (nth i ts 0%N).
Proof.
  intros H i Hi. rewrite S_INR, Rplus_comm.
  apply (sine_table_ok (2 ^ 128) sine_w sine_s sine_c 2 ts) with (st := (sine_s, sine_c, 2%Z));
    try reflexivity; try discriminate; auto using sine_start.
Qed.
