(** * Roots of primes, and the constants of RC5 *)
From Coq Require Import NArith ZArith List Reals Lra Lia Znumtheory Bool Rfunctions Arith.
From Verif Require Import SpecRsa SpecSha SpecMd ProofPrime SpecConst.
Import ListNotations.
Local Open Scope R_scope.

(** ** Primes *)

Lemma is_prime_iff n : (n < 441)%N -> is_prime n = true <-> prime_N n.
Proof.
  intros Hn. unfold is_prime, prime_N. rewrite andb_true_iff, N.leb_le, forallb_forall. split.
  - intros [H2 H]. destruct (prime_dec (Z.of_N n)) as [P|P]; [exact P|exfalso].
    destruct (small_prime_divisor (Z.of_N n)) as (q & Pq & [k Hk] & Hq); [lia|exact P|].
    pose proof (prime_ge_2 q Pq). assert (q < 21)%Z by nia.
    specialize (H (Z.to_N q)). assert (I : In (Z.to_N q) (map N.of_nat (seq 2 19))).
    { apply in_map_iff. exists (Z.to_nat q). split; [lia|]. apply in_seq. lia. }
    apply H in I. apply orb_true_iff in I as [I|I].
    + apply N.ltb_lt in I. nia.
    + apply negb_true_iff, N.eqb_neq in I. apply I. apply N.mod_divide; [lia|].
      exists (Z.to_N k). nia.
  - intros P. pose proof (prime_ge_2 _ P). split; [lia|]. intros d Hd.
    apply in_map_iff in Hd as (i & <- & Hi). apply in_seq in Hi.
    destruct (N.ltb_spec n (N.of_nat i * N.of_nat i)); [reflexivity|]. cbn [orb].
    apply negb_true_iff, N.eqb_neq. intros E. apply N.mod_divide in E; [|lia]. destruct E as [k Hk].
    assert (D : (Z.of_nat i | Z.of_N n)%Z) by (exists (Z.of_N k); nia).
    apply prime_divisors in D; [|exact P]. nia.
Qed.

Definition prime_list : list N := Eval vm_compute in first_primes 80.
Definition prime_at (i : nat) : N := nth i prime_list 0%N.

Lemma prime_list_check : filter is_prime (map N.of_nat (seq 0 410)) = prime_list.
Proof. vm_compute. reflexivity. Qed.

Lemma prime_list_iff q : In q prime_list <-> prime_N q /\ (q < 410)%N.
Proof.
  rewrite <- prime_list_check, filter_In, in_map_iff. split.
  - intros [(i & <- & Hi) E]. apply in_seq in Hi. split; [apply is_prime_iff; [lia|exact E]|lia].
  - intros [Pq L]. split; [|apply is_prime_iff; [lia|exact Pq]].
    exists (N.to_nat q). split; [lia|]. apply in_seq. lia.
Qed.

Lemma NoDup_app_left {A} (a b : list A) : NoDup (a ++ b) -> NoDup a.
Proof.
  induction a as [|x a IH]; cbn [app]; intros H; constructor; inversion H; subst.
  - intros I. apply H2, in_or_app. now left.
  - now apply IH.
Qed.

Lemma prime_list_NoDup : NoDup prime_list.
Proof.
  rewrite <- prime_list_check. apply NoDup_filter, FinFun.Injective_map_NoDup; [|apply seq_NoDup].
  intros x y. apply Nat2N.inj.
Qed.

Lemma prime_list_sorted : forallb (fun i =>
  forallb (fun q => q <? prime_at i)%N (firstn i prime_list) &&
  forallb (fun q => prime_at i <=? q)%N (skipn i prime_list)) (seq 0 80) = true.
Proof. vm_compute. reflexivity. Qed.

Lemma prime_at_nth i : (i < 80)%nat -> nth_prime i (prime_at i).
Proof.
  intros H. pose proof prime_list_sorted as C. rewrite forallb_forall in C.
  specialize (C i). rewrite in_seq in C. specialize (C ltac:(lia)).
  apply andb_prop in C as [C1 C2]. rewrite forallb_forall in C1, C2.
  assert (L : length prime_list = 80%nat) by reflexivity.
  assert (I : In (prime_at i) prime_list) by (apply nth_In; rewrite L; exact H).
  apply prime_list_iff in I as [P B]. split; [exact P|].
  exists (firstn i prime_list). split; [apply firstn_length_le; rewrite L; lia|].
  pose proof prime_list_NoDup as ND. rewrite <- (firstn_skipn i prime_list) in ND.
  split; [now apply NoDup_app_left in ND|]. intros q. split.
  - intros Hq. split; [|apply N.ltb_lt; auto]. apply prime_list_iff.
    rewrite <- (firstn_skipn i prime_list). apply in_or_app. auto.
  - intros [Pq Lq]. assert (Iq : In q prime_list) by (apply prime_list_iff; split; [exact Pq|lia]).
    rewrite <- (firstn_skipn i prime_list) in Iq. apply in_app_or in Iq as [Iq|Iq]; [exact Iq|].
    apply C2, N.leb_le in Iq. lia.
Qed.

(** ** Integer parts of roots *)

Lemma real_add a b : real (a + b) = real a + real b.
Proof. unfold real. now rewrite N2Z.inj_add, plus_IZR. Qed.
Lemma real_mul a b : real (a * b) = real a * real b.
Proof. unfold real. now rewrite N2Z.inj_mul, mult_IZR. Qed.
Lemma real_le a b : (a <= b)%N -> real a <= real b.
Proof. intros H. apply IZR_le. lia. Qed.
Lemma real_lt a b : (a < b)%N -> real a < real b.
Proof. intros H. apply IZR_lt. lia. Qed.
Lemma real_0 : real 0 = 0. Proof. reflexivity. Qed.
Lemma real_1 : real 1 = 1. Proof. reflexivity. Qed.
Lemma real_pos a : 0 <= real a.
Proof. apply IZR_le. lia. Qed.

Lemma frac_bits_floor b x n : 0 <= x -> is_floor (real (2 ^ b) * x) n ->
  frac_bits b x (n mod 2 ^ b).
Proof.
  intros Hx [H1 H2]. unfold frac_bits, is_floor, frac_part.
  assert (Hb : 1 <= real (2 ^ b)).
  { change 1 with (real 1). apply real_le. pose proof (N.pow_nonzero 2 b). lia. }
  assert (E : IZR (Int_part x) = real (n / 2 ^ b)).
  { unfold real. f_equal. pose proof (N.div_mod' n (2 ^ b)) as D.
    pose proof (N.mod_lt n (2 ^ b) ltac:(apply N.pow_nonzero; lia)) as M.
    revert D M. generalize (n mod 2 ^ b)%N, (n / 2 ^ b)%N. intros r q D M.
    apply (f_equal real) in D. rewrite real_add, real_mul in D.
    assert (R1 : real r + 1 <= real (2 ^ b)).
    { change 1 with (real 1). rewrite <- real_add. apply real_le. lia. }
    pose proof (real_pos r) as R0.
    destruct (base_Int_part x) as [B1 B2].
    assert (L1 : real q <= x) by nra.
    assert (L2 : x < real q + 1) by nra.
    assert (IZR (Int_part x) < IZR (Z.of_N q) + 1) by (unfold real in *; lra).
    assert (IZR (Z.of_N q) < IZR (Int_part x) + 1) by (unfold real in *; lra).
    rewrite <- plus_IZR in *. repeat match goal with H : (IZR _ < IZR _)%R |- _ => apply lt_IZR in H end. lia. }
  rewrite E. pose proof (N.div_mod' n (2 ^ b)) as D. apply (f_equal real) in D.
  rewrite real_add, real_mul in D. lra.
Qed.

Lemma pow_lt_inv k x y : 0 <= y -> x ^ k < y ^ k -> x < y.
Proof.
  intros Hy H. destruct (Rlt_le_dec x y) as [L|L]; [exact L|exfalso].
  pose proof (pow_incr y x k (conj Hy L)). lra.
Qed.

Lemma real_pow a (k : nat) : real (a ^ N.of_nat k) = real a ^ k.
Proof.
  induction k as [|k IH]; [reflexivity|].
  rewrite Nat2N.inj_succ, N.pow_succ_r by lia. rewrite real_mul, IH. reflexivity.
Qed.

(** [r] is a [k]-th root of [p]. *)
Lemma floor_root (k : nat) (s p n : N) (r : R) : (0 < k)%nat -> 0 <= r -> r ^ k = real p ->
  (n ^ N.of_nat k <= p * s ^ N.of_nat k)%N -> (p * s ^ N.of_nat k < (n + 1) ^ N.of_nat k)%N ->
  is_floor (real s * r) n.
Proof.
  intros Hk Hr E H1 H2. apply real_le in H1. apply real_lt in H2.
  rewrite real_mul, !real_pow in *. rewrite <- E, <- Rpow_mult_distr in *.
  rewrite real_add, real_1 in H2. pose proof (real_pos s). pose proof (real_pos n).
  assert (0 <= real s * r) by nra. rewrite (Rmult_comm r) in *. split.
  - apply Rnot_lt_le. intros L.
    assert (C : (real s * r) ^ k < real n ^ k); [|lra].
    clear -L Hk H3. destruct k; [lia|]. clear Hk.
    induction k as [|k IH]; [rewrite !pow_1; exact L|].
    cbn [pow] in *. apply Rmult_le_0_lt_compat; auto.
    apply (pow_le (real s * r) (S k)), H3.
  - apply (pow_lt_inv k); [lra|exact H2].
Qed.

Lemma sqrt_real_pow p : sqrt (real p) ^ 2 = real p.
Proof. cbn [pow]. rewrite Rmult_1_r. apply sqrt_sqrt, real_pos. Qed.

Lemma cube_root_pow p : (0 < p)%N -> cube_root_of p ^ 3 = real p.
Proof.
  intros H. apply real_lt in H. rewrite real_0 in H. unfold cube_root_of.
  rewrite <- Rpower_pow by apply exp_pos. rewrite Rpower_mult.
  replace (/ 3 * INR 3) with 1 by (cbn [INR]; lra). now apply Rpower_1.
Qed.

Definition root_check (k : nat) (s p n : N) : bool :=
  (n ^ N.of_nat k <=? p * s ^ N.of_nat k)%N && (p * s ^ N.of_nat k <? (n + 1) ^ N.of_nat k)%N.

Lemma root_check_ok k s p n r : (0 < k)%nat -> 0 <= r -> r ^ k = real p ->
  root_check k s p n = true -> is_floor (real s * r) n.
Proof.
  intros Hk Hr E H. apply andb_prop in H as [H1 H2]. apply N.leb_le in H1. apply N.ltb_lt in H2.
  now apply (floor_root k s p n r).
Qed.

Lemma sqrt_floor s p n : root_check 2 s p n = true -> is_floor (real s * sqrt (real p)) n.
Proof.
  apply root_check_ok; [lia|apply sqrt_pos|apply sqrt_real_pow].
Qed.

Lemma sqrt_bits b p n : root_check 2 (2 ^ b) p n = true -> frac_bits b (sqrt (real p)) (n mod 2 ^ b).
Proof. intros H. apply frac_bits_floor; [apply sqrt_pos|now apply sqrt_floor]. Qed.

Lemma cube_root_bits_ok b p n : (0 < p)%N -> root_check 3 (2 ^ b) p n = true ->
  frac_bits b (cube_root_of p) (n mod 2 ^ b).
Proof.
  intros Hp H. assert (0 <= cube_root_of p) by (apply Rlt_le, exp_pos).
  apply frac_bits_floor; [assumption|]. apply (root_check_ok 3 _ p); [lia|assumption|now apply cube_root_pow|assumption].
Qed.

(** Tables of bits of roots of consecutive primes, starting with prime [i0]. *)
Definition root_table (k : nat) (root : N -> N) (b : N) (i0 : nat) (t : list N) : bool :=
  forallb (fun i => let p := prime_at (i0 + i) in let x := nth i t 0%N in
                    root_check k (2 ^ b) p (x + root p * 2 ^ b) && (x <? 2 ^ b)%N && (0 <? p)%N)
    (seq 0 (length t)).

Lemma root_table_ok k root b i0 t i : root_table k root b i0 t = true -> (i < length t)%nat ->
  (i0 + i < 80)%nat ->
  exists p n, nth_prime (i0 + i) p /\ (0 < p)%N /\ root_check k (2 ^ b) p n = true /\
    nth i t 0%N = (n mod 2 ^ b)%N.
Proof.
  intros H Hi H80. unfold root_table in H. rewrite forallb_forall in H. specialize (H i).
  rewrite in_seq in H. specialize (H ltac:(lia)). cbv zeta in H.
  apply andb_prop in H as [H H3]. apply andb_prop in H as [H1 H2]. apply N.ltb_lt in H2, H3.
  exists (prime_at (i0 + i)), (nth i t 0 + root (prime_at (i0 + i)) * 2 ^ b)%N.
  split; [now apply prime_at_nth|]. split; [exact H3|]. split; [exact H1|].
  rewrite N.mod_add by (apply N.pow_nonzero; discriminate). symmetry. now apply N.mod_small.
Qed.

Definition cube_table (b : N) := root_table 3 (cube_root 3) b.
Definition square_table (b : N) := root_table 2 N.sqrt b.

Lemma cube_table_ok b i0 t i : cube_table b i0 t = true -> (i < length t)%nat -> (i0 + i < 80)%nat ->
  exists p, nth_prime (i0 + i) p /\ frac_bits b (cube_root_of p) (nth i t 0%N).
Proof.
  intros H Hi H80. destruct (root_table_ok _ _ _ _ _ _ H Hi H80) as (p & n & P & H0 & C & E).
  exists p. split; [exact P|]. rewrite E. now apply cube_root_bits_ok.
Qed.

Lemma square_table_ok b i0 t i : square_table b i0 t = true -> (i < length t)%nat -> (i0 + i < 80)%nat ->
  exists p, nth_prime (i0 + i) p /\ frac_bits b (sqrt (real p)) (nth i t 0%N).
Proof.
  intros H Hi H80. destruct (root_table_ok _ _ _ _ _ _ H Hi H80) as (p & n & P & H0 & C & E).
  exists p. split; [exact P|]. rewrite E. now apply sqrt_bits.
Qed.

(** The low 32 of the first 64 bits. *)
Lemma square_table_low i0 t t' i : square_table 64 i0 t' = true -> (i < length t')%nat -> (i0 + i < 80)%nat ->
  t = map (fun x => x mod 2 ^ 32)%N t' ->
  exists p k, nth_prime (i0 + i) p /\ frac_bits 64 (sqrt (real p)) k /\ nth i t 0%N = (k mod 2 ^ 32)%N.
Proof.
  intros H Hi H80 ->. destruct (square_table_ok _ _ _ _ H Hi H80) as (p & P & F).
  exists p, (nth i t' 0%N). split; [exact P|]. split; [exact F|].
  exact (map_nth (fun x => x mod 2 ^ 32)%N t' 0%N i).
Qed.

(** ** The constants of RC5 *)

Fixpoint zfact (n : nat) : Z := match n with O => 1 | S m => Z.of_nat (S m) * zfact m end.

Lemma zfact_pos n : (0 < zfact n)%Z.
Proof. induction n; cbn [zfact]; lia. Qed.

Lemma INR_fact n : INR (fact n) = IZR (zfact n).
Proof.
  induction n as [|n IH]; [reflexivity|]. cbn [zfact]. rewrite fact_simpl, mult_INR, mult_IZR, IH.
  now rewrite INR_IZR_INZ.
Qed.

(** Partial sums of the series of [exp (-1)] over the denominator [n!]. *)
Fixpoint expnum (n : nat) : Z :=
  match n with O => 1 | S m => expnum m * Z.of_nat (S m) + (if Nat.odd m then 1 else -1) end.

Lemma minus1_pow n : (-1) ^ n = IZR (if Nat.odd n then -1 else 1).
Proof.
  induction n as [|n IH]; [reflexivity|]. cbn [pow]. rewrite IH, Nat.odd_succ, <- Nat.negb_odd.
  destruct (Nat.odd n); cbn [negb]; lra.
Qed.

Lemma exp_sum n : sum_f_R0 (tg_alt (fun i => / INR (fact i))) n = IZR (expnum n) / IZR (zfact n).
Proof.
  induction n as [|n IH].
  - cbn. unfold tg_alt. cbn. lra.
  - cbn [sum_f_R0]. rewrite IH. unfold tg_alt. rewrite INR_fact, minus1_pow.
    cbn [expnum zfact]. rewrite plus_IZR, !mult_IZR, Nat.odd_succ, <- Nat.negb_odd.
    pose proof (IZR_lt _ _ (zfact_pos n)). assert (0 < IZR (Z.of_nat (S n))) by (apply IZR_lt; lia).
    destruct (Nat.odd n); cbn [negb]; field; lra.
Qed.

Lemma exp_m1_bounds n :
  IZR (expnum (S (2 * n))) / IZR (zfact (S (2 * n))) <= exp (-1) <=
  IZR (expnum (2 * n)) / IZR (zfact (2 * n)).
Proof.
  rewrite <- !exp_sum. apply alternated_series_ineq.
  - intros i. rewrite !INR_fact. apply Rinv_le_contravar; [apply IZR_lt, zfact_pos|].
    apply IZR_le. cbn [zfact]. pose proof (zfact_pos i). nia.
  - intros e He. destruct (cv_speed_pow_fact 1 e He) as [M HM]. exists M. intros i Hi. specialize (HM i Hi).
    rewrite pow1 in HM. unfold Rdiv in HM. now rewrite Rmult_1_l in HM.
  - intros e He. unfold exp. destruct (exist_exp (-1)) as [l Hl]. cbn [proj1_sig].
    destruct (Hl e He) as [M HM]. exists M. intros i Hi. specialize (HM i Hi).
    erewrite sum_eq; [exact HM|]. intros j _. unfold tg_alt. ring.
Qed.

Definition e_check (n : nat) (k : N) : bool :=
  let A := zfact (2 * n) in let B := expnum (2 * n) in
  let A' := zfact (S (2 * n)) in let B' := expnum (S (2 * n)) in
  let z := Z.of_N k in
  ((0 <? B) && (0 <? B') && ((z - 1) * B <=? 2 ^ 32 * (A - 2 * B)) &&
   (2 ^ 32 * (A' - 2 * B') <? (z + 1) * B') && N.odd k)%Z.

Lemma e_check_ok n k : e_check n k = true -> nearest_odd (real (2 ^ 32) * (exp 1 - 2)) k.
Proof.
  unfold e_check. cbv zeta. intros H. repeat (apply andb_prop in H as [H ?]).
  repeat match goal with H : (_ <? _)%Z = true |- _ => apply Z.ltb_lt in H
                       | H : (_ <=? _)%Z = true |- _ => apply Z.leb_le in H end.
  split; [assumption|].
  destruct (exp_m1_bounds n) as [L U]. pose proof (exp_pos (-1)) as E0. pose proof (exp_pos 1) as E1.
  assert (E : exp 1 * exp (-1) = 1).
  { rewrite <- exp_plus. replace (1 + -1) with 0 by lra. apply exp_0. }
  pose proof (zfact_pos (2 * n)) as F. pose proof (zfact_pos (S (2 * n))) as F'.
  revert L U F F' H H1 H2 H3. generalize (zfact (2 * n)) (expnum (2 * n)) (zfact (S (2 * n))) (expnum (S (2 * n))).
  intros A B A' B' L U F F' H H1 H2 H3.
  apply IZR_lt in F, F', H, H3. apply IZR_le in H2. apply IZR_lt in H1.
  rewrite !mult_IZR, !minus_IZR, ?plus_IZR, !mult_IZR in *.
  change (real (2 ^ 32)) with (IZR (2 ^ 32)). unfold real.
  set (w := IZR (2 ^ 32)) in *. assert (W : 0 < w) by (apply IZR_lt; reflexivity). clearbody w.
  set (z := IZR (Z.of_N k)) in *. clearbody z. set (x := exp 1) in *. set (y := exp (-1)) in *. clearbody x y.
  assert (M1 : IZR B' <= y * IZR A').
  { apply Rmult_le_reg_r with (/ IZR A'); [now apply Rinv_0_lt_compat|].
    rewrite Rmult_assoc, Rinv_r, Rmult_1_r by lra. exact L. }
  assert (M2 : y * IZR A <= IZR B).
  { apply Rmult_le_reg_r with (/ IZR A); [now apply Rinv_0_lt_compat|].
    rewrite Rmult_assoc, Rinv_r, Rmult_1_r by lra. exact U. }
  assert (N1 : IZR B' * x <= IZR A') by nra.
  assert (N2 : IZR A <= IZR B * x) by nra.
  clear L U M1 M2 E E0. split.
  - assert (IZR B' * (w * (x - 2)) < IZR B' * (z + 1)) by nra.
    apply Rmult_lt_reg_l in H4; lra.
  - assert (IZR B * (z - 1) <= IZR B * (w * (x - 2))) by nra.
    apply Rmult_le_reg_l in H4; lra.
Qed.

(** [phi - 1 = (sqrt 5 - 1) / 2]; so twice the product is [2^32 sqrt 5 - 2^32]. *)
Lemma golden_check_ok k : N.odd k = true -> root_check 2 (2 ^ 32) 5 (2 * k + 2 ^ 32) = true ->
  nearest_odd (real (2 ^ 32) * (golden_ratio - 1)) k.
Proof.
  intros O H. split; [exact O|]. apply sqrt_floor in H. unfold golden_ratio.
  change (real 5) with 5 in H. destruct H as [H1 H2]. rewrite real_add, real_mul in H1, H2.
  change (real 2) with 2 in *. set (w := real (2 ^ 32)) in *. lra.
Qed.

Lemma nearest_odd_unique x n m : nearest_odd x n -> nearest_odd x m -> n = m.
Proof.
  intros [O1 H1] [O2 H2]. unfold real in *.
  assert (A : IZR (Z.of_N n) < IZR (Z.of_N m) + 2) by lra.
  assert (B : IZR (Z.of_N m) < IZR (Z.of_N n) + 2) by lra.
  rewrite <- plus_IZR in A, B. apply lt_IZR in A, B.
  apply N.odd_spec in O1 as [a ->]. apply N.odd_spec in O2 as [b ->]. lia.
Qed.

Lemma is_floor_unique x n m : is_floor x n -> is_floor x m -> n = m.
Proof.
  intros H1 H2. unfold is_floor, real in *.
  assert (A : IZR (Z.of_N n) < IZR (Z.of_N m) + 1) by lra.
  assert (B : IZR (Z.of_N m) < IZR (Z.of_N n) + 1) by lra.
  rewrite <- plus_IZR in A, B. apply lt_IZR in A, B. lia.
Qed.

(** ** SHA-1 and MD4 *)

Lemma sha1_constants t : (t < 80)%nat ->
  is_floor (real (2 ^ 30) * sqrt (real (nth (t / 20) [2; 3; 5; 10]%N 0%N))) (sha1_k t).
Proof.
  intros H. unfold sha1_k. apply sqrt_floor. assert (t / 20 < 4)%nat by (apply Nat.div_lt_upper_bound; lia).
  destruct (t / 20)%nat as [|[|[|[|?]]]]; [vm_compute; reflexivity..|lia].
Qed.

Definition md4_check (i : nat) : bool :=
  let '(_, _, _, t) := nth i md4_ops (F4, O, 0, 0)%N in
  if (i <? 16)%nat then (t =? 0)%N else root_check 2 (2 ^ 30) (if (i <? 32)%nat then 2 else 3) t.

Lemma md4_constants i : (i < 48)%nat -> let '(_, _, _, t) := nth i md4_ops (F4, O, 0, 0)%N in
  if (i <? 16)%nat then t = 0%N else
  is_floor (real (2 ^ 30) * sqrt (real (if (i <? 32)%nat then 2 else 3)%N)) t.
Proof.
  intros H. assert (C : forallb md4_check (seq 0 48) = true) by (vm_compute; reflexivity).
  rewrite forallb_forall in C. specialize (C i). rewrite in_seq in C. specialize (C ltac:(lia)).
  unfold md4_check in C. destruct (nth i md4_ops (F4, O, 0, 0)%N) as [[[f k] s] t].
  destruct (i <? 16)%nat; [now apply N.eqb_eq|now apply sqrt_floor].
Qed.
