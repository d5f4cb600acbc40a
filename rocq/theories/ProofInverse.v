(** * [inverse] for every modulus, with and without overflow checks *)
From Coq Require Import ZifyBool ZifyNat ZifyN Znumtheory.
From Verif Require Import Base BaseLemmas ModelBig ModelRsa SpecRsa SpecRelease ProofRsa ProofRelease.
Ltac Zify.zify_post_hook ::= Z.div_mod_to_equations.

Definition p127 : Z := 170141183460469231731687303715884105728.
Definition p128 : Z := 340282366920938463463374607431768211456.
Lemma p127_eq : (2 ^ 127 = p127)%Z. Proof. reflexivity. Qed.
Lemma p128_eq : (2 ^ 128 = p128)%Z. Proof. reflexivity. Qed.
Lemma p127_N : 2 ^ 127 = 170141183460469231731687303715884105728. Proof. reflexivity. Qed.
Lemma p128_N : 2 ^ 128 = 340282366920938463463374607431768211456. Proof. reflexivity. Qed.

Lemma as_i128_any x : exists k, as_i128 x = (Z.of_N x - k * p128)%Z /\ (- p127 <= as_i128 x < p127)%Z.
Proof.
  unfold as_i128. rewrite p127_eq, p128_N.
  change (2 ^ 128)%Z with p128. unfold p127, p128.
  destruct (Z.ltb_spec (Z.of_N (x mod 340282366920938463463374607431768211456))
    170141183460469231731687303715884105728).
  - exists (Z.of_N (x / 340282366920938463463374607431768211456)). lia.
  - exists (Z.of_N (x / 340282366920938463463374607431768211456) + 1)%Z. lia.
Qed.

Lemma as_i128_large x : 2 ^ 127 <= x < 2 ^ 128 -> as_i128 x = (Z.of_N x - p128)%Z.
Proof.
  intros H. destruct (as_i128_any x) as (k & E & B). rewrite p127_N, p128_N in H. unfold p127, p128 in *.
  assert (k = 1)%Z by lia. lia.
Qed.

Lemma ci128_release z : exists y, @ci128 release z = Ok y /\ (- p127 <= y < p127)%Z /\ (p128 | y - z)%Z.
Proof.
  unfold ci128. rewrite p127_eq.
  destruct ((- p127 <=? z)%Z && (z <? p127)%Z)%bool eqn:E.
  - apply andb_prop in E. destruct E as [E1 E2]. exists z. split; [reflexivity|]. split; [lia|].
    rewrite Z.sub_diag. apply Z.divide_0_r.
  - cbn [overflow_checks release]. rewrite p128_eq.
    destruct (as_i128_any (Z.to_N (z mod p128))) as (k & E1 & E2).
    eexists. split; [reflexivity|]. split; [exact E2|]. rewrite E1.
    pose proof (Z.mod_pos_bound z p128 eq_refl). rewrite Z2N.id by lia.
    exists (- (z / p128) - k)%Z. pose proof (Z.div_mod z p128 ltac:(discriminate)). lia.
Qed.

Lemma divide_128_eq x y : (p128 | x - y)%Z -> (- p127 <= x < p127)%Z -> (- p127 <= y < p127)%Z -> x = y.
Proof. intros [k K] Hx Hy. unfold p127, p128 in *. lia. Qed.

Lemma abs_step t q nt : (0 <= q -> t * nt <= 0 ->
  Z.abs (t - q * nt) = Z.abs t + q * Z.abs nt)%Z.
Proof.
  intros Hq I5.
  destruct (Z.lt_trichotomy nt 0) as [S1|[->|S1]].
  - assert (0 <= t)%Z by nia. assert (q * nt <= 0)%Z by nia.
    rewrite (Z.abs_neq nt), !Z.abs_eq by lia. ring.
  - rewrite Z.abs_0, !Z.mul_0_r, Z.sub_0_r. ring.
  - assert (t <= 0)%Z by nia. assert (0 <= q * nt)%Z by nia.
    rewrite (Z.abs_eq nt), !Z.abs_neq by lia. ring.
Qed.

(** One step of the loop on the ideal values. *)
Lemma inv_state_step a n r nr t nt : 0 < r -> 0 < nr <= r -> inv_state a n r nr t nt ->
  let q := r / nr in
  inv_state a n nr (r mod nr) nt (t - Z.of_N q * nt) /\
  (Z.of_N r * Z.abs nt <= Z.of_N n)%Z /\
  (Z.of_N r * Z.abs nt + Z.of_N nr * Z.abs t = Z.of_N n)%Z /\
  (Z.abs (t - Z.of_N q * nt) = Z.abs t + Z.of_N q * Z.abs nt)%Z.
Proof.
  intros Pr [Pn L] I q. destruct I as [I1 I2 I3 I4 I5 I6].
  assert (Hz : nr <> 0) by lia.
  pose proof (N.div_mod r nr Hz) as D. pose proof (N.mod_lt r nr Hz) as M. fold q in D.
  set (x := r mod nr) in *.
  assert (Q1 : 1 <= q) by (apply N.div_le_lower_bound; lia).
  assert (Hq : q * nr <= r) by lia.
  assert (Hx : r - q * nr = x) by lia.
  destruct (inverse_step_Z (Z.of_N r) (Z.of_N nr) (Z.of_N q) (Z.of_N x) t nt (Z.of_N n))
    as (Hnt & Hqnt & Hq' & E4 & Ht' & S4); try lia.
  split; [constructor|].
  - rewrite <- Hx. rewrite gcd_sub_mul by auto. exact I1.
  - exact I3.
  - assert (Dz : (Z.of_N x = Z.of_N r - Z.of_N q * Z.of_N nr)%Z) by lia. rewrite Dz.
    replace (Z.of_N r - Z.of_N q * Z.of_N nr - (t - Z.of_N q * nt) * Z.of_N a)%Z
      with ((Z.of_N r - t * Z.of_N a) - Z.of_N q * (Z.of_N nr - nt * Z.of_N a))%Z by ring.
    apply Z.divide_sub_r; auto. now apply Z.divide_mul_r.
  - exact E4.
  - exact S4.
  - exact Hnt.
  - split; [|split; [exact I4|]].
    + assert (0 <= Z.of_N nr * Z.abs t)%Z by (apply Z.mul_nonneg_nonneg; lia). lia.
    + apply abs_step; lia.
Qed.

Lemma euclid_fuel r nr fuel : 0 < nr <= r -> r * nr < 2 ^ N.of_nat (S fuel) ->
  nr * (r mod nr) < 2 ^ N.of_nat fuel.
Proof.
  intros L F. assert (Hz : nr <> 0) by lia.
  pose proof (N.div_mod r nr Hz) as D. pose proof (N.mod_lt r nr Hz) as M.
  assert (Q1 : 1 <= r / nr) by (apply N.div_le_lower_bound; lia).
  rewrite Nat2N.inj_succ, N.pow_succ_r' in F.
  assert (2 * (nr * (r mod nr)) <= r * nr); [|lia].
  rewrite N.mul_comm, <- N.mul_assoc, (N.mul_comm r). apply N.mul_le_mono_l.
  assert (nr * 1 <= nr * (r / nr)) by (apply N.mul_le_mono_l; auto). lia.
Qed.

Lemma loop_step {P : profile} fuel r nr t nt : r < 2 ^ 128 -> 0 < nr ->
  inverse_loop (S fuel) r nr t nt =
    (let* m := ci128 (as_i128 (r / nr) * nt) in
     let* t' := ci128 (t - m) in
     inverse_loop fuel nr (r mod nr) nt t').
Proof.
  intros Hr Pn. cbn [inverse_loop]. rewrite (proj2 (N.eqb_neq nr 0)) by lia.
  assert (Hz : nr <> 0) by lia. pose proof (N.div_mod r nr Hz) as D.
  rewrite cmul_ok by lia. cbn [bind]. rewrite csub_ok by lia. cbn [bind].
  replace (r - r / nr * nr) with (r mod nr) by lia. reflexivity.
Qed.

Lemma loop_zero {P : profile} fuel r t nt : inverse_loop fuel r 0 t nt = Ok (r, t).
Proof. now destruct fuel. Qed.

(** ** Without overflow checks *)
Lemma release_loop a n fuel : forall r nr t nt T NT,
  n < 2 ^ 128 -> r < 2 ^ 128 -> 2 <= r -> 0 < nr <= r -> r * nr < 2 ^ N.of_nat fuel ->
  inv_state a n r nr T NT -> (p128 | t - T)%Z -> (p128 | nt - NT)%Z -> (- p127 <= nt < p127)%Z ->
  exists t', @inverse_loop release fuel r nr t nt = Ok (N.gcd n a, t') /\
    (Z.of_N n | Z.of_N (N.gcd n a) - t' * Z.of_N a)%Z /\ (2 * Z.abs t' <= Z.of_N n)%Z.
Proof.
  induction fuel as [|fuel IH]; intros r nr t nt T NT Hn Hr R2 L F I Ct Cnt Bnt.
  { exfalso. cbn in F. nia. }
  rewrite loop_step by lia.
  destruct (inv_state_step a n r nr T NT ltac:(lia) L I) as (I' & B1 & _).
  set (q := r / nr) in *.
  destruct (ci128_release (as_i128 q * nt)) as (m & Em & Bm & Dm). rewrite Em. cbn [bind].
  destruct (ci128_release (t - m)) as (t2 & Et & Bt & Dt). rewrite Et. cbn [bind].
  destruct (as_i128_any q) as (k & Ek & _).
  assert (C2 : (p128 | t2 - (T - Z.of_N q * NT))%Z).
  { destruct Ct as [c1 Ct], Cnt as [c2 Cnt], Dm as [c3 Dm], Dt as [c4 Dt].
    exists (c4 + c1 - c3 - Z.of_N q * c2 + k * nt)%Z.
    replace t2 with (c4 * p128 + (t - m))%Z by lia. replace m with (c3 * p128 + as_i128 q * nt)%Z by lia.
    rewrite Ek. replace t with (c1 * p128 + T)%Z by lia.
    replace (Z.of_N q * NT)%Z with (Z.of_N q * nt - Z.of_N q * (c2 * p128))%Z
      by (replace NT with (nt - c2 * p128)%Z by lia; ring). ring. }
  destruct (N.eq_dec (r mod nr) 0) as [E0|E0].
  - rewrite E0, loop_zero. destruct I'. rewrite E0, N.gcd_0_r in is_gcd. rewrite <- is_gcd.
    assert (B2 : (2 * Z.abs NT <= Z.of_N n)%Z).
    { assert (2 * Z.abs NT <= Z.of_N r * Z.abs NT)%Z by (apply Z.mul_le_mono_nonneg_r; lia). lia. }
    assert (nt = NT) as ->.
    { apply divide_128_eq; auto. rewrite p128_N in Hn. unfold p127. lia. }
    exists NT. auto.
  - pose proof (N.mod_lt r nr ltac:(lia)).
    apply (IH nr (r mod nr) nt t2 NT (T - Z.of_N q * NT)%Z); auto; try lia.
    now apply euclid_fuel.
Qed.

Lemma release_loop_start a n : a < 2 ^ 128 -> 2 <= n < 2 ^ 128 -> 0 < a ->
  exists t', @inverse_loop release 300 n a 0 1 = Ok (N.gcd n a, t') /\
    (Z.of_N n | Z.of_N (N.gcd n a) - t' * Z.of_N a)%Z /\ (2 * Z.abs t' <= Z.of_N n)%Z.
Proof.
  intros Ha Hn Pa.
  assert (H256 : 2 ^ 128 * 2 ^ 128 = 2 ^ 256) by reflexivity.
  assert (B0 : (- p127 <= 0 < p127)%Z) by (unfold p127; lia).
  assert (B1 : (- p127 <= 1 < p127)%Z) by (unfold p127; lia).
  destruct (N.le_gt_cases a n) as [L|L].
  - apply (release_loop a n 300 n a 0 1 0 1); auto; try lia;
      try apply inv_state_init; try (rewrite Z.sub_diag; apply Z.divide_0_r).
    apply N.lt_le_trans with (2 ^ 256); [nia|]. apply N.pow_le_mono_r; lia.
  - remember 299%nat as f eqn:Ef. replace 300%nat with (S f) by (rewrite Ef; reflexivity).
    rewrite loop_step by lia. rewrite N.div_small, N.mod_small by auto.
    change (as_i128 0 * 1)%Z with 0%Z. change (@ci128 release 0) with (@Ok Z 0%Z). cbn [bind].
    change (@ci128 release (0 - 0)) with (@Ok Z 0%Z). cbn [bind].
    apply (release_loop a n f a n 1 0 1 0); auto; try lia; try (rewrite Z.sub_diag; apply Z.divide_0_r).
    + apply N.lt_le_trans with (2 ^ 256); [nia|]. apply N.pow_le_mono_r; lia.
    + constructor; try lia.
      * apply N.gcd_comm.
      * exists 0%Z. lia.
      * exists 1%Z. lia.
Qed.

Lemma cong_inverse a n d : 0 < n -> (Z.of_N n | 1 - Z.of_N d * Z.of_N a)%Z -> (a * d) mod n = 1 mod n.
Proof.
  intros Hn Du. apply N2Z.inj. rewrite !N2Z.inj_mod, N2Z.inj_mul by lia.
  destruct Du as [k Hk]. change (Z.of_N 1) with 1%Z.
  replace (Z.of_N a * Z.of_N d)%Z with (1 + (- k) * Z.of_N n)%Z by lia.
  apply Z_mod_plus_full.
Qed.

(** Without the checks the answer is right for every modulus. *)
Lemma inverse_release a n : a < 2 ^ 128 -> 0 < n < 2 ^ 128 ->
  (N.gcd a n <> 1 -> @inverse release a n = Ok None) /\
  (N.gcd a n = 1 -> exists d, @inverse release a n = Ok (Some d) /\ d <= n /\
    (a * d) mod n = 1 mod n).
Proof.
  intros Ha Hn.
  destruct (N.lt_ge_cases n (2 ^ 127)) as [S1|S1].
  { pose proof (agr_inverse a n) as A. destruct (inverse_ok a n Ha ltac:(lia)) as [I1 I2].
    split; intros G.
    - eapply agr_ok; eauto.
    - destruct (I2 G) as (d & E & L). exists d. split; auto. eapply agr_ok; eauto. }
  rewrite p127_N in S1. unfold inverse.
  destruct (N.eq_dec a 0) as [->|Pa].
  { rewrite loop_zero. cbn [bind]. rewrite N.gcd_0_l.
    destruct (N.eqb_spec n 1); [lia|]. split; [auto|lia]. }
  destruct (release_loop_start a n Ha ltac:(lia) ltac:(lia)) as (t & E & D & B). rewrite E. cbn [bind].
  rewrite (N.gcd_comm n a) in *. split; intros G.
  - destruct (N.eqb_spec (N.gcd a n) 1); [easy|]. reflexivity.
  - rewrite G in *. cbn [N.eqb negb Pos.eqb]. rewrite p128_N in Hn. change (Z.of_N 1) with 1%Z in D.
    destruct (Z.ltb_spec t 0).
    + destruct (ci128_release (t + as_i128 n)) as (u & Eu & Bu & Du). rewrite Eu. cbn [bind].
      destruct (as_i128_any n) as (k & Ek & _).
      exists (Z.to_N (t + Z.of_N n)). split; [|split].
      * f_equal. f_equal. unfold as_u128. f_equal. rewrite p128_eq.
        symmetry. apply (Z.mod_unique_pos u p128 ((u - (t + Z.of_N n)) / p128)); [unfold p128; lia|].
        assert (Du' : (p128 | u - (t + Z.of_N n))%Z).
        { destruct Du as [c Du]. exists (c - k)%Z. rewrite Ek in Du. unfold p128 in *. lia. }
        destruct Du' as [c Du']. rewrite Du', Z.div_mul by discriminate. lia.
      * lia.
      * apply cong_inverse; [lia|]. rewrite Z2N.id by lia.
        replace (1 - (t + Z.of_N n) * Z.of_N a)%Z with (1 - t * Z.of_N a - Z.of_N n * Z.of_N a)%Z by ring.
        apply Z.divide_sub_r; auto. apply Z.divide_factor_l.
    + cbn [bind]. exists (Z.to_N t). split; [|split].
      * f_equal. f_equal. unfold as_u128. f_equal. rewrite p128_eq. apply Z.mod_small. unfold p128. lia.
      * lia.
      * apply cong_inverse; [lia|]. now rewrite Z2N.id by lia.
Qed.

(** ** With overflow checks, from 2^127 on *)

Lemma as_i128_half r n nt : n < 2 ^ 128 -> (2 * Z.of_N r * Z.abs nt <= Z.of_N n)%Z ->
  (as_i128 r * nt = Z.of_N r * nt)%Z.
Proof.
  intros Hn H. destruct (Z.eq_dec nt 0) as [->|Z0]; [now rewrite !Z.mul_0_r|].
  assert (2 * Z.of_N r * 1 <= 2 * Z.of_N r * Z.abs nt)%Z by (apply Z.mul_le_mono_nonneg_l; lia).
  rewrite as_i128_ok; [reflexivity|]. rewrite p127_N. rewrite p128_N in Hn. lia.
Qed.

Lemma ci128_ok' z : (- p127 <= z < p127)%Z -> ci128 z = Ok z.
Proof. apply ci128_ok. Qed.

Lemma ci128_over z : (z < - p127 \/ p127 <= z)%Z -> ci128 z = Panic POverflow.
Proof.
  intros H. unfold ci128. rewrite p127_eq.
  destruct ((- p127 <=? z)%Z && (z <? p127)%Z)%bool eqn:E; [|reflexivity].
  apply andb_prop in E. lia.
Qed.

Lemma step_bounds r nr q x t nt n : (2 <= nr -> 0 <= q -> 0 <= x -> r = nr * q + x ->
  r * Z.abs nt + nr * Z.abs t = n -> 2 * q * Z.abs nt <= n /\
  (Z.abs (t - q * nt) = Z.abs t + q * Z.abs nt -> 2 * Z.abs (t - q * nt) <= n))%Z.
Proof.
  intros Hnr Hq Hx D I4.
  pose proof (Z.abs_nonneg nt) as An. pose proof (Z.abs_nonneg t) as At.
  assert (M0 : (0 <= q * Z.abs nt)%Z) by (apply Z.mul_nonneg_nonneg; lia).
  assert (M1 : (2 * (q * Z.abs nt) <= nr * (q * Z.abs nt))%Z) by (apply Z.mul_le_mono_nonneg_r; lia).
  assert (M2 : (2 * Z.abs t <= nr * Z.abs t)%Z) by (apply Z.mul_le_mono_nonneg_r; lia).
  assert (M3 : (0 <= x * Z.abs nt)%Z) by (apply Z.mul_nonneg_nonneg; lia).
  assert (M4 : (r * Z.abs nt = nr * (q * Z.abs nt) + x * Z.abs nt)%Z) by (rewrite D; ring).
  split; lia.
Qed.

(** All steps but the last are exact. *)
Lemma debug_loop a n fuel : forall r nr t nt,
  n < 2 ^ 128 -> r < 2 ^ 128 -> 2 <= r -> 0 < nr <= r -> r * nr < 2 ^ N.of_nat fuel ->
  inv_state a n r nr t nt ->
  (N.gcd n a <> 1 -> exists t', inverse_loop fuel r nr t nt = Ok (N.gcd n a, t')) /\
  (N.gcd n a = 1 -> exists r' t0 t1 f, inverse_loop fuel r nr t nt = inverse_loop (S f) r' 1 t0 t1 /\
    inv_state a n r' 1 t0 t1 /\ 2 <= r' < 2 ^ 128).
Proof.
  induction fuel as [|fuel IH]; intros r nr t nt Hn Hr R2 L F I.
  { exfalso. cbn in F. nia. }
  destruct (N.eq_dec nr 1) as [->|N1].
  { split; intros G.
    - exfalso. destruct I. rewrite N.gcd_1_r in is_gcd. congruence.
    - exists r, t, nt, fuel. auto. }
  rewrite loop_step by lia.
  destruct (inv_state_step a n r nr t nt ltac:(lia) L I) as (I' & B1 & E4 & Ea).
  pose proof (N.div_mod r nr ltac:(lia)) as D. pose proof (N.mod_lt r nr ltac:(lia)) as M.
  destruct (step_bounds (Z.of_N r) (Z.of_N nr) (Z.of_N (r / nr)) (Z.of_N (r mod nr)) t nt (Z.of_N n))
    as [C1 C2]; try lia.
  specialize (C2 Ea).
  set (q := r / nr) in *.
  rewrite (as_i128_half q n nt) by auto.
  assert (Hn' := Hn). rewrite p128_N in Hn'.
  rewrite (ci128_ok' (Z.of_N q * nt)).
  2:{ assert (Z.abs (Z.of_N q * nt) = Z.of_N q * Z.abs nt)%Z by (rewrite Z.abs_mul; lia).
      unfold p127. clear - C1 Hn' H. lia. }
  cbn [bind]. rewrite (ci128_ok' (t - Z.of_N q * nt)) by (unfold p127; clear - C2 Hn'; lia).
  cbn [bind].
  destruct (N.eq_dec (r mod nr) 0) as [E0|E0].
  - rewrite E0, loop_zero. destruct I'. rewrite E0, N.gcd_0_r in is_gcd. rewrite <- is_gcd.
    split; [|easy]. intros _. now exists nt.
  - apply IH; auto; try lia. now apply euclid_fuel.
Qed.

Lemma debug_loop_start a n : a < 2 ^ 128 -> 2 <= n < 2 ^ 128 -> 0 < a ->
  (N.gcd n a <> 1 -> exists t', inverse_loop 300 n a 0 1 = Ok (N.gcd n a, t')) /\
  (N.gcd n a = 1 -> exists r' t0 t1 f, inverse_loop 300 n a 0 1 = inverse_loop (S f) r' 1 t0 t1 /\
    inv_state a n r' 1 t0 t1 /\ 2 <= r' < 2 ^ 128).
Proof.
  intros Ha Hn Pa.
  assert (H256 : 2 ^ 128 * 2 ^ 128 = 2 ^ 256) by reflexivity.
  destruct (N.le_gt_cases a n) as [L|L].
  - apply (debug_loop a n 300 n a 0 1); auto; try lia; try apply inv_state_init.
    apply N.lt_le_trans with (2 ^ 256); [nia|]. apply N.pow_le_mono_r; lia.
  - remember 299%nat as f eqn:Ef. replace 300%nat with (S f) by (rewrite Ef; reflexivity).
    rewrite loop_step by lia. rewrite N.div_small, N.mod_small by auto.
    change (as_i128 0 * 1)%Z with 0%Z. change (ci128 0) with (@Ok Z 0%Z). cbn [bind].
    change (ci128 (0 - 0)) with (@Ok Z 0%Z). cbn [bind].
    apply (debug_loop a n f a n 1 0); auto; try lia.
    + apply N.lt_le_trans with (2 ^ 256); [nia|]. apply N.pow_le_mono_r; lia.
    + constructor; try lia.
      * apply N.gcd_comm.
      * exists 0%Z. lia.
      * exists 1%Z. lia.
Qed.

(** What [inverse] makes of the state before the last step. *)
Definition finish (r : N) (t0 t1 : Z) (n : N) : res (option N) :=
  let* m := ci128 (as_i128 r * t1) in
  let* _ := ci128 (t0 - m) in
  let* t := if (t1 <? 0)%Z then ci128 (t1 + as_i128 n) else Ok t1 in
  Ok (Some (as_u128 t)).

Lemma inverse_finish a n r t0 t1 f : r < 2 ^ 128 ->
  inverse_loop 300 n a 0 1 = inverse_loop (S f) r 1 t0 t1 -> inverse a n = finish r t0 t1 n.
Proof.
  intros Hr E. unfold inverse, finish. rewrite E, loop_step by lia.
  rewrite N.div_1_r, N.mod_1_r.
  destruct (ci128 (as_i128 r * t1)) as [m|p]; cbn [bind]; [|reflexivity].
  destruct (ci128 (t0 - m)) as [t'|p]; cbn [bind]; [|reflexivity].
  rewrite loop_zero. reflexivity.
Qed.

(** The last step when the coefficient is not 1 or -1. *)
Lemma finish_general r t0 t1 n : 2 ^ 127 <= n < 2 ^ 128 -> 2 <= r < 2 ^ 128 ->
  (Z.of_N r * Z.abs t1 + Z.abs t0 = Z.of_N n)%Z -> (t0 * t1 <= 0)%Z -> (2 <= Z.abs t1)%Z ->
  (t0 <> 0)%Z ->
  ((t1 < 0)%Z \/ 2 ^ 127 < n -> finish r t0 t1 n = Panic POverflow) /\
  ((0 < t1)%Z -> n = 2 ^ 127 -> finish r t0 t1 n = Ok (Some (Z.to_N t1)) /\ 2 * Z.to_N t1 < n).
Proof.
  intros Hn Hr I4 I5 T2 T0. unfold finish.
  assert (Rs : r < 2 ^ 127).
  { assert (Z.of_N r * 2 <= Z.of_N r * Z.abs t1)%Z by (apply Z.mul_le_mono_nonneg_l; lia).
    rewrite p127_N, p128_N in *. lia. }
  assert (T1 : (2 * Z.abs t1 <= Z.of_N r * Z.abs t1)%Z) by (apply Z.mul_le_mono_nonneg_r; lia).
  rewrite as_i128_ok by auto.
  rewrite p127_N, p128_N in *.
  destruct (Z.lt_ge_cases t1 0) as [S1|S1].
  - assert (P0 : (0 < t0)%Z) by nia. rewrite Z.abs_neq in * by lia. rewrite Z.abs_eq in * by lia.
    assert (Em : (Z.of_N r * t1 = t0 - Z.of_N n)%Z) by lia. rewrite Em.
    split; [|lia]. intros _.
    destruct (Z.lt_ge_cases (t0 - Z.of_N n) (- p127)) as [O|O].
    + rewrite ci128_over by auto. reflexivity.
    + rewrite ci128_ok' by (unfold p127 in *; lia). cbn [bind].
      rewrite ci128_over by (unfold p127 in *; lia). reflexivity.
  - assert (P0 : (t0 < 0)%Z) by nia. rewrite (Z.abs_eq t1) in * by lia. rewrite Z.abs_neq in * by lia.
    assert (Em : (Z.of_N r * t1 = t0 + Z.of_N n)%Z) by lia. rewrite Em. split.
    + intros [H|H]; [lia|].
      destruct (Z.lt_ge_cases (t0 + Z.of_N n) p127) as [O|O].
      * rewrite ci128_ok' by (unfold p127 in *; lia). cbn [bind].
        rewrite ci128_over by (unfold p127 in *; lia). reflexivity.
      * rewrite ci128_over by auto. reflexivity.
    + intros _ Hn2. rewrite ci128_ok' by (unfold p127 in *; lia). cbn [bind].
      rewrite ci128_ok' by (unfold p127 in *; lia). cbn [bind].
      destruct (Z.ltb_spec t1 0); [lia|]. cbn [bind]. split; [|lia].
      f_equal. f_equal. unfold as_u128. f_equal. rewrite p128_eq. apply Z.mod_small. unfold p128. lia.
Qed.

Lemma inverse_one n : 2 ^ 127 <= n < 2 ^ 128 ->
  finish n 0 1 n = if n =? 2 ^ 127 then Panic POverflow else Ok (Some 1).
Proof.
  intros Hn. unfold finish. rewrite as_i128_large by auto. rewrite p127_N, p128_N in *.
  rewrite ci128_ok' by (unfold p127, p128; lia). cbn [bind].
  destruct (N.eqb_spec n 170141183460469231731687303715884105728) as [->|E].
  - now rewrite ci128_over by (unfold p127, p128; lia).
  - now rewrite ci128_ok' by (unfold p127, p128; lia).
Qed.

Lemma inverse_minus_one n : 2 ^ 127 <= n < 2 ^ 128 ->
  finish (n - 1) 1 (-1) n = if n <=? 2 ^ 127 + 1 then Panic POverflow else Ok (Some (n - 1)).
Proof.
  intros Hn. unfold finish.
  destruct (N.eq_dec n (2 ^ 127)) as [->|E]; [vm_compute; reflexivity|].
  rewrite !as_i128_large by (rewrite p127_N in *; lia). rewrite p127_N, p128_N in *.
  destruct (N.leb_spec n (170141183460469231731687303715884105728 + 1)).
  - now rewrite ci128_over by (unfold p127, p128; lia).
  - rewrite ci128_ok' by (unfold p127, p128; lia). cbn [bind].
    rewrite ci128_ok' by (unfold p127, p128; lia). cbn [bind].
    change (-1 <? 0)%Z with true. cbn iota.
    rewrite ci128_ok' by (unfold p127, p128; lia). cbn [bind].
    f_equal. f_equal. unfold as_u128. rewrite p128_eq.
    replace (-1 + (Z.of_N n - p128))%Z with (Z.of_N (n - 1) + (-1) * p128)%Z by lia.
    rewrite Z_mod_plus_full, Z.mod_small by (unfold p128; lia). apply N2Z.id.
Qed.

Lemma swap_step a n f : n < a -> a < 2 ^ 128 ->
  inverse_loop (S f) n a 0 1 = inverse_loop f a n 1 0.
Proof.
  intros L Ha. rewrite loop_step by lia. rewrite N.div_small, N.mod_small by auto. reflexivity.
Qed.

(** [a = n + b] takes two more steps than [b]. *)
Lemma add_step b n f : b < n -> n + b < 2 ^ 128 ->
  inverse_loop (S (S f)) n (n + b) 0 1 = inverse_loop f n b 0 1 \/ b = 0.
Proof.
  intros L Ha. destruct (N.eq_dec b 0) as [->|B0]; [now right|left].
  rewrite swap_step by lia. rewrite loop_step by lia.
  assert (E : (n + b) / n = 1) by (symmetry; apply (N.div_unique _ n 1 b); lia). rewrite E.
  assert (E' : (n + b) mod n = b) by (symmetry; apply (N.mod_unique _ n 1 b); lia). rewrite E'.
  reflexivity.
Qed.

Lemma minus_step n f : 3 <= n < 2 ^ 128 ->
  inverse_loop (S f) n (n - 1) 0 1 = inverse_loop f (n - 1) 1 1 (-1).
Proof.
  intros Hn. rewrite loop_step by lia.
  assert (E : n / (n - 1) = 1) by (symmetry; apply (N.div_unique _ (n - 1) 1 1); lia). rewrite E.
  assert (E' : n mod (n - 1) = 1) by (symmetry; apply (N.mod_unique _ (n - 1) 1 1); lia). rewrite E'.
  reflexivity.
Qed.

Lemma residue_cases a n : 2 ^ 127 <= n < 2 ^ 128 -> a < 2 ^ 128 -> a = a mod n \/ a = n + a mod n.
Proof.
  intros Hn Ha. rewrite p127_N, p128_N in *.
  destruct (N.lt_ge_cases a n) as [L|L].
  - left. now rewrite N.mod_small.
  - right. rewrite <- (N.mod_unique a n 1 (a - n)); lia.
Qed.

Lemma inverse_residue a n : 2 ^ 127 <= n < 2 ^ 128 -> a < 2 ^ 128 ->
  a mod n = 1 -> inverse a n = finish n 0 1 n.
Proof.
  intros Hn Ha E. assert (Hn' := Hn). rewrite p127_N in Hn'.
  destruct (residue_cases a n Hn Ha) as [D|D]; rewrite E in D; rewrite D.
  - apply (inverse_finish 1 n n 0 1 299); [lia|reflexivity].
  - apply (inverse_finish (n + 1) n n 0 1 297); [lia|].
    change 300%nat with (S (S 298)). destruct (add_step 1 n 298) as [H|H]; [lia|lia|exact H|lia].
Qed.

Lemma inverse_residue' a n : 2 ^ 127 <= n < 2 ^ 128 -> a < 2 ^ 128 ->
  a mod n = n - 1 -> inverse a n = finish (n - 1) 1 (-1) n.
Proof.
  intros Hn Ha E. assert (Hn' := Hn). rewrite p127_N in Hn'.
  destruct (residue_cases a n Hn Ha) as [D|D]; rewrite E in D.
  - rewrite D. apply (inverse_finish (n - 1) n (n - 1) 1 (-1) 298); [lia|].
    change 300%nat with (S 299). apply minus_step. lia.
  - rewrite D. apply (inverse_finish (n + (n - 1)) n (n - 1) 1 (-1) 296); [lia|].
    change 300%nat with (S (S 298)). destruct (add_step (n - 1) n 298) as [H|H]; [lia|lia| |lia].
    rewrite H. change 298%nat with (S 297). apply minus_step. lia.
Qed.

Lemma cong_unique a n d u : 1 < n -> d < n -> (a * d) mod n = 1 ->
  (Z.of_N n | 1 - u * Z.of_N a)%Z -> (Z.of_N n | Z.of_N d - u)%Z.
Proof.
  intros Hn Hd E [k K].
  pose proof (N.div_mod (a * d) n ltac:(lia)) as D. rewrite E in D.
  assert (Dz : (Z.of_N a * Z.of_N d = Z.of_N n * Z.of_N (a * d / n) + 1)%Z) by lia.
  exists (k * Z.of_N d + u * Z.of_N (a * d / n))%Z.
  replace (Z.of_N d - u)%Z with ((1 - u * Z.of_N a) * Z.of_N d + u * (Z.of_N a * Z.of_N d - 1))%Z by ring.
  rewrite K, Dz. ring.
Qed.

Lemma cong_range n d u : d < n -> (Z.of_N n | Z.of_N d - u)%Z -> (2 * Z.abs u <= Z.of_N n)%Z -> 2 < n ->
  ((0 <= u)%Z -> Z.of_N d = u) /\ ((u < 0)%Z -> (Z.of_N d = Z.of_N n + u)%Z).
Proof.
  intros Hd [k K] B Hn. split; intros S1.
  - assert (-1 < k < 1)%Z by nia. assert (k = 0)%Z by lia. lia.
  - assert (0 < k < 2)%Z by nia. assert (k = 1)%Z by lia. lia.
Qed.

Lemma residue_pm a n t1 : 2 < n -> a mod n <> 1 -> a mod n <> n - 1 ->
  (Z.of_N n | 1 - t1 * Z.of_N a)%Z -> (t1 <> 1 /\ t1 <> -1)%Z.
Proof.
  intros Hn A1 A2 [k K].
  pose proof (N.div_mod a n ltac:(lia)) as D. pose proof (N.mod_lt a n ltac:(lia)) as M.
  set (x := a mod n) in *. set (y := a / n) in *. clearbody x y.
  assert (Dz : (Z.of_N a = Z.of_N n * Z.of_N y + Z.of_N x)%Z) by lia. clear D. rewrite Dz in K.
  split; intros ->.
  - assert (K' : (1 - Z.of_N x = (k + Z.of_N y) * Z.of_N n)%Z) by lia. clear K Dz.
    assert (-1 < k + Z.of_N y < 1)%Z by nia. assert (Q : (k + Z.of_N y = 0)%Z) by lia. rewrite Q in K'. lia.
  - assert (K' : (1 + Z.of_N x = (k - Z.of_N y) * Z.of_N n)%Z) by lia. clear K Dz.
    assert (0 < k - Z.of_N y < 2)%Z by nia.
    assert (Q : (k - Z.of_N y = 1)%Z) by lia. rewrite Q in K'. lia.
Qed.

Ltac Zify.zify_post_hook ::= idtac.

Lemma inverse_large a n d : a < 2 ^ 128 -> 2 ^ 127 <= n < 2 ^ 128 -> d < n -> (a * d) mod n = 1 ->
  inverse a n = if inverse_fits n d then Ok (Some d) else Panic POverflow.
Proof.
  intros Ha Hn Hd E. assert (Hn' := Hn). rewrite p127_N, p128_N in Hn'.
  assert (U : forall u, (Z.of_N n | 1 - u * Z.of_N a)%Z -> (Z.of_N n | Z.of_N d - u)%Z)
    by (intros u; apply cong_unique; auto; lia).
  pose proof (N.div_mod a n ltac:(lia)) as Da.
  destruct (N.eq_dec (a mod n) 1) as [A1|A1].
  { rewrite inverse_residue, inverse_one by auto.
    assert (d = 1) as ->.
    { destruct (cong_range n d 1 Hd) as [C _]; try lia. apply U. exists (- Z.of_N (a / n))%Z. lia. }
    unfold inverse_fits. destruct (n =? 2 ^ 127); reflexivity. }
  destruct (N.eq_dec (a mod n) (n - 1)) as [A2|A2].
  { rewrite inverse_residue', inverse_minus_one by auto.
    assert (d = n - 1) as ->.
    { destruct (cong_range n d (-1) Hd) as [_ C]; try lia. apply U. exists (Z.of_N (a / n) + 1)%Z. lia. }
    unfold inverse_fits. rewrite N.eqb_refl. rewrite p127_N.
    change (2 ^ 126) with 85070591730234615865843651857942052864.
    destruct (N.eqb_spec n 170141183460469231731687303715884105728) as [->|]; [vm_compute; reflexivity|].
    destruct (N.eqb_spec (n - 1) 1); [lia|]. cbn [orb andb].
    destruct (N.leb_spec n (170141183460469231731687303715884105728 + 1)),
      (N.ltb_spec (170141183460469231731687303715884105728 + 1) n); auto; lia. }
  assert (Pa : a <> 0) by (intros ->; rewrite N.mul_0_l, N.mod_0_l in E; lia).
  assert (G : N.gcd n a = 1).
  { pose proof (N.div_mod (a * d) n ltac:(lia)) as D. rewrite E in D.
    apply N.divide_1_r. apply (N.divide_add_cancel_r _ (n * (a * d / n))).
    - apply N.divide_mul_l, N.gcd_divide_l.
    - rewrite <- D. apply N.divide_mul_l, N.gcd_divide_r. }
  destruct (debug_loop_start a n Ha ltac:(lia) ltac:(lia)) as [_ H].
  destruct (H G) as (r & t0 & t1 & f & L & I & Hr). destruct I as [I1 I2 I3 I4 I5 I6].
  rewrite (inverse_finish a n r t0 t1 f) by (auto; lia).
  change (Z.of_N 1) with 1%Z in *. rewrite Z.mul_1_l in I4.
  assert (U1 := U t1 I3).
  assert (B1 : (2 * Z.abs t1 <= Z.of_N r * Z.abs t1)%Z) by (apply Z.mul_le_mono_nonneg_r; lia).
  assert (R1 := residue_pm a n t1 ltac:(lia) A1 A2 I3). clear A1 A2 Da.
  assert (T0 : (t1 <> 0)%Z).
  { intros ->. rewrite Z.mul_0_l, Z.sub_0_r in I3. apply Z.divide_pos_le in I3; lia. }
  assert (T2 : (2 <= Z.abs t1)%Z).
  { lia. }
  assert (Z0 : (t0 <> 0)%Z).
  { intros ->. rewrite Z.mul_0_l, Z.sub_0_r in I2. apply Z.divide_pos_le in I2; [|lia].
    assert (Z.of_N r * 2 <= Z.of_N r * Z.abs t1)%Z by (apply Z.mul_le_mono_nonneg_l; lia). lia. }
  destruct (finish_general r t0 t1 n Hn Hr I4 I5 T2 Z0) as [F1 F2].
  destruct (cong_range n d t1 Hd U1 ltac:(lia) ltac:(lia)) as [V1 V2].
  unfold inverse_fits. destruct (N.eqb_spec n (2 ^ 127)) as [En|En].
  - destruct (Z.lt_ge_cases t1 0) as [S1|S1].
    + rewrite F1 by auto. specialize (V2 S1).
      change (2 ^ 126) with 85070591730234615865843651857942052864.
      rewrite p127_N in En.
      destruct (N.ltb_spec 1 d), (N.ltb_spec d 85070591730234615865843651857942052864); auto. lia.
    + destruct F2 as [F2 F3]; auto; [lia|]. rewrite F2. specialize (V1 S1).
      change (2 ^ 126) with 85070591730234615865843651857942052864.
      rewrite p127_N in En.
      destruct (N.ltb_spec 1 d), (N.ltb_spec d 85070591730234615865843651857942052864); try lia.
      cbn [andb]. f_equal. f_equal. lia.
  - rewrite F1 by (right; lia).
    destruct (N.eqb_spec d 1); [exfalso|].
    { destruct (Z.lt_ge_cases t1 0) as [S1|S1]; [specialize (V2 S1)|specialize (V1 S1)]; lia. }
    destruct (N.eqb_spec d (n - 1)); [exfalso|reflexivity].
    destruct (Z.lt_ge_cases t1 0) as [S1|S1]; [specialize (V2 S1)|specialize (V1 S1)]; lia.
Qed.

Lemma inverse_large_none a n : a < 2 ^ 128 -> 2 ^ 127 <= n < 2 ^ 128 -> N.gcd a n <> 1 ->
  inverse a n = Ok None.
Proof.
  intros Ha Hn G. unfold inverse. rewrite N.gcd_comm in G.
  destruct (N.eq_dec a 0) as [->|Pa].
  { rewrite loop_zero. cbn [bind]. rewrite p127_N in Hn. destruct (N.eqb_spec n 1); [lia|reflexivity]. }
  assert (N2 : 2 <= n) by (rewrite p127_N in Hn; lia).
  destruct (debug_loop_start a n Ha (conj N2 (proj2 Hn)) ltac:(lia)) as [H _].
  destruct (H G) as [t' L]. rewrite L. cbn [bind].
  destruct (N.eqb_spec (N.gcd n a) 1); [easy|reflexivity].
Qed.
