(** * Proofs about the RSA primitive and key generation *)
From Verif Require Import Base BaseLemmas ModelBig ModelRsa SpecEndian SpecBig SpecRsa
  ProofBig ProofBig2 ProofBig3 ProofRsaMath.
From Coq Require Import Znumtheory ZifyBool ZifyNat ZifyN.
Ltac Zify.zify_post_hook ::= Z.div_mod_to_equations.
Local Open Scope N_scope.
Local Open Scope list_scope.

(** ** Modular multiplication *)

Lemma allocates_le capf n k : allocates capf n -> (k <= n)%nat -> allocates capf k.
Proof. intros H L j Hj. apply H. lia. Qed.

Lemma allocates_countable capf n a : allocates capf n -> (length a <= n)%nat -> countable a.
Proof.
  intros H L. destruct (H (length a) L) as [P1 P2]. unfold capacity_ok in P2.
  unfold countable. lia.
Qed.

Lemma add_length a b r : canonical r -> bytes a -> bytes b ->
  from_le r = from_le a + from_le b -> (length r <= Nat.max (length a) (length b) + 1)%nat.
Proof.
  intros Hr Ha Hb E. apply canonical_length_lt; auto.
  pose proof (from_le_lt a Ha) as A. pose proof (from_le_lt b Hb) as B.
  rewrite Nat.add_1_r, pow256_S.
  assert (256 ^ N.of_nat (length a) <= 256 ^ N.of_nat (Nat.max (length a) (length b)))
    by (apply N.pow_le_mono_r; lia).
  assert (256 ^ N.of_nat (length b) <= 256 ^ N.of_nat (Nat.max (length a) (length b)))
    by (apply N.pow_le_mono_r; lia).
  lia.
Qed.

Lemma double_length a r : canonical r -> bytes a ->
  from_le r = from_le a * 2 -> (length r <= length a + 1)%nat.
Proof.
  intros Hr Ha E. apply canonical_length_lt; auto.
  pose proof (from_le_lt a Ha) as A. rewrite Nat.add_1_r, pow256_S. lia.
Qed.

Lemma shl_1_ok a : canonical a ->
  canonical (shl_assign a 1) /\ from_le (shl_assign a 1) = from_le a * 2.
Proof.
  intros Ha. destruct a as [|x l].
  - split; [apply canonical_nil|reflexivity].
  - apply (shl_ok (x :: l) 1 Ha). discriminate.
Qed.

Lemma mul_mod_loop_ok capf n r a b m fuel :
  canonical r -> canonical a -> canonical b -> canonical m ->
  0 < from_le m -> from_le r < from_le m ->
  (length a + 3 <= n)%nat -> (length m + 3 <= n)%nat -> allocates capf n ->
  countable b -> N.size (from_le b) <= N.of_nat fuel ->
  exists r', mul_mod_loop fuel capf r a b m = Ok r' /\ canonical r' /\
    from_le r' = (from_le r + from_le a * from_le b) mod from_le m.
Proof.
  intros Hr Ha Hb Hm Pm Rm La Lm Hal. revert r a b Hr Ha Hb Rm La.
  induction fuel as [|fuel IH]; intros r a b Hr Ha Hb Rm La Cb Hf; cbn [mul_mod_loop].
  - rewrite bits_used_ok by auto. cbn [bind].
    assert (Z : N.size (from_le b) = 0) by lia. rewrite Z. cbn [N.eqb].
    exists r. split; [reflexivity|]. split; [exact Hr|].
    pose proof (lt_size (from_le b)) as L. rewrite Z, N.pow_0_r in L.
    replace (from_le b) with 0 by lia. rewrite N.mul_0_r, N.add_0_r. symmetry. now apply N.mod_small.
  - rewrite bits_used_ok by auto. cbn [bind].
    destruct (N.eqb_spec (N.size (from_le b)) 0) as [Z|Z].
    { exists r. split; [reflexivity|]. split; [exact Hr|].
      pose proof (lt_size (from_le b)) as L. rewrite Z, N.pow_0_r in L.
      replace (from_le b) with 0 by lia. rewrite N.mul_0_r, N.add_0_r. symmetry. now apply N.mod_small. }
    rewrite is_set_ok by auto. cbn [bind].
    assert (Nm : m <> []) by (intros ->; cbn in Pm; lia).
    assert (Cm : countable m) by (apply (allocates_countable capf n); auto; lia).
    assert (Lr : (length r <= length m)%nat)
      by (apply canonical_length_mono; auto using canonical_bytes; lia).
    assert (S1 : exists r1, (if N.testbit (from_le b) 0
        then let* r0 := add_assign r a in rem_assign capf r0 m else Ok r) = Ok r1 /\
        canonical r1 /\ from_le r1 < from_le m /\
        from_le r1 mod from_le m = (from_le r + from_le a * (from_le b mod 2)) mod from_le m).
    { rewrite N.bit0_eqb. destruct (N.eqb_spec (from_le b mod 2) 1) as [E|E].
      - destruct (add_ok r a (canonical_bytes _ Hr) (canonical_bytes _ Ha)) as (r0 & E0 & C0 & V0).
        rewrite E0. cbn [bind].
        pose proof (add_length r a r0 C0 (canonical_bytes _ Hr) (canonical_bytes _ Ha) V0) as L0.
        destruct (rem_ok capf r0 m C0 Hm Nm) as (r1 & E1 & C1 & V1); auto.
        { apply (allocates_le capf n); auto. lia. }
        exists r1. split; [exact E1|]. split; [exact C1|]. rewrite V1, V0, E, N.mul_1_r.
        split; [apply N.mod_lt; lia|]. apply N.mod_mod. lia.
      - exists r. split; [reflexivity|]. split; [exact Hr|]. split; [exact Rm|].
        replace (from_le b mod 2) with 0 by lia. now rewrite N.mul_0_r, N.add_0_r. }
    destruct S1 as (r1 & E1 & C1 & L1 & V1). rewrite E1. cbn [bind].
    destruct (shl_1_ok a Ha) as [C2 V2].
    pose proof (double_length a _ C2 (canonical_bytes _ Ha) V2) as L2.
    destruct (rem_ok capf (shl_assign a 1) m C2 Hm Nm) as (a1 & E3 & C3 & V3); auto.
    { apply (allocates_le capf n); auto. lia. }
    rewrite E3. cbn [bind].
    destruct (shr_ok b 1 Hb) as (b1 & E4 & C4 & V4).
    { change (1 / 8) with 0. lia. }
    rewrite E4. cbn [bind]. rewrite V2 in V3. change (2 ^ 1) with 2 in V4.
    assert (La1 : (length a1 <= length m)%nat).
    { apply canonical_length_mono; auto using canonical_bytes. rewrite V3.
      apply N.lt_le_incl, N.mod_lt. lia. }
    assert (Lb1 : (length b1 <= length b)%nat).
    { apply canonical_length_mono; auto using canonical_bytes. rewrite V4.
      apply N.div_le_upper_bound; lia. }
    destruct (IH r1 a1 b1 C1 C3 C4 L1 ltac:(lia)) as (r' & E5 & C5 & V5).
    { unfold countable in *. lia. }
    { rewrite V4. apply size_le. apply N.div_lt_upper_bound; [lia|].
      change 2 with (2 ^ 1) at 1. rewrite <- N.pow_add_r.
      apply size_le. lia. }
    exists r'. split; [exact E5|]. split; [exact C5|]. rewrite V5, V4, V3.
    rewrite N.add_mod, V1, <- (N.mul_mod_idemp_l (from_le a * 2 mod from_le m)) by lia.
    rewrite (N.mod_mod (from_le a * 2)) by lia. rewrite N.mul_mod_idemp_l, <- N.add_mod by lia.
    f_equal. rewrite (N.div_mod (from_le b) 2) at 3 by lia. ring.
Qed.

Lemma mul_mod_ok capf n a b m : canonical a -> canonical b -> canonical m -> 0 < from_le m ->
  (length a + 3 <= n)%nat -> (length m + 3 <= n)%nat -> allocates capf n -> countable b ->
  exists r, mul_mod capf a b m = Ok r /\ canonical r /\
    from_le r = (from_le a * from_le b) mod from_le m.
Proof.
  intros Ha Hb Hm Pm La Lm Hal Cb. unfold mul_mod.
  change (big_from_u128 0) with (@Ok (list N) []). cbn [bind].
  destruct (mul_mod_loop_ok capf n [] a b m (8 * length b) canonical_nil Ha Hb Hm Pm) as (r & E & C & V); auto.
  { pose proof (size_length b (canonical_bytes _ Hb)). lia. }
  exists r. auto.
Qed.

(** ** Modular exponentiation *)

Lemma mod_pow2_S p i : p mod 2 ^ (i + 1) = p mod 2 ^ i + (if N.testbit p i then 2 ^ i else 0).
Proof.
  rewrite N.pow_add_r. change (2 ^ 1) with 2.
  rewrite N.mod_mul_r by (try apply N.pow_nonzero; lia). f_equal.
  rewrite N.testbit_eqb. generalize (p / 2 ^ i) as x. generalize (2 ^ i) as y. intros y x.
  pose proof (N.mod_lt x 2 ltac:(lia)) as L. revert L. generalize (x mod 2) as z. intros z L.
  destruct (N.eqb_spec z 1) as [->|]; [apply N.mul_1_r|].
  replace z with 0 by lia. apply N.mul_0_r.
Qed.

Lemma pow_mod_idemp a k m : m <> 0 -> (a mod m) ^ k mod m = a ^ k mod m.
Proof.
  intros Hm. induction k using N.peano_ind; [reflexivity|].
  rewrite !N.pow_succ_r', N.mul_mod, IHk, N.mod_mod, <- N.mul_mod by auto. reflexivity.
Qed.

Definition power_value (a p m : N) : N := if p =? 0 then 1 else a ^ p mod m.

Lemma pow_mod_ok capf n a p m : canonical a -> canonical p -> canonical m -> 0 < from_le m ->
  (length a + 4 <= n)%nat -> (length m + 4 <= n)%nat -> allocates capf n -> countable p ->
  exists r, pow_mod capf a p m = Ok r /\ canonical r /\
    from_le r = power_value (from_le a) (from_le p) (from_le m).
Proof.
  intros Ha Hp Hm Pm La Lm Hal Cp. unfold pow_mod.
  change (big_from_u128 1) with (@Ok (list N) [1]). cbn [bind].
  rewrite bits_used_ok by auto. cbn [bind].
  assert (C1 : canonical [1]).
  { split; [repeat constructor; reflexivity|discriminate]. }
  match goal with |- context[forM _ ?f ?s0] =>
    destruct (forM_range_inv (fun i (st : list N * list N) => let (x, r) := st in
      canonical x /\ canonical r /\ (length x + 4 <= n)%nat /\ (length r + 3 <= n)%nat /\
      from_le x mod from_le m = from_le a ^ (2 ^ N.of_nat i) mod from_le m /\
      from_le r = power_value (from_le a) (from_le p mod 2 ^ N.of_nat i) (from_le m))
      f 0%nat (ix (N.size (from_le p))) s0) as ([x r] & E & I1 & I2 & I3 & I4 & I5 & I6)
  end.
  - lia.
  - split; [exact Ha|]. split; [exact C1|]. split; [lia|]. split; [cbn [length]; lia|].
    change (N.of_nat 0) with 0. rewrite N.pow_0_r, N.pow_1_r, N.mod_1_r. split; reflexivity.
  - intros i [x r] Hi (I1 & I2 & I3 & I4 & I5 & I6).
    rewrite is_set_ok by auto. cbn [bind].
    assert (Cx : countable x) by (apply (allocates_countable capf n); auto; lia).
    replace (N.of_nat (S i)) with (N.of_nat i + 1) by lia.
    rewrite mod_pow2_S.
    assert (S1 : exists r1, (if N.testbit (from_le p) (N.of_nat i) then mul_mod capf r x m else Ok r)
        = Ok r1 /\ canonical r1 /\ (length r1 + 3 <= n)%nat /\
        from_le r1 = power_value (from_le a) (from_le p mod 2 ^ N.of_nat i +
          (if N.testbit (from_le p) (N.of_nat i) then 2 ^ N.of_nat i else 0)) (from_le m)).
    { destruct (N.testbit (from_le p) (N.of_nat i)).
      - destruct (mul_mod_ok capf n r x m I2 I1 Hm Pm ltac:(lia) ltac:(lia) Hal Cx) as (r1 & E1 & D1 & V1).
        exists r1. split; [exact E1|]. split; [exact D1|]. split.
        + assert (length r1 <= length m)%nat; [|lia].
          apply canonical_length_mono; auto using canonical_bytes. rewrite V1.
          apply N.lt_le_incl, N.mod_lt. lia.
        + rewrite V1, I6. unfold power_value.
          pose proof (pow2_pos (N.of_nat i)) as P2.
          set (e := from_le p mod 2 ^ N.of_nat i).
          destruct (N.eqb_spec (e + 2 ^ N.of_nat i) 0); [lia|].
          destruct (N.eqb_spec e 0) as [->|].
          * rewrite N.mul_1_l, N.add_0_l. exact I5.
          * rewrite N.mul_mod_idemp_l, <- N.mul_mod_idemp_r, I5, N.mul_mod_idemp_r by lia.
            now rewrite N.pow_add_r.
      - exists r. rewrite N.add_0_r. auto. }
    destruct S1 as (r1 & E1 & D1 & L1 & V1). rewrite E1. cbn [bind].
    destruct (mul_mod_ok capf n x x m I1 I1 Hm Pm ltac:(lia) ltac:(lia) Hal Cx) as (x1 & E2 & D2 & V2).
    rewrite E2. cbn [bind]. eexists. split; [reflexivity|]. cbv beta iota.
    split; [exact D2|]. split; [exact D1|]. split.
    { assert (length x1 <= length m)%nat; [|lia].
      apply canonical_length_mono; auto using canonical_bytes. rewrite V2.
      apply N.lt_le_incl, N.mod_lt. lia. }
    split; [exact L1|]. split; [|exact V1].
    rewrite V2, N.mod_mod, N.mul_mod, I5, <- N.mul_mod, <- N.pow_add_r by lia.
    f_equal. f_equal. rewrite (N.pow_add_r 2). change (2 ^ 1) with 2. lia.
  - rewrite E. cbn [bind]. exists r. split; [reflexivity|]. split; [exact I2|].
    rewrite I6. unfold ix. rewrite N2Nat.id. f_equal. apply N.mod_small. apply lt_size.
Qed.

Lemma rsa_encrypt_spec capf n k m :
  canonical (rsa_exponent k) -> canonical (rsa_modulo k) -> canonical m ->
  1 < num (rsa_modulo k) -> countable (rsa_exponent k) ->
  (length m + 4 <= n)%nat -> (length (rsa_modulo k) + 4 <= n)%nat -> allocates capf n ->
  exists c, rsa_encrypt capf k m = Ok c /\ rsa_decrypt capf k m = Ok c /\ canonical c /\
    num c = rsa_power (num m) (num (rsa_exponent k)) (num (rsa_modulo k)).
Proof.
  intros He Hn Hm Pn Ce Lm Ln Hal. change num with from_le in *.
  destruct (pow_mod_ok capf n m (rsa_exponent k) (rsa_modulo k) Hm He Hn ltac:(lia) Lm Ln Hal Ce)
    as (c & E & C & V).
  exists c. split; [exact E|]. split; [exact E|]. split; [exact C|]. rewrite V.
  unfold power_value, rsa_power. destruct (N.eqb_spec (from_le (rsa_exponent k)) 0) as [->|]; auto.
  rewrite N.pow_0_r. symmetry. apply N.mod_1_l. lia.
Qed.

(** ** Euclid's algorithm *)

Lemma ci128_ok z : (- 2 ^ 127 <= z < 2 ^ 127)%Z -> ci128 z = Ok z.
Proof.
  intros H. unfold ci128.
  destruct (Z.leb_spec (- 2 ^ 127) z); [|lia]. destruct (Z.ltb_spec z (2 ^ 127)); [|lia]. reflexivity.
Qed.

Lemma as_i128_ok x : x < 2 ^ 127 -> as_i128 x = Z.of_N x.
Proof.
  intros H. unfold as_i128. change (2 ^ 127) with 170141183460469231731687303715884105728 in *.
  change (2 ^ 128) with 340282366920938463463374607431768211456.
  rewrite N.mod_small by lia.
  change (2 ^ 127)%Z with 170141183460469231731687303715884105728%Z.
  destruct (Z.ltb_spec (Z.of_N x) 170141183460469231731687303715884105728%Z); [auto|lia].
Qed.

Lemma gcd_sub_mul r k x : k * x <= r -> N.gcd x (r - k * x) = N.gcd r x.
Proof.
  intros H. rewrite (N.gcd_comm r x). replace r with (r - k * x + k * x) at 2 by lia.
  symmetry. apply (N.gcd_add_mult_diag_r x (r - k * x) k).
Qed.

(** The invariant: [r*|t'| + r'*|t| = n] with [t], [t'] of opposite signs. *)
Record inv_state (a n : N) (r nr : N) (t nt : Z) : Prop := {
  is_gcd : N.gcd r nr = N.gcd n a;
  is_cong : (Z.of_N n | Z.of_N r - t * Z.of_N a)%Z;
  is_cong' : (Z.of_N n | Z.of_N nr - nt * Z.of_N a)%Z;
  is_sum : (Z.of_N r * Z.abs nt + Z.of_N nr * Z.abs t = Z.of_N n)%Z;
  is_sign : (t * nt <= 0)%Z;
  is_t : (Z.abs t <= Z.of_N n)%Z
}.

Lemma inverse_step_Z r nr q x t nt n : (0 < r -> 0 < nr -> 1 <= q -> 0 <= x ->
  r = nr * q + x -> r * Z.abs nt + nr * Z.abs t = n -> t * nt <= 0 ->
  Z.abs nt <= n /\ Z.abs (q * nt) <= n /\ (nt = 0 \/ q <= n) /\
  nr * Z.abs (t - q * nt) + x * Z.abs nt = n /\ Z.abs (t - q * nt) <= n /\
  nt * (t - q * nt) <= 0)%Z.
Proof.
  intros Hr Hnr Hq Hx D I4 I5.
  pose proof (Z.abs_nonneg nt) as An. pose proof (Z.abs_nonneg t) as At.
  assert (M1 : (0 <= nr * Z.abs t)%Z) by (apply Z.mul_nonneg_nonneg; lia).
  assert (Lq : (q <= r)%Z).
  { assert (1 * q <= nr * q)%Z by (apply Z.mul_le_mono_nonneg_r; lia). lia. }
  assert (M2 : (q * Z.abs nt <= r * Z.abs nt)%Z) by (apply Z.mul_le_mono_nonneg_r; lia).
  assert (M3 : (1 * Z.abs nt <= r * Z.abs nt)%Z) by (apply Z.mul_le_mono_nonneg_r; lia).
  assert (Et : (Z.abs (t - q * nt) = Z.abs t + q * Z.abs nt)%Z).
  { destruct (Z.lt_trichotomy nt 0) as [S1|[->|S1]].
    - assert (0 <= t)%Z by nia. assert (q * nt <= 0)%Z by nia. rewrite (Z.abs_neq nt), !Z.abs_eq by lia. ring.
    - rewrite Z.abs_0, !Z.mul_0_r, Z.sub_0_r. ring.
    - assert (t <= 0)%Z by nia. assert (0 <= q * nt)%Z by nia.
      rewrite (Z.abs_eq nt), !Z.abs_neq by lia. ring. }
  assert (E4 : (nr * Z.abs (t - q * nt) + x * Z.abs nt = n)%Z).
  { rewrite Et, <- I4, D. ring. }
  split; [lia|]. split; [rewrite Z.abs_mul, (Z.abs_eq q); lia|]. split.
  { destruct (Z.eq_dec nt 0); [auto|right].
    assert (q * 1 <= q * Z.abs nt)%Z by (apply Z.mul_le_mono_nonneg_l; lia). lia. }
  split; [exact E4|]. split.
  - assert (1 * Z.abs (t - q * nt) <= nr * Z.abs (t - q * nt))%Z
      by (apply Z.mul_le_mono_nonneg_r; lia).
    assert (0 <= x * Z.abs nt)%Z by (apply Z.mul_nonneg_nonneg; lia). lia.
  - replace (nt * (t - q * nt))%Z with (t * nt - q * (nt * nt))%Z by ring.
    assert (0 <= q * (nt * nt))%Z by (apply Z.mul_nonneg_nonneg; [lia|apply Z.square_nonneg]). lia.
Qed.

Lemma inverse_loop_ok fuel a n r nr t nt :
  n < 2 ^ 127 -> r < 2 ^ 128 -> nr < 2 ^ 128 -> 0 < n ->
  0 < r -> nr <= r -> r * nr < 2 ^ N.of_nat fuel ->
  inv_state a n r nr t nt ->
  exists t', inverse_loop fuel r nr t nt = Ok (N.gcd n a, t') /\
    (Z.of_N n | Z.of_N (N.gcd n a) - t' * Z.of_N a)%Z /\ (Z.abs t' <= Z.of_N n)%Z.
Proof.
  intros Hn. revert r nr t nt. induction fuel as [|fuel IH]; intros r nr t nt Hr Hnr Pn Pr L F I;
    cbn [inverse_loop].
  - destruct (N.eqb_spec nr 0) as [->|Hz].
    + destruct I. exists t. rewrite N.gcd_0_r in is_gcd0. rewrite <- is_gcd0. auto.
    + exfalso. cbn in F. nia.
  - destruct (N.eqb_spec nr 0) as [->|Hz].
    { destruct I. exists t. rewrite N.gcd_0_r in is_gcd0. rewrite <- is_gcd0. auto. }
    destruct I as [I1 I2 I3 I4 I5 I6].
    pose proof (N.div_mod r nr Hz) as D. pose proof (N.mod_lt r nr Hz) as M.
    set (q := r / nr) in *. set (x := r mod nr) in *.
    assert (Q1 : 1 <= q) by (apply N.div_le_lower_bound; lia).
    assert (Hq : q * nr <= r) by lia.
    rewrite cmul_ok by lia. cbn [bind]. rewrite csub_ok by auto. cbn [bind].
    assert (Hx : r - q * nr = x) by lia. rewrite Hx.
    destruct (inverse_step_Z (Z.of_N r) (Z.of_N nr) (Z.of_N q) (Z.of_N x) t nt (Z.of_N n))
      as (Hnt & Hqnt & Hq' & E4 & Ht' & S4); try lia.
    assert (Em : (as_i128 q * nt = Z.of_N q * nt)%Z).
    { destruct Hq' as [->|Hq']; [lia|]. rewrite as_i128_ok; auto. lia. }
    rewrite Em.
    change (2 ^ 127) with 170141183460469231731687303715884105728 in Hn.
    rewrite (ci128_ok (Z.of_N q * nt)).
    2:{ change (2 ^ 127)%Z with 170141183460469231731687303715884105728%Z.
        clear - Hqnt Hn. lia. }
    cbn [bind].
    rewrite (ci128_ok (t - Z.of_N q * nt)).
    2:{ change (2 ^ 127)%Z with 170141183460469231731687303715884105728%Z.
        clear - Ht' Hn. lia. }
    cbn [bind].
    apply IH; auto; try lia.
    + rewrite Nat2N.inj_succ, N.pow_succ_r' in F.
      assert (2 * (nr * x) <= r * nr); [|lia].
      rewrite N.mul_comm, <- N.mul_assoc, (N.mul_comm r). apply N.mul_le_mono_l.
      assert (nr * 1 <= nr * q) by (apply N.mul_le_mono_l; auto). lia.
    + constructor.
      * rewrite <- Hx. rewrite gcd_sub_mul by auto. exact I1.
      * exact I3.
      * assert (Dz : (Z.of_N x = Z.of_N r - Z.of_N q * Z.of_N nr)%Z) by lia. rewrite Dz.
        replace (Z.of_N r - Z.of_N q * Z.of_N nr - (t - Z.of_N q * nt) * Z.of_N a)%Z
          with ((Z.of_N r - t * Z.of_N a) - Z.of_N q * (Z.of_N nr - nt * Z.of_N a))%Z by ring.
        apply Z.divide_sub_r; auto. now apply Z.divide_mul_r.
      * exact E4.
      * exact S4.
      * exact Hnt.
Qed.

Lemma inv_state_init a n : inv_state a n n a 0 1.
Proof.
  constructor; try lia.
  - exists 1%Z. lia.
  - exists 0%Z. lia.
Qed.

Lemma inverse_loop_start a n : a < 2 ^ 128 -> 0 < n < 2 ^ 127 ->
  exists t', inverse_loop 300 n a 0 1 = Ok (N.gcd n a, t') /\
    (Z.of_N n | Z.of_N (N.gcd n a) - t' * Z.of_N a)%Z /\ (Z.abs t' <= Z.of_N n)%Z.
Proof.
  intros Ha Hn.
  assert (H127 : 2 ^ 127 < 2 ^ 128) by reflexivity.
  assert (H255 : 2 ^ 128 * 2 ^ 127 = 2 ^ 255) by reflexivity.
  destruct (N.le_gt_cases a n) as [L|L].
  - apply inverse_loop_ok; auto; try lia; [|apply inv_state_init].
    apply N.lt_le_trans with (2 ^ 255); [nia|]. apply N.pow_le_mono_r; lia.
  - remember 299%nat as f eqn:Ef. replace 300%nat with (S f) by (rewrite Ef; reflexivity).
    cbn [inverse_loop].
    destruct (N.eqb_spec a 0) as [->|Hz]; [lia|].
    rewrite N.div_small by auto. rewrite cmul_ok by reflexivity. cbn [bind].
    rewrite csub_ok by lia. cbn [bind]. cbn [as_i128]. change (as_i128 0 * 1)%Z with 0%Z.
    rewrite ci128_ok by lia. cbn [bind]. rewrite ci128_ok by lia. cbn [bind].
    rewrite N.mul_0_l, N.sub_0_r. change (0 - 0)%Z with 0%Z.
    apply inverse_loop_ok; auto; try lia.
    + apply N.lt_le_trans with (2 ^ 255); [nia|]. apply N.pow_le_mono_r; lia.
    + constructor; try lia.
      * apply N.gcd_comm.
      * exists 0%Z. lia.
      * exists 1%Z. lia.
Qed.

Lemma inverse_ok a n : a < 2 ^ 128 -> 0 < n < 2 ^ 127 ->
  (N.gcd a n <> 1 -> inverse a n = Ok None) /\
  (N.gcd a n = 1 -> exists d, inverse a n = Ok (Some d) /\ d <= n /\
    (a * d) mod n = 1 mod n).
Proof.
  intros Ha Hn. unfold inverse.
  destruct (inverse_loop_start a n Ha Hn) as (t & E & D & B). rewrite E. cbn [bind].
  rewrite (N.gcd_comm n a) in *. split; intros G.
  - destruct (N.eqb_spec (N.gcd a n) 1); [easy|]. reflexivity.
  - rewrite G in *. cbn [N.eqb negb Pos.eqb].
    assert (H127 : 2 ^ 127 = 170141183460469231731687303715884105728) by reflexivity.
    assert (R : exists u, (if (t <? 0)%Z then ci128 (t + as_i128 n) else Ok t) = Ok u /\
      (0 <= u <= Z.of_N n)%Z /\ (Z.of_N n | 1 - u * Z.of_N a)%Z).
    { rewrite as_i128_ok by lia. destruct (Z.ltb_spec t 0).
      - rewrite ci128_ok by (change (2 ^ 127)%Z with 170141183460469231731687303715884105728%Z; lia).
        eexists. split; [reflexivity|]. split; [lia|].
        replace (1 - (t + Z.of_N n) * Z.of_N a)%Z with (Z.of_N 1 - t * Z.of_N a - Z.of_N n * Z.of_N a)%Z by lia.
        apply Z.divide_sub_r; auto. apply Z.divide_factor_l.
      - exists t. split; [reflexivity|]. split; [lia|exact D]. }
    destruct R as (u & Eu & Bu & Du). rewrite Eu. cbn [bind].
    exists (Z.to_N u). split; [|split].
    + f_equal. f_equal. unfold as_u128. rewrite Z.mod_small; auto.
      change (2 ^ 128)%Z with 340282366920938463463374607431768211456%Z. lia.
    + lia.
    + apply N2Z.inj. rewrite !N2Z.inj_mod, N2Z.inj_mul by lia. rewrite Z2N.id by lia.
      destruct Du as [k Hk]. change (Z.of_N 1) with 1%Z.
      replace (Z.of_N a * u)%Z with (1 + (- k) * Z.of_N n)%Z by lia.
      apply Z_mod_plus_full.
Qed.

(** ** Key generation *)

Lemma lcm_ok a b : 0 < a -> 0 < b -> a * b < 2 ^ 128 -> lcm a b = Ok (N.lcm a b).
Proof.
  intros Ha Hb H. unfold lcm. rewrite cmul_ok by auto. cbn [bind].
  assert (G : N.gcd a b <> 0) by (rewrite N.gcd_eq_0; lia).
  rewrite (proj2 (N.eqb_neq _ _) G). f_equal. unfold N.lcm.
  rewrite N.divide_div_mul_exact; auto. apply N.gcd_divide_r.
Qed.

Lemma prime_odd p : prime_N p -> p = 2 \/ p mod 2 = 1.
Proof.
  intros H. destruct (N.eq_dec (p mod 2) 1) as [|E]; auto. left.
  assert (D : (2 | Z.of_N p)%Z) by (exists (Z.of_N (p / 2)); lia).
  destruct (prime_divisors _ H 2%Z D); lia.
Qed.

Lemma lcm_bound p q : prime_N p -> prime_N q -> p * q < 2 ^ 128 ->
  0 < N.lcm (p - 1) (q - 1) < 2 ^ 127.
Proof.
  intros Hp Hq H. pose proof (prime_N_ge2 p Hp). pose proof (prime_N_ge2 q Hq).
  assert (Z : N.lcm (p - 1) (q - 1) <> 0) by (rewrite N.lcm_eq_0; lia).
  split; [lia|].
  change (2 ^ 128) with (2 * 2 ^ 127) in H.
  destruct (prime_odd p Hp) as [->|Op].
  { change (2 - 1) with 1. rewrite N.lcm_1_l. lia. }
  destruct (prime_odd q Hq) as [->|Oq].
  { change (2 - 1) with 1. rewrite N.lcm_1_r. lia. }
  assert (D : (2 | N.gcd (p - 1) (q - 1))).
  { apply N.gcd_greatest; apply N.mod_divide; lia. }
  assert (G : N.gcd (p - 1) (q - 1) <> 0) by (rewrite N.gcd_eq_0; lia).
  assert (E : N.gcd (p - 1) (q - 1) * N.lcm (p - 1) (q - 1) = (p - 1) * (q - 1)).
  { unfold N.lcm. destruct (N.gcd_divide_r (p - 1) (q - 1)) as [k Hk].
    rewrite Hk at 2 4. rewrite N.div_mul by auto. ring. }
  destruct D as [k Hk]. assert (k <> 0) by lia. rewrite Hk in E.
  assert ((p - 1) * (q - 1) < p * q) by nia.
  nia.
Qed.

Lemma runwrap_u128 a : canonical a -> num a < 2 ^ 128 ->
  bind (big_as_u128 a) (fun r => runwrap r) = Ok (num a).
Proof.
  intros Ha H. rewrite as_u128_spec by auto. now rewrite (proj2 (N.ltb_lt _ _) H).
Qed.

(** No step checks that [p] and [q] are primes. *)
Lemma create_keys_any p q e : canonical p -> canonical q -> canonical e ->
  2 <= num p -> 2 <= num q -> num p * num q < 2 ^ 128 -> num e < 2 ^ 128 ->
  N.lcm (num p - 1) (num q - 1) < 2 ^ 127 ->
  (N.gcd (num e) (N.lcm (num p - 1) (num q - 1)) = 1 ->
   exists n d, create_keys p q e =
      Ok ({| priv_n := n; priv_d := d |}, {| pub_n := n; pub_e := e |}) /\
    canonical n /\ canonical d /\ num n = num p * num q /\
    num d <= N.lcm (num p - 1) (num q - 1) /\
    key_pair (num p) (num q) (num e) (num d)) /\
  (N.gcd (num e) (N.lcm (num p - 1) (num q - 1)) <> 1 -> create_keys p q e = Panic PUnwrap).
Proof.
  intros Cp Cq Ce Pp Pq Hn He Hl. unfold create_keys.
  rewrite !as_u128_spec by auto.
  assert (Hp : num p < 2 ^ 128) by nia. assert (Hq : num q < 2 ^ 128) by nia.
  rewrite (proj2 (N.ltb_lt _ _) Hp), (proj2 (N.ltb_lt _ _) Hq), (proj2 (N.ltb_lt _ _) He).
  cbn [bind runwrap]. rewrite cmul_ok by auto. cbn [bind]. rewrite !csub_ok by lia. cbn [bind].
  rewrite lcm_ok by nia. cbn [bind].
  assert (Z : N.lcm (num p - 1) (num q - 1) <> 0) by (rewrite N.lcm_eq_0; lia).
  assert (B : 0 < N.lcm (num p - 1) (num q - 1) < 2 ^ 127) by lia.
  destruct (inverse_ok (num e) _ He B) as [J I].
  split; intros G; [|now rewrite (J G)].
  destruct (I G) as (d & E & L & K). rewrite E. cbn [bind unwrap].
  destruct (from_u128_spec (num p * num q) Hn) as (bn & En & Cn & Vn). rewrite En. cbn [bind].
  destruct (from_u128_spec d) as (bd & Ed & Cd & Vd).
  { change (2 ^ 127) with 170141183460469231731687303715884105728 in B.
    change (2 ^ 128) with 340282366920938463463374607431768211456. lia. }
  rewrite Ed. cbn [bind].
  destruct (from_u128_spec (num e) He) as (be & Ee & Cbe & Vbe). rewrite Ee. cbn [bind].
  assert (be = e) as -> by (apply num_inj; auto).
  exists bn, bd. split; [reflexivity|]. split; [exact Cn|]. split; [exact Cd|].
  split; [exact Vn|]. rewrite Vd. split; [exact L|]. exact K.
Qed.

Lemma create_keys_ok p q e : canonical p -> canonical q -> canonical e ->
  prime_N (num p) -> prime_N (num q) -> num p * num q < 2 ^ 128 -> num e < 2 ^ 128 ->
  N.gcd (num e) (N.lcm (num p - 1) (num q - 1)) = 1 ->
  exists n d, create_keys p q e =
      Ok ({| priv_n := n; priv_d := d |}, {| pub_n := n; pub_e := e |}) /\
    canonical n /\ canonical d /\ num n = num p * num q /\
    num d <= N.lcm (num p - 1) (num q - 1) /\
    key_pair (num p) (num q) (num e) (num d).
Proof.
  intros Cp Cq Ce Pp Pq Hn He G. apply create_keys_any; auto using prime_N_ge2.
  apply lcm_bound; auto.
Qed.

Lemma create_keys_not_coprime p q e : canonical p -> canonical q -> canonical e ->
  prime_N (num p) -> prime_N (num q) -> num p * num q < 2 ^ 128 -> num e < 2 ^ 128 ->
  N.gcd (num e) (N.lcm (num p - 1) (num q - 1)) <> 1 ->
  create_keys p q e = Panic PUnwrap.
Proof.
  intros Cp Cq Ce Pp Pq Hn He G. apply create_keys_any; auto using prime_N_ge2.
  apply lcm_bound; auto.
Qed.

(** Too large for [u128]. *)
Lemma create_keys_too_big p q e : canonical p -> canonical q -> canonical e ->
  2 <= num p -> 2 <= num q -> num e < 2 ^ 128 -> 2 ^ 128 <= num p * num q ->
  create_keys p q e = Panic (if (num p <? 2 ^ 128) && (num q <? 2 ^ 128) then POverflow else PUnwrap).
Proof.
  intros Cp Cq Ce Pp Pq He H. unfold create_keys. rewrite !as_u128_spec by auto.
  destruct (num p <? 2 ^ 128); [|reflexivity]. cbn [bind runwrap].
  destruct (num q <? 2 ^ 128); [|reflexivity]. cbn [bind runwrap].
  rewrite (proj2 (N.ltb_lt _ _) He). cbn [bind runwrap]. rewrite cmul_panic by auto. reflexivity.
Qed.

(** Whatever the arguments, a result has a modulus of at most 128 bits. *)
Lemma create_keys_modulus p q e priv pub : create_keys p q e = Ok (priv, pub) ->
  bytes p -> bytes q ->
  priv_n priv = pub_n pub /\ canonical (pub_n pub) /\ num (pub_n pub) < 2 ^ 128 /\
  num (pub_n pub) = num p * num q.
Proof.
  unfold create_keys. intros E Bp Bq.
  apply bind_ok_inv in E as (rp & Ep & E). apply bind_ok_inv in E as (vp & Ep' & E).
  apply bind_ok_inv in E as (rq & Eq & E). apply bind_ok_inv in E as (vq & Eq' & E).
  apply bind_ok_inv in E as (re & Ee & E). apply bind_ok_inv in E as (ve & Ee' & E).
  apply bind_ok_inv in E as (n & En & E). apply bind_ok_inv in E as (p1 & Ep1 & E).
  apply bind_ok_inv in E as (q1 & Eq1 & E). apply bind_ok_inv in E as (l & El & E).
  apply bind_ok_inv in E as (d & Ed & E). apply bind_ok_inv in E as (d' & Ed' & E).
  apply bind_ok_inv in E as (bn & Ebn & E). apply bind_ok_inv in E as (bd & Ebd & E).
  apply bind_ok_inv in E as (be & Ebe & E). apply Ok_inj in E. injection E as <- <-.
  cbn [priv_n pub_n]. split; [reflexivity|].
  assert (V : forall x r v, bytes x -> big_as_u128 x = Ok r -> runwrap r = Ok v -> v = num x).
  { intros x r v Bx Ex Er. change num with from_le. destruct (le_lt_dec (length x) 16) as [L|L].
    - rewrite as_u128_ok in Ex by auto. apply Ok_inj in Ex. subst r. now apply Ok_inj in Er.
    - rewrite as_u128_err in Ex by auto. apply Ok_inj in Ex. subst r. discriminate. }
  rewrite <- (V p rp vp Bp Ep Ep'), <- (V q rq vq Bq Eq Eq').
  unfold cmul in En. destruct (N.ltb_spec (vp * vq) (2 ^ 128)) as [L|L]; [|discriminate].
  apply Ok_inj in En. subst n.
  destruct (from_u128_spec _ L) as (x & Ex & Cx & Vx). rewrite Ex in Ebn. apply Ok_inj in Ebn. subst x.
  rewrite Vx. auto.
Qed.

(** ** Round trips *)

Lemma rsa_roundtrip_spec capf k p q e n d m :
  prime_N p -> prime_N q -> p <> q -> key_pair p q (num e) (num d) -> num n = p * q ->
  canonical n -> canonical d -> canonical e -> canonical m ->
  countable e -> countable d -> allocates capf k ->
  (length m + 4 <= k)%nat -> (length n + 4 <= k)%nat ->
  exists c, rsa_encrypt capf {| rsa_exponent := e; rsa_modulo := n |} m = Ok c /\ canonical c /\
  exists r, rsa_decrypt capf {| rsa_exponent := d; rsa_modulo := n |} c = Ok r /\ canonical r /\
    num r = num m mod (p * q).
Proof.
  intros Hp Hq Hne Hk Hn Cn Cd Ce Cm Ke Kd Hal Lm Ln.
  pose proof (prime_N_ge2 _ Hp). pose proof (prime_N_ge2 _ Hq).
  assert (N1 : 1 < num n) by (rewrite Hn; nia).
  destruct (rsa_encrypt_spec capf k {| rsa_exponent := e; rsa_modulo := n |} m) as (c & E1 & _ & C1 & V1);
    cbn [rsa_exponent rsa_modulo]; auto.
  exists c. split; [exact E1|]. split; [exact C1|].
  assert (Lc : (length c <= length n)%nat).
  { apply canonical_length_mono; auto using canonical_bytes. change num with from_le in *.
    rewrite V1. unfold rsa_power. cbn [rsa_modulo]. apply N.lt_le_incl, N.mod_lt. lia. }
  destruct (rsa_encrypt_spec capf k {| rsa_exponent := d; rsa_modulo := n |} c) as (r & _ & E2 & C2 & V2);
    cbn [rsa_exponent rsa_modulo]; auto; [lia|].
  exists r. split; [exact E2|]. split; [exact C2|]. rewrite V2, V1. cbn [rsa_exponent rsa_modulo].
  rewrite Hn. now apply rsa_round_trip.
Qed.

Lemma key_pair_sym p q e d : key_pair p q e d -> key_pair p q d e.
Proof. unfold key_pair. now rewrite (N.mul_comm d e). Qed.

Lemma length_countable a : (length a <= 16)%nat -> countable a.
Proof. unfold countable. change (2 ^ 29) with 536870912. lia. Qed.

Lemma num_16 a : canonical a -> num a < 2 ^ 128 -> (length a <= 16)%nat.
Proof. intros Ha H. apply canonical_length_lt; auto. Qed.

(** Keys made by [create_keys], in both directions. *)
Lemma create_keys_roundtrip capf k p q e priv pub m : canonical p -> canonical q -> canonical e ->
  prime_N (num p) -> prime_N (num q) -> num p <> num q ->
  create_keys p q e = Ok (priv, pub) -> canonical m -> allocates capf k ->
  (length m + 20 <= k)%nat ->
  (exists c, rsa_encrypt capf (rsa_from_public pub) m = Ok c /\
     exists r, rsa_decrypt capf (rsa_from_private priv) c = Ok r /\
       canonical r /\ num r = num m mod (num p * num q)) /\
  (exists c, rsa_encrypt capf (rsa_from_private priv) m = Ok c /\
     exists r, rsa_decrypt capf (rsa_from_public pub) c = Ok r /\
       canonical r /\ num r = num m mod (num p * num q)).
Proof.
  intros Cp Cq Ce Pp Pq Hne E Cm Hal Lm.
  destruct (create_keys_modulus _ _ _ _ _ E (canonical_bytes _ Cp) (canonical_bytes _ Cq))
    as (_ & _ & L & V).
  rewrite V in L.
  assert (He : num e < 2 ^ 128).
  { unfold create_keys in E. rewrite !as_u128_spec in E by auto.
    destruct (num p <? 2 ^ 128); [|discriminate]. destruct (num q <? 2 ^ 128); [|discriminate].
    destruct (N.ltb_spec (num e) (2 ^ 128)); [auto|discriminate]. }
  destruct (N.eq_dec (N.gcd (num e) (N.lcm (num p - 1) (num q - 1))) 1) as [G|G].
  2:{ rewrite create_keys_not_coprime in E by auto. discriminate. }
  destruct (create_keys_ok p q e Cp Cq Ce Pp Pq L He G) as (n & d & E' & Cn & Cd & Vn & Ld & K).
  rewrite E in E'. apply Ok_inj in E'. injection E' as -> ->.
  pose proof (lcm_bound _ _ Pp Pq L) as B.
  assert (Dd : num d < 2 ^ 128).
  { change (2 ^ 127) with 170141183460469231731687303715884105728 in B.
    change (2 ^ 128) with 340282366920938463463374607431768211456. lia. }
  pose proof (num_16 n Cn ltac:(lia)) as Ln. pose proof (num_16 d Cd Dd) as Ldd.
  pose proof (num_16 e Ce He) as Le.
  split.
  - destruct (rsa_roundtrip_spec capf k (num p) (num q) e n d m) as (c & E1 & _ & r & E2 & C2 & V2);
      auto using length_countable; try lia.
    exists c. split; [exact E1|]. exists r. auto.
  - destruct (rsa_roundtrip_spec capf k (num p) (num q) d n e m) as (c & E1 & _ & r & E2 & C2 & V2);
      auto using length_countable, key_pair_sym; try lia.
    exists c. split; [exact E1|]. exists r. auto.
Qed.

(** ** A prime used twice *)

Lemma create_keys_twice capf p e : canonical p -> canonical e -> prime_N (num p) ->
  num p * num p < 2 ^ 128 -> num e < 2 ^ 128 -> N.gcd (num e) (num p - 1) = 1 -> 2 <= num e ->
  allocates capf 40 ->
  exists priv pub, create_keys p p e = Ok (priv, pub) /\ num p < num (pub_n pub) /\
  exists c, rsa_encrypt capf (rsa_from_public pub) p = Ok c /\
  exists r, rsa_decrypt capf (rsa_from_private priv) c = Ok r /\ r <> p.
Proof.
  intros Cp Ce Pp L He G E2 Hal. pose proof (prime_N_ge2 _ Pp) as P2.
  assert (Hl : N.lcm (num p - 1) (num p - 1) = num p - 1) by apply N.lcm_diag.
  rewrite <- Hl in G.
  destruct (create_keys_ok p p e Cp Cp Ce Pp Pp L He G) as (n & d & E & Cn & Cd & Vn & Ld & K).
  eexists. eexists. split; [exact E|]. cbn [pub_n]. split; [rewrite Vn; nia|].
  assert (Lp : (length p <= 16)%nat) by (apply num_16; auto; nia).
  assert (Ln : (length n <= 16)%nat) by (apply num_16; auto; lia).
  assert (Le : (length e <= 16)%nat) by (apply num_16; auto).
  assert (Ldd : (length d <= 16)%nat).
  { apply num_16; auto. pose proof (lcm_bound _ _ Pp Pp L) as B.
    change (2 ^ 127) with 170141183460469231731687303715884105728 in B.
    change (2 ^ 128) with 340282366920938463463374607431768211456. lia. }
  unfold rsa_from_public, rsa_from_private. cbn [pub_n pub_e priv_n priv_d].
  destruct (rsa_encrypt_spec capf 40 {| rsa_exponent := e; rsa_modulo := n |} p) as (c & E3 & _ & C3 & V3);
    cbn [rsa_exponent rsa_modulo]; auto using length_countable; try lia; try (rewrite Vn; nia).
  exists c. split; [exact E3|].
  assert (Vc : num c = 0).
  { rewrite V3. cbn [rsa_exponent rsa_modulo]. unfold rsa_power. rewrite Vn.
    replace (num e) with (2 + (num e - 2)) by lia. rewrite N.pow_add_r, N.pow_2_r.
    rewrite N.mul_comm. apply N.mod_mul. nia. }
  assert (c = []) as -> by (apply canonical_zero; auto).
  destruct (rsa_encrypt_spec capf 40 {| rsa_exponent := d; rsa_modulo := n |} []) as (r & _ & E4 & C4 & V4);
    cbn [rsa_exponent rsa_modulo length]; auto using length_countable, canonical_nil; try lia; try (rewrite Vn; nia).
  exists r. split; [exact E4|]. intros ->.
  rewrite V4 in P2. cbn [rsa_exponent rsa_modulo] in P2. unfold rsa_power in P2.
  change (num []) with 0 in P2. destruct (N.eq_dec (num d) 0) as [Z|Z].
  - rewrite Z, N.pow_0_r in P2. pose proof (N.mod_le 1 (num n)). rewrite Vn in *. nia.
  - rewrite N.pow_0_l in P2 by auto. rewrite N.mod_0_l in P2; [lia|]. rewrite Vn. nia.
Qed.

Lemma create_keys_roundtrip_below capf k p q e priv pub m : canonical p -> canonical q -> canonical e ->
  prime_N (num p) -> prime_N (num q) -> num p <> num q ->
  create_keys p q e = Ok (priv, pub) -> canonical m -> num m < num p * num q ->
  allocates capf k -> (40 <= k)%nat ->
  (exists c, rsa_encrypt capf (rsa_from_public pub) m = Ok c /\
     rsa_decrypt capf (rsa_from_private priv) c = Ok m) /\
  (exists c, rsa_encrypt capf (rsa_from_private priv) m = Ok c /\
     rsa_decrypt capf (rsa_from_public pub) c = Ok m).
Proof.
  intros Cp Cq Ce Pp Pq Hne E Cm Lm Hal Lk.
  destruct (create_keys_modulus _ _ _ _ _ E (canonical_bytes _ Cp) (canonical_bytes _ Cq))
    as (_ & _ & L & V).
  assert (Ll : (length m <= 16)%nat) by (apply num_16; auto; lia).
  destruct (create_keys_roundtrip capf k p q e priv pub m Cp Cq Ce Pp Pq Hne E Cm Hal ltac:(lia))
    as [(c & E1 & r & E2 & Cr & Vr) (c' & E1' & r' & E2' & Cr' & Vr')].
  rewrite N.mod_small in Vr, Vr' by auto. apply num_inj in Vr, Vr'; auto. subst r r'.
  split; eexists; eauto.
Qed.

Lemma create_keys_no_check p q e : canonical p -> canonical q -> canonical e ->
  2 <= num p -> 2 <= num q -> num p * num q < 2 ^ 128 -> num e < 2 ^ 128 ->
  N.lcm (num p - 1) (num q - 1) < 2 ^ 127 ->
  N.gcd (num e) (N.lcm (num p - 1) (num q - 1)) = 1 ->
  exists keys, create_keys p q e = Ok keys.
Proof.
  intros Cp Cq Ce Pp Pq Hn He Hl G.
  destruct (create_keys_any p q e Cp Cq Ce Pp Pq Hn He Hl) as [H _].
  destruct (H G) as (n & d & E & _). eexists. exact E.
Qed.

Lemma create_keys_composite :
  exists p q e m priv pub c r, ~ prime_N (num p) /\ create_keys p q e = Ok (priv, pub) /\
    canonical m /\ num m < num (pub_n pub) /\
    rsa_encrypt (fun k => k) (rsa_from_public pub) m = Ok c /\
    rsa_decrypt (fun k => k) (rsa_from_private priv) c = Ok r /\ num r <> num m.
Proof.
  exists [9], [5], [3], [3], {| priv_n := [45]; priv_d := [3] |}, {| pub_n := [45]; pub_e := [3] |}, [27], [18].
  split.
  { change (~ prime 9). intros P. destruct (prime_divisors 9 P 3); try lia. now exists 3%Z. }
  split; [vm_compute; reflexivity|]. split.
  { split; [repeat constructor; reflexivity|discriminate]. }
  split; [reflexivity|]. split; [vm_compute; reflexivity|]. split; [vm_compute; reflexivity|].
  discriminate.
Qed.

Lemma inverse_large_modulus :
  exists a n, a < 2 ^ 128 /\ 0 < n < 2 ^ 128 /\ N.gcd a n = 1 /\ inverse a n = Panic POverflow.
Proof.
  exists 2, (2 ^ 128 - 1). repeat split; vm_compute; reflexivity.
Qed.

(** ** Arguments that are not factors *)

Lemma create_keys_not_u128 p q e : canonical p -> canonical q -> canonical e ->
  2 ^ 128 <= num p \/ 2 ^ 128 <= num q \/ 2 ^ 128 <= num e ->
  create_keys p q e = Panic PUnwrap.
Proof.
  intros Cp Cq Ce H. unfold create_keys. rewrite !as_u128_spec by auto.
  destruct (N.ltb_spec (num p) (2 ^ 128)); [|reflexivity]. cbn [bind runwrap].
  destruct (N.ltb_spec (num q) (2 ^ 128)); [|reflexivity]. cbn [bind runwrap].
  destruct (N.ltb_spec (num e) (2 ^ 128)); [|reflexivity]. lia.
Qed.

Lemma inverse_zero e : e < 2 ^ 128 -> inverse e 0 = Ok (if e =? 1 then Some 1 else None).
Proof.
  intros He. unfold inverse. destruct (N.eqb_spec e 0) as [->|H0]; [reflexivity|].
  change 300%nat with (S 299). generalize 299%nat as f. intros f.
  assert (E : inverse_loop (S f) 0 e 0 1 = Ok (e, 1%Z)).
  { cbn [inverse_loop]. rewrite (proj2 (N.eqb_neq e 0) H0).
    change (0 / e) with 0. rewrite cmul_ok by (rewrite N.mul_0_l; reflexivity). cbn [bind].
    rewrite N.mul_0_l, csub_ok by lia. cbn [bind]. change (0 - 0) with 0.
    change (ci128 (as_i128 0 * 1)) with (@Ok Z 0%Z). cbn [bind].
    change (ci128 (0 - 0)) with (@Ok Z 0%Z). cbn [bind].
    destruct f; reflexivity. }
  rewrite E. cbn [bind]. destruct (N.eqb_spec e 1) as [->|H1]; reflexivity.
Qed.

Lemma create_keys_degenerate p q e : canonical p -> canonical q -> canonical e ->
  num p < 2 ^ 128 -> num q < 2 ^ 128 -> num e < 2 ^ 128 ->
  (num p = 0 \/ num q = 0 -> create_keys p q e = Panic POverflow) /\
  (num p = 1 -> num q = 1 -> create_keys p q e = Panic PDivZero) /\
  (num p = 1 /\ 2 <= num q \/ 2 <= num p /\ num q = 1 ->
   (num e <> 1 -> create_keys p q e = Panic PUnwrap) /\
   (num e = 1 -> exists n d, create_keys p q e =
      Ok ({| priv_n := n; priv_d := d |}, {| pub_n := n; pub_e := e |}) /\
      canonical n /\ canonical d /\ num n = num p * num q /\ num d = 1)).
Proof.
  intros Cp Cq Ce Hp Hq He. unfold create_keys. rewrite !as_u128_spec by auto.
  rewrite (proj2 (N.ltb_lt _ _) Hp), (proj2 (N.ltb_lt _ _) Hq), (proj2 (N.ltb_lt _ _) He).
  cbn [bind runwrap]. split; [|split].
  - intros H. rewrite cmul_ok by (destruct H as [-> | ->]; rewrite ?N.mul_0_l, ?N.mul_0_r; reflexivity).
    cbn [bind]. destruct (N.eq_dec (num p) 0) as [->|Z]; [reflexivity|].
    rewrite csub_ok by lia. cbn [bind]. destruct H as [H|H]; [lia|]. rewrite H. reflexivity.
  - intros -> ->. reflexivity.
  - intros H. assert (L : num p * num q < 2 ^ 128).
    { destruct H as [[-> _]|[_ ->]]; rewrite ?N.mul_1_l, ?N.mul_1_r; auto. }
    rewrite cmul_ok by auto. cbn [bind]. rewrite !csub_ok by lia. cbn [bind].
    assert (E : lcm (num p - 1) (num q - 1) = Ok 0).
    { unfold lcm. destruct H as [[-> H]|[H ->]]; change (1 - 1) with 0;
        rewrite ?N.mul_0_l, ?N.mul_0_r, ?N.gcd_0_l, ?N.gcd_0_r.
      - rewrite cmul_ok by (rewrite N.mul_0_l; reflexivity). cbn [bind]. rewrite N.mul_0_l.
        destruct (N.eqb_spec (num q - 1) 0); [lia|]. reflexivity.
      - rewrite cmul_ok by (rewrite N.mul_0_r; reflexivity). cbn [bind]. rewrite N.mul_0_r.
        destruct (N.eqb_spec (num p - 1) 0); [lia|]. reflexivity. }
    rewrite E. cbn [bind]. rewrite inverse_zero by auto. cbn [bind].
    split; intros He1.
    + rewrite (proj2 (N.eqb_neq _ _) He1). reflexivity.
    + rewrite He1. cbn [N.eqb Pos.eqb unwrap bind].
      destruct (from_u128_spec (num p * num q) L) as (bn & En & Cn & Vn). rewrite En. cbn [bind].
      destruct (from_u128_spec 1 eq_refl) as (bd & Ed & Cd & Vd). rewrite Ed. cbn [bind].
      assert (bd = e) by (apply num_inj; auto; congruence). subst bd.
      exists bn, e. repeat split; auto; try apply Cn; try apply Cd.
Qed.
