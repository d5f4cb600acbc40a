(** * Proofs: Wiener's attack *)
From Coq Require Import NArith ZArith List Lia Znumtheory.
From Verif Require Import Base BaseLemmas ModelBig ModelRsa SpecBig SpecRsa SpecWiener ProofBig3 ProofRsa.
From Coq Require Import ZifyBool ZifyNat ZifyN.
Ltac Zify.zify_post_hook ::= idtac.
Local Open Scope N_scope.

(** ** A good approximation is a convergent (Legendre) *)
Section Legendre.
  Context (a b h k : Z) (Hb : (0 < b)%Z) (Hk : (1 <= k)%Z) (Hg : Z.gcd h k = 1%Z).
  Context (good : (2 * k * Z.abs (a * k - b * h) < b)%Z).

  Lemma legendre_step x y h1 k1 h0 k0 s : (s = 1 \/ s = -1)%Z ->
    (a = h1 * x + h0 * y)%Z -> (b = k1 * x + k0 * y)%Z -> (h1 * k0 - h0 * k1 = s)%Z ->
    (0 <= y <= x)%Z -> (0 <= k0)%Z -> (0 < k1 <= k)%Z ->
    (y = 0 \/ k < x / y * k1 + k0)%Z -> (h = h1 /\ k = k1)%Z.
  Proof using Hb Hk Hg good.
    intros Hs Ea Eb Ed Hxy H0 H1 Hlast.
    (* h = u h1 + v h0, k = u k1 + v k0 *)
    set (u := (s * (h * k0 - h0 * k))%Z). set (v := (s * (h1 * k - h * k1))%Z).
    assert (Eh : (h = u * h1 + v * h0)%Z).
    { unfold u, v. transitivity (s * s * h)%Z; [destruct Hs as [->| ->]; ring|]. rewrite <- Ed at 2. ring. }
    assert (Ek : (k = u * k1 + v * k0)%Z).
    { unfold u, v. transitivity (s * s * k)%Z; [destruct Hs as [->| ->]; ring|]. rewrite <- Ed at 2. ring. }
    assert (D : (a * k - b * h = s * (v * x - u * y))%Z).
    { rewrite Ea, Eb. rewrite Ek at 1. rewrite Eh at 1. rewrite <- Ed. ring. }
    assert (AD : (Z.abs (a * k - b * h) = Z.abs (v * x - u * y))%Z).
    { rewrite D, Z.abs_mul. destruct Hs as [->| ->]; cbn [Z.abs]; lia. }
    clearbody u v. rewrite AD in good. clear AD D.
    assert (V : v = 0%Z).
    { destruct (Z.eq_dec v 0) as [|Nv]; [assumption|exfalso].
      assert (B : (y <= Z.abs (v * x - u * y))%Z).
      { destruct (Z.eq_dec y 0) as [->|Ny]; [lia|]. destruct Hlast as [|Hlast]; [contradiction|].
        assert (Q : (x / y * y <= x)%Z) by (rewrite Z.mul_comm; apply Z.mul_div_le; lia).
        destruct (Z_le_gt_dec u 0) as [U|U]; destruct (Z_le_gt_dec v 0) as [W|W].
        - exfalso. nia.
        - assert (1 * x <= v * x)%Z by (apply Z.mul_le_mono_nonneg_r; lia).
          assert (u * y <= 0)%Z by nia. lia.
        - assert (v * x <= -1 * x)%Z by (apply Z.mul_le_mono_nonneg_r; lia).
          assert (0 <= u * y)%Z by nia. lia.
        - assert (Hu : (u + 1 <= x / y)%Z).
          { destruct (Z_le_gt_dec (u + 1) (x / y)) as [|G]; [assumption|exfalso].
            assert (x / y * k1 <= u * k1)%Z by (apply Z.mul_le_mono_nonneg_r; lia).
            assert (1 * k0 <= v * k0)%Z by (apply Z.mul_le_mono_nonneg_r; lia). lia. }
          assert ((u + 1) * y <= x / y * y)%Z by (apply Z.mul_le_mono_nonneg_r; lia).
          assert (1 * x <= v * x)%Z by (apply Z.mul_le_mono_nonneg_r; lia). lia. }
      (* b |v| <= k y + k1 |delta| *)
      assert (E : (v * b = k1 * (v * x - u * y) + k * y)%Z) by (rewrite Eb; rewrite Ek at 1; ring).
      assert (T : (Z.abs (v * b) <= k1 * Z.abs (v * x - u * y) + k * y)%Z).
      { rewrite E. eapply Z.le_trans; [apply Z.abs_triangle|]. rewrite !Z.abs_mul.
        rewrite (Z.abs_eq k1), (Z.abs_eq k), (Z.abs_eq y) by lia. lia. }
      rewrite Z.abs_mul, (Z.abs_eq b) in T by lia.
      assert (1 * b <= Z.abs v * b)%Z by (apply Z.mul_le_mono_nonneg_r; lia).
      set (w := Z.abs (v * x - u * y)) in *.
      assert (k1 * w <= k * w)%Z by (apply Z.mul_le_mono_nonneg_r; lia).
      assert (k * y <= k * w)%Z by (apply Z.mul_le_mono_nonneg_l; lia).
      lia. }
    subst v. rewrite Z.mul_0_l, Z.add_0_r in Eh, Ek.
    assert (U : (0 < u)%Z) by nia.
    assert (Du : (u | Z.gcd h k)%Z) by (apply Z.gcd_greatest; [exists h1|exists k1]; lia).
    rewrite Hg in Du. apply Z.divide_1_r_nonneg in Du; [|lia]. subst u. lia.
  Qed.
End Legendre.

Lemma gcd_of_N x y : Z.gcd (Z.of_N x) (Z.of_N y) = Z.of_N (N.gcd x y).
Proof. destruct x, y; reflexivity. Qed.

Section List_.
  Context (a b h k : N) (Hb : 0 < b) (Hk : 1 <= k) (Hg : N.gcd h k = 1).
  Context (good : (2 * Z.of_N k * Z.abs (Z.of_N a * Z.of_N k - Z.of_N b * Z.of_N h) < Z.of_N b)%Z).

  Lemma convergents_in fuel : forall x y h1 k1 h0 k0,
    (Z.of_N h1 * Z.of_N k0 - Z.of_N h0 * Z.of_N k1 = 1 \/ Z.of_N h1 * Z.of_N k0 - Z.of_N h0 * Z.of_N k1 = -1)%Z ->
    a = h1 * x + h0 * y -> b = k1 * x + k0 * y -> y <= x -> x * y < 2 ^ N.of_nat fuel -> 0 < k1 <= k ->
    In (h, k) ((h1, k1) :: convergents fuel x y h1 k1 h0 k0).
  Proof using Hb Hk Hg good.
    induction fuel as [|fuel IH]; intros x y h1 k1 h0 k0 Hs Ea Eb Hxy Hf H1.
    - left. assert (y = 0) as -> by (change (2 ^ N.of_nat 0) with 1 in Hf; nia).
      destruct (legendre_step (Z.of_N a) (Z.of_N b) (Z.of_N h) (Z.of_N k) ltac:(lia) ltac:(lia)
        ltac:(rewrite gcd_of_N, Hg; reflexivity) good (Z.of_N x) 0 (Z.of_N h1) (Z.of_N k1) (Z.of_N h0) (Z.of_N k0)
        _ Hs ltac:(lia) ltac:(lia) eq_refl ltac:(lia) ltac:(lia) ltac:(lia) (or_introl eq_refl)) as [E1 E2].
      f_equal; lia.
    - cbn [convergents]. destruct (N.eqb_spec y 0) as [->|Hy].
      + left. destruct (legendre_step (Z.of_N a) (Z.of_N b) (Z.of_N h) (Z.of_N k) ltac:(lia) ltac:(lia)
          ltac:(rewrite gcd_of_N, Hg; reflexivity) good (Z.of_N x) 0 (Z.of_N h1) (Z.of_N k1) (Z.of_N h0) (Z.of_N k0)
          _ Hs ltac:(lia) ltac:(lia) eq_refl ltac:(lia) ltac:(lia) ltac:(lia) (or_introl eq_refl)) as [E1 E2].
        f_equal; lia.
      + pose proof (N.div_mod x y Hy) as DM. pose proof (N.mod_lt x y Hy) as ML.
        assert (QZ : Z.of_N (x / y) = (Z.of_N x / Z.of_N y)%Z) by apply N2Z.inj_div.
        set (q := x / y) in *. set (r := x mod y) in *.
        assert (Q1 : 1 <= q) by (destruct (N.eq_dec q 0) as [Q0|]; [rewrite Q0 in DM|]; lia).
        destruct (N.lt_ge_cases k (q * k1 + k0)) as [Lt|Ge].
        * left. destruct (legendre_step (Z.of_N a) (Z.of_N b) (Z.of_N h) (Z.of_N k) ltac:(lia) ltac:(lia)
            ltac:(rewrite gcd_of_N, Hg; reflexivity) good (Z.of_N x) (Z.of_N y) (Z.of_N h1) (Z.of_N k1) (Z.of_N h0) (Z.of_N k0)
            _ Hs ltac:(lia) ltac:(lia) eq_refl ltac:(lia) ltac:(lia) ltac:(lia)
            ltac:(right; rewrite <- QZ; lia)) as [E1 E2].
          f_equal; lia.
        * right. apply IH.
          -- destruct Hs as [Hs|Hs]; [right|left];
               rewrite !N2Z.inj_add, !N2Z.inj_mul; clear - Hs; lia.
          -- rewrite Ea, DM. ring.
          -- rewrite Eb, DM. ring.
          -- lia.
          -- rewrite Nat2N.inj_succ, N.pow_succ_r' in Hf.
             assert (R : 2 * r <= x).
             { assert (1 * y <= q * y) by (apply N.mul_le_mono_r; exact Q1). lia. }
             assert (2 * r * y <= x * y) by (apply N.mul_le_mono_r; exact R).
             clear - Hf H. lia.
          -- assert (0 < q * k1) by (apply N.mul_pos_pos; lia). lia.
  Qed.
End List_.

Lemma size_nat_pow x : x < 2 ^ N.of_nat (N.size_nat x).
Proof.
  destruct x as [|x]; [reflexivity|]. cbn [N.size_nat].
  induction x as [x IH|x IH|]; [| |reflexivity];
    cbn [Pos.size_nat]; rewrite Nat2N.inj_succ, N.pow_succ_r'.
  - change (N.pos x~1) with (2 * N.pos x + 1). lia.
  - change (N.pos x~0) with (2 * N.pos x). lia.
Qed.

(** All good approximations of [e / n] are in the list that the attack goes through. *)
Lemma approximation_listed e n h k : 0 < n -> 1 <= k -> N.gcd h k = 1 ->
  (2 * Z.of_N k * Z.abs (Z.of_N e * Z.of_N k - Z.of_N n * Z.of_N h) < Z.of_N n)%Z ->
  In (h, k) (convergents (N.size_nat e + N.size_nat n + 1) e n 1 0 0 1).
Proof.
  intros Hn Hk Hg good. rewrite Nat.add_1_r. cbn [convergents].
  destruct (N.eqb_spec n 0) as [|Hn0]; [lia|].
  rewrite N.mul_1_r, N.add_0_r, N.mul_0_r, N.add_0_l.
  pose proof (N.div_mod e n Hn0) as DM. pose proof (N.mod_lt e n Hn0) as ML. pose proof (N.mod_le e n Hn0) as MLe.
  apply (convergents_in e n h k Hn Hk Hg good).
  - right. lia.
  - rewrite DM at 1. ring.
  - ring.
  - lia.
  - rewrite Nat2N.inj_add, N.pow_add_r, (N.mul_comm n).
    apply N.le_lt_trans with (e * n); [apply N.mul_le_mono_r; exact MLe|].
    apply N.mul_lt_mono; apply size_nat_pow.
  - lia.
Qed.

(** ** The primes *)
Lemma wiener_roots p q : 1 < p -> 1 < q ->
  let s := p + q in let r := N.sqrt (s * s - 4 * (p * q)) in
  ((s - r) / 2) * ((s + r) / 2) = p * q /\ 1 < (s - r) / 2 /\ 1 < (s + r) / 2.
Proof.
  intros Hp Hq s r.
  assert (H : forall x y, x <= y -> 1 < x -> x + y = s -> x * y = p * q ->
    ((s - r) / 2) * ((s + r) / 2) = p * q /\ 1 < (s - r) / 2 /\ 1 < (s + r) / 2).
  { intros x y L X S P.
    assert (R : r = y - x).
    { unfold r. rewrite <- P, <- S. replace ((x + y) * (x + y) - 4 * (x * y)) with ((y - x) * (y - x)).
      - apply N.sqrt_square.
      - replace y with (x + (y - x)) at 3 4 5 by lia. generalize (y - x). intros z.
        symmetry. apply N.add_sub_eq_l. ring. }
    rewrite R. replace (s - (y - x)) with (x * 2) by lia. replace (s + (y - x)) with (y * 2) by lia.
    rewrite !N.div_mul by discriminate. split; [exact P|]. lia. }
  destruct (N.le_ge_cases p q) as [L|L].
  - apply (H p q L Hp); reflexivity.
  - apply (H q p L Hq); unfold s; [apply N.add_comm|apply N.mul_comm].
Qed.

Lemma wiener_finds n e k d p q g : 1 < p -> 1 < q -> n = p * q -> g < k ->
  e * d = g + k * ((p - 1) * (q - 1)) -> exists f, wiener_try n e (k, d) = Some f.
Proof.
  intros Hp Hq -> Hg E. unfold wiener_try. destruct (N.eqb_spec k 0) as [|Hk]; [lia|].
  rewrite E. rewrite (N.mul_comm k), N.div_add by exact Hk. rewrite (N.div_small g k Hg), N.add_0_l.
  replace (p * q + 1 - (p - 1) * (q - 1)) with (p + q).
  2: { replace p with (p - 1 + 1) at 1 2 by lia. replace q with (q - 1 + 1) at 1 2 by lia.
       generalize (p - 1), (q - 1). intros x y. symmetry. apply N.add_sub_eq_l. ring. }
  destruct (wiener_roots p q Hp Hq) as (A & B & C). cbv zeta in A, B, C.
  rewrite A, N.eqb_refl. rewrite (proj2 (N.ltb_lt _ _) B), (proj2 (N.ltb_lt _ _) C). eexists. reflexivity.
Qed.

Lemma wiener_sound n e x y : wiener n e = Some (x, y) -> x * y = n /\ 1 < x /\ 1 < y.
Proof.
  unfold wiener. induction (convergents _ e n 1 0 0 1) as [|[k d] cs IH]; cbn [fold_right]; [discriminate|].
  unfold wiener_try at 1. destruct (k =? 0); [exact IH|].
  destruct ((_ * _ =? n) && _ && _)%bool eqn:E; [|exact IH].
  intros H. injection H as <- <-. apply andb_true_iff in E. destruct E as [E C].
  apply andb_true_iff in E. destruct E as [A B].
  apply N.eqb_eq in A. apply N.ltb_lt in B. apply N.ltb_lt in C. auto.
Qed.

Lemma wiener_some n e c f : In c (convergents (N.size_nat e + N.size_nat n + 1) e n 1 0 0 1) ->
  wiener_try n e c = Some f -> exists f', wiener n e = Some f'.
Proof.
  unfold wiener. intros I E. induction (convergents _ e n 1 0 0 1) as [|c' cs IH]; [destruct I|].
  cbn [fold_right]. destruct (wiener_try n e c') as [f'|] eqn:E'; [eauto|].
  destruct I as [->|I]; [congruence|]. auto.
Qed.

Lemma gcd_lcm a b : N.gcd a b * N.lcm a b = a * b.
Proof.
  unfold N.lcm. destruct (N.eq_dec (N.gcd a b) 0) as [E|E].
  - apply N.gcd_eq_0 in E. destruct E as [-> ->]. reflexivity.
  - destruct (N.gcd_divide_r a b) as [z Hz]. rewrite Hz at 2. rewrite N.div_mul by exact E.
    rewrite (N.mul_comm (N.gcd a b)), <- N.mul_assoc, <- Hz. reflexivity.
Qed.

(** The reduced fraction [k / (d g)] with [e d g = g + k (p - 1) (q - 1)]. *)
Lemma reduced a L G e d k0 : a = G * L -> 0 < G -> e * d = 1 + k0 * L -> 0 < k0 -> 0 < d -> G < k0 -> k0 < d ->
  exists k g, e * (d * g) = g + k * a /\ g < k /\ N.gcd k (d * g) = 1 /\ 0 < g /\ g <= G /\ k * g <= G * d /\ 0 < k.
Proof.
  intros Ea HG E Hk Hd Hlt Hkd.
  assert (C0 : N.gcd k0 G <> 0) by (intros C; apply N.gcd_eq_0 in C; lia).
  destruct (N.gcd_divide_l k0 G) as [k Ek]. destruct (N.gcd_divide_r k0 G) as [g Eg].
  assert (Hg : N.gcd k g = 1).
  { pose proof (N.gcd_div_gcd k0 G (N.gcd k0 G) C0 eq_refl) as D.
    rewrite Ek in D at 1. rewrite N.div_mul in D by exact C0.
    rewrite Eg in D at 1. rewrite N.div_mul in D by exact C0. exact D. }
  set (c := N.gcd k0 G) in *. clearbody c.
  assert (Hgp : 0 < g) by (destruct (N.eq_dec g 0) as [->|]; lia).
  assert (Hkp : 0 < k) by (destruct (N.eq_dec k 0) as [->|]; lia).
  assert (Hcp : 1 <= c) by lia.
  exists k, g. split; [|split; [|split; [|split; [exact Hgp|split; [|split; [|exact Hkp]]]]]].
  - rewrite N.mul_assoc, E, Ea, Eg, Ek. ring.
  - rewrite Eg, Ek in Hlt. apply N.mul_lt_mono_pos_r in Hlt; [exact Hlt|lia].
  - assert (D : N.gcd k d = 1).
    { apply N.divide_1_r. set (t := N.gcd k d).
      assert (T1 : N.divide t (k0 * L)).
      { apply N.divide_mul_l. rewrite Ek. apply N.divide_mul_l. apply N.gcd_divide_l. }
      assert (T2 : N.divide t (e * d)) by (apply N.divide_mul_r; apply N.gcd_divide_r).
      rewrite E, N.add_comm in T2. exact (N.divide_add_cancel_r t (k0 * L) 1 T1 T2). }
    pose proof (N.gauss k d g) as Ga.
    apply N.divide_1_r. rewrite <- Hg. apply N.gcd_greatest; [apply N.gcd_divide_l|].
    apply (N.gauss (N.gcd k (d * g)) d g); [apply N.gcd_divide_r|].
    apply N.divide_1_r. rewrite <- D. apply N.gcd_greatest; [|apply N.gcd_divide_r].
    eapply N.divide_trans; [apply N.gcd_divide_l|apply N.gcd_divide_l].
  - rewrite Eg. rewrite <- (N.mul_1_r g) at 1. apply N.mul_le_mono_l. exact Hcp.
  - rewrite Eg. assert (k <= d).
    { apply N.le_trans with k0; [|lia]. rewrite Ek. rewrite <- (N.mul_1_r k) at 1. apply N.mul_le_mono_l. exact Hcp. }
    apply N.le_trans with (d * g); [apply N.mul_le_mono_r; assumption|].
    rewrite (N.mul_comm d). apply N.mul_le_mono_r. rewrite <- (N.mul_1_r g) at 1. apply N.mul_le_mono_l. exact Hcp.
Qed.

Lemma two_factors p q x y : prime_N p -> prime_N q -> 1 < x -> 1 < y -> x * y = p * q ->
  (x = p /\ y = q) \/ (x = q /\ y = p).
Proof.
  intros Pp Pq Hx Hy E.
  assert (D : (Z.of_N p | Z.of_N x * Z.of_N y)%Z) by (exists (Z.of_N q); lia).
  assert (P1 : (1 < Z.of_N p)%Z) by apply Pp.
  apply prime_mult in D; [|exact Pp]. destruct D as [[z D]|[z D]].
  - assert (Q : (Z.of_N q = z * Z.of_N y)%Z).
    { apply (Z.mul_cancel_l _ _ (Z.of_N p)); [lia|]. transitivity (Z.of_N x * Z.of_N y)%Z; [lia|]. rewrite D. ring. }
    destruct (prime_divisors _ Pq (Z.of_N y)) as [F|[F|[F|F]]]; [now exists z|lia|lia| |lia].
    left. assert (z = 1)%Z by nia. subst z. lia.
  - assert (Q : (Z.of_N q = z * Z.of_N x)%Z).
    { apply (Z.mul_cancel_l _ _ (Z.of_N p)); [lia|]. transitivity (Z.of_N x * Z.of_N y)%Z; [lia|]. rewrite D. ring. }
    destruct (prime_divisors _ Pq (Z.of_N x)) as [F|[F|[F|F]]]; [now exists z|lia|lia| |lia].
    right. assert (z = 1)%Z by nia. subst z. lia.
Qed.

Lemma wiener_key p q e d : prime_N p -> prime_N q -> 2 < p -> 2 < q -> key_pair p q e d ->
  e < N.lcm (p - 1) (q - 1) -> (p - 1) * (q - 1) + 1 < e * d ->
  2 * N.gcd (p - 1) (q - 1) * (d * d) * (p + q) <= p * q ->
  exists x y, wiener (p * q) e = Some (x, y) /\ ((x = p /\ y = q) \/ (x = q /\ y = p)).
Proof.
  intros Pp Pq Hp Hq K He Hbig Hsmall. unfold key_pair in K.
  pose proof (gcd_lcm (p - 1) (q - 1)) as GL.
  set (L := N.lcm (p - 1) (q - 1)) in *. set (G := N.gcd (p - 1) (q - 1)) in *.
  assert (HL : 1 < L).
  { assert (D : N.divide (p - 1) L) by apply N.divide_lcm_l. apply N.divide_pos_le in D; lia. }
  assert (HG : 0 < G).
  { destruct (N.eq_dec G 0) as [Z0|]; [|lia]. unfold G in Z0. apply N.gcd_eq_0 in Z0. lia. }
  assert (GLe : G <= p - 1).
  { apply N.divide_pos_le; [lia|apply N.gcd_divide_l]. }
  clearbody L G.
  rewrite (N.mod_small 1 L HL) in K. pose proof (N.div_mod (e * d) L ltac:(lia)) as DM. rewrite K in DM.
  set (k0 := e * d / L) in *. clearbody k0.
  assert (E : e * d = 1 + k0 * L) by lia.
  assert (Hd : 0 < d) by (destruct (N.eq_dec d 0) as [->|]; lia).
  assert (Gk : G < k0).
  { apply N.mul_lt_mono_pos_r with L; [lia|]. rewrite GL. lia. }
  assert (kd : k0 < d).
  { apply N.mul_lt_mono_pos_r with L; [lia|]. apply N.lt_le_trans with (e * d); [lia|].
    rewrite (N.mul_comm d). apply N.mul_le_mono_r. lia. }
  destruct (reduced ((p - 1) * (q - 1)) L G e d k0 (eq_sym GL) HG E ltac:(lia) Hd Gk kd)
    as (k & g & E' & gk & Cop & Hg & gG & kg & Hk).
  assert (I : In (k, d * g) (convergents (N.size_nat e + N.size_nat (p * q) + 1) e (p * q) 1 0 0 1)).
  { assert (Hdg : 1 <= d * g) by (assert (0 < d * g) by (apply N.mul_pos_pos; lia); lia).
    apply approximation_listed; [apply N.mul_pos_pos; lia|exact Hdg|exact Cop|].
    assert (D : (Z.of_N e * Z.of_N (d * g) - Z.of_N (p * q) * Z.of_N k =
                 Z.of_N g - Z.of_N k * (Z.of_N p + Z.of_N q - 1))%Z).
    { rewrite <- N2Z.inj_mul, E'. rewrite !N2Z.inj_add, !N2Z.inj_mul, !N2Z.inj_sub by lia. ring. }
    assert (B : (Z.abs (Z.of_N e * Z.of_N (d * g) - Z.of_N (p * q) * Z.of_N k) < Z.of_N k * (Z.of_N p + Z.of_N q))%Z).
    { rewrite D. set (s := (Z.of_N p + Z.of_N q)%Z).
      assert (1 * s <= Z.of_N k * s)%Z by (apply Z.mul_le_mono_nonneg_r; unfold s; lia).
      assert (Z.of_N g < s - 1)%Z by (unfold s; lia).
      assert (1 * (s - 1) <= Z.of_N k * (s - 1))%Z by (apply Z.mul_le_mono_nonneg_r; unfold s; lia).
      lia. }
    apply Z.lt_le_trans with (2 * Z.of_N (d * g) * (Z.of_N k * (Z.of_N p + Z.of_N q)))%Z.
    - apply Z.mul_lt_mono_pos_l; [lia|exact B].
    - apply Z.le_trans with (Z.of_N (2 * G * (d * d) * (p + q))); [|apply N2Z.inj_le in Hsmall; exact Hsmall].
      assert (T : 2 * (d * g) * (k * (p + q)) <= 2 * G * (d * d) * (p + q)).
      { replace (2 * (d * g) * (k * (p + q))) with (2 * d * (p + q) * (k * g)) by ring.
        replace (2 * G * (d * d) * (p + q)) with (2 * d * (p + q) * (G * d)) by ring.
        apply N.mul_le_mono_l. exact kg. }
      apply N2Z.inj_le in T. rewrite !N2Z.inj_mul, !N2Z.inj_add in T. rewrite !N2Z.inj_mul, !N2Z.inj_add. exact T. }
  destruct (wiener_finds (p * q) e k (d * g) p q g ltac:(lia) ltac:(lia) eq_refl gk E') as [f F].
  destruct (wiener_some (p * q) e (k, d * g) f I F) as [[x y] W].
  exists x, y. split; [exact W|]. apply wiener_sound in W. destruct W as (A & B & C).
  now apply two_factors.
Qed.

Lemma wiener_created p q e priv pub : canonical p -> canonical q -> canonical e ->
  prime_N (num p) -> prime_N (num q) -> 2 < num p -> 2 < num q ->
  create_keys p q e = Ok (priv, pub) ->
  num e < N.lcm (num p - 1) (num q - 1) -> (num p - 1) * (num q - 1) + 1 < num e * num (priv_d priv) ->
  2 * N.gcd (num p - 1) (num q - 1) * (num (priv_d priv) * num (priv_d priv)) * (num p + num q) <= num p * num q ->
  exists x y, wiener (num (pub_n pub)) (num (pub_e pub)) = Some (x, y) /\
    ((x = num p /\ y = num q) \/ (x = num q /\ y = num p)).
Proof.
  intros Cp Cq Ce Pp Pq P Q H.
  destruct (N.lt_ge_cases (num p) (2 ^ 128)) as [Bp|Bp]; [|rewrite create_keys_not_u128 in H by auto; discriminate H].
  destruct (N.lt_ge_cases (num q) (2 ^ 128)) as [Bq|Bq]; [|rewrite create_keys_not_u128 in H by auto; discriminate H].
  destruct (N.lt_ge_cases (num e) (2 ^ 128)) as [Be|Be]; [|rewrite create_keys_not_u128 in H by auto; discriminate H].
  destruct (N.lt_ge_cases (num p * num q) (2 ^ 128)) as [Bn|Bn];
    [|rewrite create_keys_too_big in H by (auto; lia); discriminate H].
  destruct (N.eq_dec (N.gcd (num e) (N.lcm (num p - 1) (num q - 1))) 1) as [G|G];
    [|rewrite create_keys_not_coprime in H by auto; discriminate H].
  destruct (create_keys_ok p q e Cp Cq Ce Pp Pq Bn Be G) as (n & d & K & _ & _ & Vn & _ & KP).
  rewrite K in H. injection H as <- <-. cbn [pub_n pub_e priv_d]. rewrite Vn.
  now apply wiener_key.
Qed.

(** Every exponent that is coprime to the modulus of the exponents is the private one of some
    accepted key. *)
Lemma any_private p q d : canonical p -> canonical q -> prime_N (num p) -> prime_N (num q) -> 2 < num p -> 2 < num q ->
  num p * num q < 2 ^ 128 -> 0 < d < N.lcm (num p - 1) (num q - 1) -> N.gcd d (N.lcm (num p - 1) (num q - 1)) = 1 ->
  exists e priv pub, canonical e /\ num e < N.lcm (num p - 1) (num q - 1) /\
    create_keys p q e = Ok (priv, pub) /\ num (priv_d priv) = d.
Proof.
  intros Cp Cq Pp Pq P Q Bn Hd G. set (L := N.lcm (num p - 1) (num q - 1)) in *.
  assert (BL : 0 < L < 2 ^ 127) by (split; [lia|apply lcm_bound; auto]).
  assert (Bd : d < 2 ^ 128).
  { change (2 ^ 128) with (2 * 2 ^ 127). lia. }
  destruct (inverse_ok d L Bd BL) as [_ I]. destruct (I G) as (e & _ & Le & Ke).
  assert (HL : 1 < L).
  { assert (D : N.divide (num p - 1) L) by apply N.divide_lcm_l. apply N.divide_pos_le in D; lia. }
  rewrite (N.mod_small 1 L HL) in Ke.
  assert (Lt : e < L).
  { destruct (N.eq_dec e L) as [->|]; [|lia]. rewrite N.mod_mul in Ke by lia. discriminate Ke. }
  assert (Be : e < 2 ^ 128) by (change (2 ^ 128) with (2 * 2 ^ 127); lia).
  assert (Ge : N.gcd e L = 1).
  { apply N.divide_1_r. set (t := N.gcd e L).
    pose proof (N.div_mod (d * e) L ltac:(lia)) as DM. rewrite Ke in DM.
    assert (T1 : N.divide t (L * (d * e / L))) by (apply N.divide_mul_l; apply N.gcd_divide_r).
    assert (T2 : N.divide t (d * e)) by (apply N.divide_mul_r; apply N.gcd_divide_l).
    rewrite DM in T2. exact (N.divide_add_cancel_r t _ 1 T1 T2). }
  destruct (from_u128_spec e Be) as (be & _ & Ce & Ve). rewrite <- Ve in Lt, Ge, Be, Ke.
  destruct (create_keys_ok p q be Cp Cq Ce Pp Pq Bn Be Ge) as (n & d' & K & _ & _ & _ & Ld & KP).
  unfold key_pair in KP. fold L in KP, Ld. rewrite (N.mod_small 1 L HL) in KP.
  assert (Ld' : num d' < L).
  { destruct (N.eq_dec (num d') L) as [E|]; [|lia]. rewrite E, N.mod_mul in KP by lia. discriminate KP. }
  eexists. eexists. eexists. split; [exact Ce|]. split; [exact Lt|]. split; [exact K|]. cbn [priv_d].
  rewrite <- (N.mod_small (num d') L Ld'), <- (N.mod_small d L) by lia.
  transitivity ((d * (num be * num d')) mod L).
  - rewrite N.mul_assoc, <- N.mul_mod_idemp_l, Ke, N.mul_1_l by lia. reflexivity.
  - rewrite <- N.mul_mod_idemp_r, KP, N.mul_1_r by lia. reflexivity.
Qed.
