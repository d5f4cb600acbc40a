(** * Correctness of the attack *)
From Coq Require Import ZifyBool ZifyNat ZifyN.
From Verif Require Import Base BaseLemmas ModelSha ModelBig ModelRsa ModelOracle SpecEndian SpecBig SpecSha SpecRsa SpecOaep SpecMsg
  SpecManger ProofBig ProofBig3 ProofRsa ProofRsaMath ProofAsn1 ProofKey ProofOaep ProofMsg.
Local Open Scope N_scope.
Local Open Scope list_scope.

Section Attack.
  Context (o : N -> bool) (n B m : N).

  Lemma grow_ok fuel g q g' q' : (forall f, o f = (B <=? (f * m) mod n)) -> 2 * B <= n -> 0 < B ->
    1 <= g -> g * m < B -> grow o fuel g q = (g', q') ->
    1 <= g' /\ g' * m < B /\ q' <= q + N.of_nat fuel /\ (B <= 2 * (g' * m) \/ g * 2 ^ N.of_nat fuel <= g').
  Proof.
    intros Ho Hn HB. revert g q. induction fuel as [|fuel IH]; intros g q Hg Hm E; cbn [grow] in E.
    - injection E as <- <-. change (N.of_nat 0) with 0. rewrite N.pow_0_r. repeat split; auto; lia.
    - rewrite Ho, N.mod_small in E by nia. destruct (N.leb_spec B (2 * g * m)) as [L|L].
      + injection E as <- <-. repeat split; auto; lia.
      + apply IH in E; [|lia|lia]. destruct E as (E1 & E2 & E3 & E4). repeat split; auto; [lia|].
        destruct E4 as [E4|E4]; [now left|right]. rewrite Nat2N.inj_succ, N.pow_succ_r'. lia.
  Qed.

  Lemma advance_ok fuel g f j q f' q' : (forall f, o f = (B <=? (f * m) mod n)) -> 2 * B <= n -> 0 < B ->
    g * m < B -> j * n + B <= f * m -> f * m < (j + 1) * n ->
    (j + 1) * n <= f * m + N.of_nat fuel * (g * m) -> advance o fuel g f q = (f', q') ->
    f <= f' /\ (j + 1) * n <= f' * m < (j + 1) * n + B /\ q' <= q + N.of_nat fuel.
  Proof.
    intros Ho Hn HB Hg. revert f q. induction fuel as [|fuel IH]; intros f q H1 H2 H3 E; cbn [advance] in E; [lia|].
    rewrite Ho in E. rewrite N.mul_add_distr_r in E.
    destruct (N.lt_ge_cases (f * m + g * m) ((j + 1) * n)) as [L|L].
    - rewrite <- (N.mod_unique (f * m + g * m) n j (f * m + g * m - j * n)) in E by lia.
      destruct (N.leb_spec B (f * m + g * m - j * n)); [|lia].
      apply IH in E; lia.
    - rewrite <- (N.mod_unique (f * m + g * m) n (j + 1) (f * m + g * m - (j + 1) * n)) in E by lia.
      destruct (N.leb_spec B (f * m + g * m - (j + 1) * n)); [lia|].
      injection E as <- <-. rewrite N.mul_add_distr_r. lia.
  Qed.

  Lemma refine_ok fuel g f j q x q' : (forall f, o f = (B <=? (f * m) mod n)) -> 2 * B <= n -> 0 < B ->
    1 <= f -> g * m < B -> (B <= 2 * (g * m) \/ B <= f) ->
    j * n <= f * m < j * n + B -> B <= f * 2 ^ N.of_nat fuel -> refine o n B fuel g f j q = (x, q') ->
    x = m /\ q' <= q + N.of_nat fuel * (2 * n / B + 2).
  Proof.
    intros Ho Hn HB. revert f j q. induction fuel as [|fuel IH]; intros f j q Hf Hg Hs Hj Hb E; cbn [refine] in E;
      (destruct (N.leb_spec B f) as [L|L];
       [injection E as <- <-; split; [symmetry; apply (N.div_unique _ _ _ (j * n + (f - 1) - f * m)); lia|apply N.le_add_r]|]).
    { change (N.of_nat 0) with 0 in Hb. rewrite N.pow_0_r in Hb. lia. }
    destruct Hs as [Hs|Hs]; [|lia].
    rewrite Nat2N.inj_succ, N.pow_succ_r' in Hb.
    rewrite Ho in E. rewrite <- (N.mod_unique (2 * f * m) n (2 * j) (2 * f * m - 2 * j * n)) in E by lia.
    destruct (N.leb_spec B (2 * f * m - 2 * j * n)) as [T|T].
    - destruct (advance o (N.to_nat (2 * n / B + 1)) g (2 * f) (q + 1)) as [f' q1] eqn:A.
      assert (F : 2 * n <= (2 * n / B + 1) * B).
      { pose proof (N.div_mod (2 * n) B ltac:(lia)). pose proof (N.mod_lt (2 * n) B ltac:(lia)).
        rewrite N.mul_add_distr_r, N.mul_1_l, (N.mul_comm _ B). lia. }
      assert (F' : (2 * n / B + 1) * B <= 2 * ((2 * n / B + 1) * (g * m))).
      { replace (2 * ((2 * n / B + 1) * (g * m))) with ((2 * n / B + 1) * (2 * (g * m))) by lia.
        apply N.mul_le_mono_l. lia. }
      apply (advance_ok _ _ _ (2 * j)) in A; try rewrite N2Nat.id; auto; try lia.
      rewrite N2Nat.id in A. destruct A as (A1 & A2 & A3).
      assert (W : B <= f' * 2 ^ N.of_nat fuel).
      { assert (2 * f * 2 ^ N.of_nat fuel <= f' * 2 ^ N.of_nat fuel) by (apply N.mul_le_mono_r; lia). lia. }
      apply (IH f' (2 * j + 1) q1) in E; [|lia|exact Hg|now left|exact A2|exact W].
      destruct E as [E1 E2]. split; [exact E1|]. rewrite Nat2N.inj_succ, N.mul_succ_l.
      remember (N.of_nat fuel * (2 * n / B + 2)) as X. clear - A3 E2. lia.
    - apply (IH (2 * f) (2 * j) (q + 1)) in E; [|lia|exact Hg|now left|lia|lia].
      destruct E as [E1 E2]. split; [exact E1|]. rewrite Nat2N.inj_succ, N.mul_succ_l.
      remember (N.of_nat fuel * (2 * n / B + 2)) as X. clear HeqX. remember (2 * n / B) as Y. clear - E2. lia.
  Qed.

  Lemma manger_ok x q : (forall f, o f = (B <=? (f * m) mod n)) -> 2 * B <= n -> m < B ->
    manger o n B = (x, q) -> x = m /\ q <= N.size B * (2 * n / B + 3).
  Proof.
    intros Ho Hn Hm E. unfold manger in E.
    destruct (grow o (N.to_nat (N.size B)) 1 0) as [g q0] eqn:G.
    apply grow_ok in G; auto; try lia. destruct G as (G1 & G2 & G3 & G4).
    rewrite N2Nat.id in G3, G4.
    assert (P : B < 2 ^ N.size B) by apply N.size_gt.
    assert (W : B <= g * 2 ^ N.size B).
    { apply N.le_trans with (1 * 2 ^ N.size B); [lia|apply N.mul_le_mono_r; exact G1]. }
    apply (refine_ok _ g g 0 q0) in E; [|exact Ho|exact Hn|lia|exact G1|exact G2| |rewrite N.mul_0_l; split; [apply N.le_0_l|exact G2]|now rewrite N2Nat.id].
    - rewrite N2Nat.id in E. destruct E as [E1 E2]. split; [exact E1|].
      rewrite N.mul_add_distr_l in *. clear - E2 G3. lia.
    - destruct G4 as [G4|G4]; [now left|right]. lia.
  Qed.
End Attack.

(** ** The oracle *)

Lemma verbose_erase {P : profile} {E} capf key ct (ps : padding_scheme E) :
  decrypt_message capf key ct ps = let* r := decrypt_message_verbose capf key ct ps in runwrap r.
Proof.
  unfold decrypt_message, decrypt_message_verbose. cbv zeta.
  destruct (big_from_be_bytes ct) as [c|e]; cbn [bind]; [|reflexivity].
  destruct (rsa_decrypt capf key c) as [d|e]; cbn [bind]; [|reflexivity].
  destruct (nsub _ _) as [s|e]; cbn [bind]; [|reflexivity].
  destruct (copy_range _ _ _ _) as [x|e]; reflexivity.
Qed.

Lemma verbose_spec {E} capf key ct (ps : padding_scheme E) : sized capf key ->
  bytes ct -> allocates capf (length ct + 4) ->
  let v := rsa_power (be_num ct) (num (rsa_exponent key)) (num (rsa_modulo key)) in
  decrypt_message_verbose capf key ct ps =
  if v <? 256 ^ N.of_nat (length ct)
  then ps_decode ps [] (be_bytes (length ct) v) (length ct)
  else Panic POverflow.
Proof.
  intros Hs Bc Ha v. destruct Hs as (Ce & Cn & N1 & Ke & Hal). unfold decrypt_message_verbose. cbv zeta.
  destruct (from_be_spec ct Bc) as (c & Ec & Cc & Vc). rewrite Ec. cbn [bind].
  assert (Lc' : (length c <= length ct)%nat).
  { apply be_num_canonical_length; auto. rewrite Vc. now apply be_num_lt. }
  destruct (rsa_encrypt_spec capf (Nat.max (length (rsa_modulo key)) (length ct) + 4) key c Ce Cn Cc N1 Ke) as (d & _ & E1 & C1 & V1);
    [lia|lia|destruct (Nat.max_spec (length (rsa_modulo key)) (length ct)) as [[_ ->]|[_ ->]]; auto|].
  rewrite E1. cbn [bind]. rewrite Vc in V1. fold v in V1.
  destruct (to_be_minimal d C1) as (B1 & H1 & V2 & L2).
  rewrite repeat_length, L2.
  destruct (N.ltb_spec v (256 ^ N.of_nat (length ct))) as [L|L].
  - assert (Ld : (length d <= length ct)%nat) by (apply be_num_canonical_length; auto; lia).
    rewrite nsub_ok by auto. cbn [bind].
    rewrite copy_range_ok by (rewrite ?repeat_length; lia). cbn [bind].
    rewrite skipn_all2 by (rewrite repeat_length; lia). rewrite app_nil_r.
    assert (Ef : firstn (length ct - length d) (repeat 0 (length ct)) = repeat 0 (length ct - length d)).
    { replace (length ct) with ((length ct - length d) + length d)%nat at 2 by lia.
      rewrite repeat_app, firstn_app, repeat_length, Nat.sub_diag, firstn_O, app_nil_r.
      rewrite <- (repeat_length 0 (length ct - length d)) at 1. apply firstn_all. }
    rewrite Ef. clear Ef.
    set (x := repeat 0 (length ct - length d) ++ big_to_be_bytes d).
    assert (Lx : length x = length ct) by (unfold x; rewrite app_length, repeat_length, L2; lia).
    assert (Bx : bytes x).
    { apply Forall_app. split; auto. apply Forall_forall. intros y Hy. apply repeat_spec in Hy. now subst. }
    assert (Vx : be_num x = v) by (unfold x; rewrite be_num_zeros, V2; exact V1).
    rewrite Lx, <- Vx.
    replace (be_bytes (length ct) (be_num x)) with x by (rewrite <- Lx, be_bytes_num; auto).
    reflexivity.
  - rewrite nsub_panic; [reflexivity|].
    destruct (le_lt_dec (length d) (length ct)) as [X|X]; [|auto].
    pose proof (from_le_lt d (canonical_bytes _ C1)) as U. change num with from_le in V1.
    assert (256 ^ N.of_nat (length d) <= 256 ^ N.of_nat (length ct)) by (apply N.pow_le_mono_r; lia). lia.
Qed.

Lemma first_byte_large k v : (0 < k)%nat -> v < 256 ^ N.of_nat k ->
  first_byte_reported (oaep_decode 32 sha256 [] (be_bytes k v) k) = (256 ^ N.of_nat (k - 1) <=? v).
Proof.
  intros Hk Hv. destruct k as [|k]; [lia|]. replace (S k - 1)%nat with k by lia.
  assert (E : be_bytes (S k) v = v / 256 ^ N.of_nat k :: be_bytes k v).
  { unfold be_bytes. cbn [seq map]. rewrite Nat.sub_0_r. replace (S k - 1)%nat with k by lia. f_equal.
    - apply N.mod_small. apply N.div_lt_upper_bound; [apply N.pow_nonzero; lia|].
      rewrite Nat2N.inj_succ, N.pow_succ_r' in Hv. lia.
    - rewrite <- seq_shift, map_map. apply map_ext_in. intros i Hi. apply in_seq in Hi.
      now replace (k - S i)%nat with (k - 1 - i)%nat by lia. }
  rewrite E. destruct (N.leb_spec (256 ^ N.of_nat k) v) as [L|L].
  - rewrite oaep_decode_first_byte; [reflexivity|].
    assert (1 <= v / 256 ^ N.of_nat k); [|lia]. apply N.div_le_lower_bound; [apply N.pow_nonzero; lia|lia].
  - rewrite N.div_small by auto. unfold oaep_decode.
    change (idx (0 :: be_bytes k v) 0) with (@Ok N 0). cbn [bind N.eqb negb].
    repeat match goal with
    | |- first_byte_reported (bind ?a _) = _ => destruct a; cbn [bind first_byte_reported]; [|reflexivity]
    | |- first_byte_reported (if ?c then _ else _) = _ => destruct c
    | |- first_byte_reported (match ?c with Some _ => _ | None => _ end) = _ => destruct c
    end; reflexivity.
Qed.

Lemma oracle_ok capf key ct : sized capf key -> bytes ct -> length ct = length (rsa_modulo key) ->
  first_byte_reported (decrypt_message_verbose capf key ct rsa_padding) =
  (256 ^ N.of_nat (length ct - 1) <=?
   rsa_power (be_num ct) (num (rsa_exponent key)) (num (rsa_modulo key))).
Proof.
  intros Hs Hb Hl. rewrite verbose_spec by (auto; rewrite Hl; apply Hs).
  pose proof (sized_nonempty _ _ Hs) as Ne.
  pose proof (rsa_power_bound (be_num ct) (num (rsa_exponent key)) (rsa_modulo key) ltac:(apply Hs) Ne) as L.
  rewrite <- Hl in L. rewrite (proj2 (N.ltb_lt _ _) L). apply first_byte_large; auto.
  rewrite Hl. destruct (rsa_modulo key); [congruence|cbn [length]; lia].
Qed.

(** The question about [f]: a ciphertext anybody can make from that of [m]. *)
Lemma oracle_factor capf p q enc dec m f : matching p q enc dec -> sized capf enc -> sized capf dec ->
  first_byte_reported (decrypt_message_verbose capf dec
    (be_bytes (length (rsa_modulo enc))
      ((f ^ num (rsa_exponent enc) * rsa_power m (num (rsa_exponent enc)) (num (rsa_modulo enc)))
       mod num (rsa_modulo enc))) rsa_padding) =
  (256 ^ N.of_nat (length (rsa_modulo enc) - 1) <=? (f * m) mod num (rsa_modulo enc)).
Proof.
  intros (Pp & Pq & Hne & Hmod & Hn & Hk) Se Sd.
  set (e := num (rsa_exponent enc)) in *. set (n := num (rsa_modulo enc)) in *. set (k := length (rsa_modulo enc)).
  assert (N0 : n <> 0) by (destruct Se as (_ & _ & N1 & _); fold n in N1; lia).
  assert (Lt : (f ^ e * rsa_power m e n) mod n < 256 ^ N.of_nat k).
  { apply N.lt_trans with n; [now apply N.mod_lt|]. change n with (from_le (rsa_modulo enc)). apply from_le_lt.
    apply canonical_bytes, Se. }
  rewrite oracle_ok; auto.
  - rewrite be_bytes_length, be_num_be_bytes by exact Lt. f_equal.
    rewrite <- Hmod. fold n.
    replace ((f ^ e * rsa_power m e n) mod n) with (rsa_power (f * m) e n).
    + rewrite Hn. now apply rsa_round_trip.
    + unfold rsa_power. rewrite N.mul_mod_idemp_r, N.pow_mul_l by auto. reflexivity.
  - apply ProofKey.be_bytes_bytes.
  - rewrite be_bytes_length. now rewrite <- Hmod.
Qed.

(** ** Messages *)

Lemma size_256_pow k : N.size (256 ^ N.of_nat k) = 8 * N.of_nat k + 1.
Proof.
  replace (256 ^ N.of_nat k) with (2 ^ (8 * N.of_nat k)) by (rewrite N.pow_mul_r; reflexivity).
  rewrite N.size_log2 by (apply N.pow_nonzero; lia). rewrite N.log2_pow2; lia.
Qed.

Lemma attack_ok capf p q enc dec msg ct : matching p q enc dec -> sized capf enc -> sized capf dec ->
  bytes msg -> encrypt_message capf enc msg rsa_padding = Ok ct ->
  let n := num (rsa_modulo enc) in let k := length (rsa_modulo enc) in
  2 * 256 ^ N.of_nat (k - 1) <= n ->
  forall x c, manger (fun f => first_byte_reported (decrypt_message_verbose capf dec
      (be_bytes k ((f ^ num (rsa_exponent enc) * be_num ct) mod n)) rsa_padding))
    n (256 ^ N.of_nat (k - 1)) = (x, c) ->
  ps_decode rsa_padding [] (be_bytes k x) k = Ok (ROk msg) /\ c <= 8 * N.of_nat k * 514.
Proof.
  intros M Se Sd B E n k Hn x c A.
  assert (F : (length msg + 66 <= k)%nat) by (apply (encrypt_cases capf enc); eauto).
  destruct (encrypt_rsa_padding capf enc msg Se B F) as (ct' & E' & Bc & Hc & Vc). rewrite E in E'.
  apply Ok_inj in E'. subst ct'.
  pose proof (sized_nonempty _ _ Se) as Nn. pose proof (sized_small _ _ Se) as Sm.
  destruct (rsa_em_ok msg k B F Sm) as (_ & El & Eb & Eh & Ed).
  change (length (rsa_modulo enc)) with k in Vc. fold (rsa_em msg k) in Vc. set (em := rsa_em msg k) in *. clearbody em.
  assert (Lm : be_num em < 256 ^ N.of_nat (k - 1)).
  { destruct em as [|z em]; [cbn in El; lia|]. cbn [hd] in Eh. subst z. rewrite be_num_zero_cons.
    cbn [length] in El. replace (k - 1)%nat with (length em) by lia. apply be_num_lt. now inversion Eb. }
  apply (manger_ok _ n _ (be_num em)) in A; auto.
  - destruct A as [-> A]. split.
    + rewrite <- El, be_bytes_num, El by auto. exact Ed.
    + refine (N.le_trans _ _ _ A _). rewrite size_256_pow.
      assert (Ln : n < 256 ^ N.of_nat k)
        by (change n with (from_le (rsa_modulo enc)); apply from_le_lt, canonical_bytes, Se).
      assert (D : 2 * n / 256 ^ N.of_nat (k - 1) < 512).
      { apply N.div_lt_upper_bound; [apply N.pow_nonzero; lia|].
        replace k with (S (k - 1)) in Ln by lia. rewrite Nat2N.inj_succ, N.pow_succ_r' in Ln. lia. }
      remember (2 * n / 256 ^ N.of_nat (k - 1)) as D'. clear HeqD'.
      apply N.le_trans with ((8 * N.of_nat (k - 1) + 1) * 514); [apply N.mul_le_mono_l|]; lia.
  - intros f. rewrite Vc. apply (oracle_factor capf p q); auto.
Qed.
