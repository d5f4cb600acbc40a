(** * Proofs about BigUint, part 2: conversions and arithmetic *)
From Verif Require Import Base BaseLemmas ModelBig SpecEndian ProofEndian SpecBig ProofBig.
From Coq Require Import ZifyBool ZifyNat ZifyN.
Ltac Zify.zify_post_hook ::= Z.div_mod_to_equations.
Local Open Scope N_scope.
Local Open Scope list_scope.

(** ** Construction and export *)

Lemma rev_position l k : position (fun n => negb (n =? 0)) l = Some k ->
  rev (skipn k l) = trim_trailing_zeroes (rev l).
Proof.
  revert k. induction l as [|b l IH]; intros k; cbn [position]; [discriminate|].
  cbn [rev]. rewrite trim_snoc. destruct (N.eqb_spec b 0) as [->|Hb]; cbn [negb].
  - destruct (position _ l) as [j|] eqn:E; cbn [option_map]; [|discriminate].
    intros H. injection H as <-. cbn [skipn]. auto.
  - intros H. injection H as <-. reflexivity.
Qed.

Lemma all_zero_trim l : Forall (fun n => negb (n =? 0) = false) l -> trim_trailing_zeroes l = [].
Proof.
  induction l as [|b l IH] using rev_ind; [reflexivity|]. intros H.
  apply Forall_app in H as [H1 H2]. inversion H2; subst.
  rewrite trim_snoc. destruct (b =? 0); [auto|discriminate].
Qed.

Lemma from_be_bytes_ok l : big_from_be_bytes l = Ok (trim_trailing_zeroes (rev l)).
Proof.
  unfold big_from_be_bytes. destruct (position _ l) as [k|] eqn:E.
  - pose proof E as E'. apply position_some in E' as (l1 & a & l2 & -> & <- & _).
    rewrite slice_from_ok by (rewrite app_length; lia). cbn [bind]. f_equal.
    now apply rev_position.
  - apply position_none in E. unfold big_from_u128. cbn. f_equal.
    symmetry. apply all_zero_trim. now apply Forall_rev.
Qed.

Lemma trim_rposition l k : rposition (fun n => negb (n =? 0)) l = Some k ->
  firstn (k + 1) l = trim_trailing_zeroes l.
Proof.
  intros H. apply rposition_some in H as (H1 & H2 & H3).
  assert (G : forall t, Forall (fun n => n = 0) t -> forall p, trim_trailing_zeroes (p ++ t) = trim_trailing_zeroes p).
  { clear. intros t. induction t as [|b t IH] using rev_ind; intros H p; [now rewrite app_nil_r|].
    apply Forall_app in H as [Ha Hb]. inversion Hb; subst.
    rewrite app_assoc, trim_snoc. cbn. auto. }
  assert (E : l = firstn (k + 1) l ++ skipn (k + 1) l) by (symmetry; apply firstn_skipn).
  assert (Z : Forall (fun n => n = 0) (skipn (k + 1) l)).
  { apply Forall_forall. intros x Hx. apply (In_nth _ _ 0) in Hx as (j & Hj & <-).
    rewrite skipn_length in Hj. rewrite nth_skipn'.
    specialize (H3 (k + 1 + j)%nat 0 ltac:(lia)).
    destruct (N.eqb_spec (nth (k + 1 + j) l 0) 0); auto. discriminate. }
  rewrite E at 2. rewrite G by auto.
  replace (k + 1)%nat with (S k) by lia. rewrite (firstn_S_nth l k 0) by auto.
  rewrite trim_snoc. specialize (H2 0). destruct (nth k l 0 =? 0); [discriminate|reflexivity].
Qed.

Lemma from_u128_ok v : v < 2 ^ 128 ->
  exists a, big_from_u128 v = Ok a /\ canonical a /\ from_le a = v.
Proof.
  intros Hv. unfold big_from_u128. destruct (N.eqb_spec v 0) as [->|Hz].
  { exists []. split; [reflexivity|]. split; [apply canonical_nil|reflexivity]. }
  assert (Hb : bytes (to_le 16 v)) by apply to_le_bytes.
  assert (Hval : from_le (to_le 16 v) = v).
  { rewrite from_le_to_le. apply N.mod_small. exact Hv. }
  destruct (rposition _ (to_le 16 v)) as [k|] eqn:E.
  - cbn [unwrap bind].
    rewrite slice_to_ok.
    2:{ apply rposition_some in E as (H & _). lia. }
    rewrite (trim_rposition _ _ E). eexists. split; [reflexivity|].
    split; [now apply trim_canonical|]. now rewrite trim_val.
  - exfalso. apply rposition_none in E. apply all_zero_trim in E.
    apply Hz. rewrite <- Hval, <- trim_val, E. reflexivity.
Qed.

Lemma as_u128_ok a : bytes a -> (length a <= 16)%nat -> big_as_u128 a = Ok (ROk (from_le a)).
Proof.
  intros Ha Hl. unfold big_as_u128. destruct (Nat.ltb_spec 16 (length a)); [lia|].
  rewrite copy_range_ok by (rewrite ?repeat_length; lia).
  cbn [bind]. f_equal. f_equal. cbn [firstn app]. rewrite from_le_app, skipn_repeat.
  assert (Z : forall k, from_le (repeat 0 k) = 0) by (induction k; cbn [repeat from_le]; lia).
  rewrite Z. lia.
Qed.

Lemma as_u128_err a : (16 < length a)%nat -> big_as_u128 a = Ok (RErr (length a)).
Proof. intros Hl. unfold big_as_u128. destruct (Nat.ltb_spec 16 (length a)); [auto|lia]. Qed.

Lemma from_le_zeros k : from_le (repeat 0 k) = 0.
Proof. induction k; cbn [repeat from_le]; lia. Qed.

(** ** Addition *)

Lemma land_ff x : N.land x 0xff = x mod 256.
Proof. change 0xff with (N.ones 8). now rewrite N.land_ones. Qed.
Lemma wshr_div x k : wshr x k = x / 2 ^ k.
Proof. unfold wshr. apply N.shiftr_div_pow2. Qed.

Lemma add_u8_loop_ok c l : c < 256 -> bytes l ->
  exists l', add_u8_loop c l = Ok l' /\ length l' = length l /\ bytes l' /\
    from_le l' = (from_le l + c) mod 256 ^ N.of_nat (length l).
Proof.
  intros Hc Hl. revert c Hc. induction Hl as [|b l Hb Hl IH]; intros c Hc.
  - exists []. split; [reflexivity|]. split; [reflexivity|]. split; [constructor|].
    cbn [from_le length]. now rewrite N.mod_1_r.
  - cbn [add_u8_loop]. destruct (N.eqb_spec c 0) as [->|Hz].
    + exists (b :: l). split; [reflexivity|]. split; [reflexivity|]. split; [now constructor|].
      rewrite N.add_0_r. symmetry. apply N.mod_small. apply from_le_lt. now constructor.
    + unfold byte in Hb.
      rewrite cadd_ok by (change (2 ^ 16) with 65536; lia). cbn [bind].
      rewrite !land_ff, wshr_div. change (2 ^ 8) with 256.
      destruct (IH ((c + b) / 256 mod 256)) as (l' & E & E1 & E2 & E3); [lia|].
      rewrite E. cbn [bind]. eexists. split; [reflexivity|].
      cbn [length from_le]. split; [congruence|]. split; [constructor; auto; unfold byte; lia|].
      rewrite E3, pow256_S.
      assert (P : 256 ^ N.of_nat (length l) <> 0) by (apply N.pow_nonzero; lia).
      rewrite (N.mod_mod _ 256) by lia.
      rewrite (N.mod_small ((c + b) / 256) 256) by lia.
      rewrite N.mod_mul_r by lia.
      replace (b + 256 * from_le l + c) with (c + b + from_le l * 256) by lia.
      rewrite N.mod_add, N.div_add by lia.
      rewrite (N.add_comm ((c + b) / 256)). reflexivity.
Qed.

Lemma bytes_snoc_0 a : bytes a -> bytes (a ++ [0]).
Proof. intros. apply Forall_app. split; auto. constructor; [unfold byte; lia|constructor]. Qed.

Lemma from_le_snoc_0 a : from_le (a ++ [0]) = from_le a.
Proof. rewrite from_le_snoc. lia. Qed.

Lemma add_u8_ok a c : bytes a -> c < 256 ->
  exists r, add_assign_u8 a c = Ok r /\ canonical r /\ from_le r = from_le a + c.
Proof.
  intros Ha Hc. unfold add_assign_u8.
  destruct (add_u8_loop_ok c (a ++ [0]) Hc (bytes_snoc_0 a Ha)) as (l & E & E1 & E2 & E3).
  rewrite E. cbn [bind]. eexists. split; [reflexivity|]. split; [now apply trim_canonical|].
  rewrite trim_val, E3, from_le_snoc_0. apply N.mod_small.
  rewrite app_length. cbn [length]. replace (length a + 1)%nat with (S (length a)) by lia.
  rewrite pow256_S. pose proof (from_le_lt a Ha).
  assert (256 ^ N.of_nat (length a) <> 0) by (apply N.pow_nonzero; lia). lia.
Qed.

Lemma firstn_set_nth {A} (l : list A) i v : (i < length l)%nat ->
  firstn (S i) (set_nth l i v) = firstn i l ++ [v].
Proof.
  intros H. unfold set_nth.
  replace (firstn i l ++ v :: skipn (S i) l) with ((firstn i l ++ [v]) ++ skipn (S i) l)
    by (rewrite <- app_assoc; reflexivity).
  apply firstn_app_exact. rewrite app_length, firstn_length. cbn [length]. lia.
Qed.

Lemma skipn_set_nth {A} (l : list A) i v : (i < length l)%nat ->
  skipn (S i) (set_nth l i v) = skipn (S i) l.
Proof.
  intros H. unfold set_nth.
  replace (firstn i l ++ v :: skipn (S i) l) with ((firstn i l ++ [v]) ++ skipn (S i) l)
    by (rewrite <- app_assoc; reflexivity).
  apply skipn_app_exact. rewrite app_length, firstn_length. cbn [length]. lia.
Qed.

Lemma nth_skipn_head {A} (l l0 : list A) i d :
  skipn i l = skipn i l0 -> nth i l d = nth i l0 d.
Proof.
  intros H. pose proof (nth_skipn' l i 0 d) as A1. pose proof (nth_skipn' l0 i 0 d) as A2.
  rewrite Nat.add_0_r in *. congruence.
Qed.

Lemma skipn_S_eq {A} (l l0 : list A) i : skipn i l = skipn i l0 -> skipn (S i) l = skipn (S i) l0.
Proof.
  intros H. replace (S i) with (i + 1)%nat by lia.
  rewrite <- (skipn_skipn' l 1 i), <- (skipn_skipn' l0 1 i). now rewrite H.
Qed.

Lemma from_le_firstn_S l i : from_le (firstn (S i) l) =
  from_le (firstn i l) + 256 ^ N.of_nat i * nth i l 0.
Proof.
  destruct (le_lt_dec (length l) i) as [L|L].
  - rewrite !firstn_all2, nth_overflow by lia. lia.
  - rewrite (firstn_S_nth l i 0) by auto. rewrite from_le_snoc, firstn_length_le by lia. reflexivity.
Qed.

Lemma add_ok a b : bytes a -> bytes b ->
  exists r, add_assign a b = Ok r /\ canonical r /\ from_le r = from_le a + from_le b.
Proof.
  intros Ha Hb. unfold add_assign.
  set (l0 := (a ++ repeat 0 (length b - length a)) ++ [0]).
  assert (Hl0 : bytes l0).
  { apply bytes_snoc_0, Forall_app. split; auto. apply Forall_repeat. unfold byte; lia. }
  assert (Hlen : length l0 = S (length a + (length b - length a))).
  { unfold l0. rewrite !app_length, repeat_length. cbn [length]. lia. }
  assert (Hval : from_le l0 = from_le a).
  { unfold l0. rewrite from_le_snoc_0, from_le_app, from_le_zeros. lia. }
  set (n := (length a + (length b - length a))%nat) in *.
  assert (Hn : (length b <= n)%nat) by lia.
  rewrite Hlen. unfold nsub. destruct (Nat.leb_spec 1 (S n)); [|lia]. cbn [bind].
  replace (S n - 1)%nat with n by lia.
  match goal with |- context[forM (range 0 n) ?f ?s0] =>
    destruct (forM_range_inv (fun i (st : list N * N) => let (l, c) := st in
      length l = S n /\ bytes l /\ skipn i l = skipn i l0 /\ c <= 1 /\
      from_le (firstn i l) + 256 ^ N.of_nat i * c = from_le (firstn i l0) + from_le (firstn i b))
      f 0 n s0) as ([l c] & E & I1 & I2 & I3 & I4 & I5)
  end.
  - lia.
  - cbn [firstn from_le]. repeat split; auto; lia.
  - intros i [l c] Hi (I1 & I2 & I3 & I4 & I5).
    rewrite (idx_nth l i 0) by lia. cbn [bind].
    assert (Hli : nth i l 0 < 256) by (apply (Forall_nth_lt byte); auto; lia).
    rewrite cadd_ok by (change (2 ^ 16) with 65536; lia). cbn [bind].
    assert (Hbi : nth i b 0 < 256).
    { destruct (le_lt_dec (length b) i); [rewrite nth_overflow by lia; lia|].
      apply (Forall_nth_lt byte); auto. }
    assert (Es : (if (i <? length b)%nat then let* ri := idx b i in cadd 16 (c + nth i l 0) ri
                  else Ok (c + nth i l 0)) = Ok (c + nth i l 0 + nth i b 0)).
    { destruct (Nat.ltb_spec i (length b)).
      - rewrite (idx_nth b i 0) by lia. cbn [bind].
        apply cadd_ok. change (2 ^ 16) with 65536; lia.
      - rewrite (nth_overflow b) by lia. f_equal. lia. }
    rewrite Es. cbn [bind]. rewrite upd_ok by lia. cbn [bind].
    eexists. split; [reflexivity|]. cbv beta iota.
    rewrite !land_ff, wshr_div. change (2 ^ 8) with 256.
    rewrite (N.mod_mod _ 256) by lia.
    split; [now rewrite set_nth_length by lia|].
    split; [apply Forall_set_nth; auto; unfold byte; lia|].
    split; [rewrite skipn_set_nth by lia; now apply skipn_S_eq|].
    split.
    { clear - I4 Hli Hbi. generalize dependent (nth i l 0). generalize dependent (nth i b 0).
      intros. assert ((c + n0 + n) / 256 < 2) by (apply N.div_lt_upper_bound; lia).
      rewrite N.mod_small; lia. }
    rewrite firstn_set_nth by lia. rewrite from_le_snoc, firstn_length_le by lia.
    rewrite !from_le_firstn_S, pow256_S.
    rewrite <- (nth_skipn_head _ _ i 0 I3).
    generalize dependent (256 ^ N.of_nat i). intros P I5.
    assert (D : c + nth i l 0 + nth i b 0 =
      (c + nth i l 0 + nth i b 0) mod 256 + 256 * ((c + nth i l 0 + nth i b 0) / 256 mod 256)) by lia.
    set (s := c + nth i l 0 + nth i b 0) in *.
    set (m := s mod 256) in *. set (q := s / 256 mod 256) in *.
    transitivity (from_le (firstn i l) + P * (m + 256 * q)); [ring|].
    rewrite <- D. unfold s. transitivity (from_le (firstn i l) + P * c + P * nth i l 0 + P * nth i b 0); [ring|].
    rewrite I5. ring.
  - rewrite E. cbn [bind]. rewrite upd_ok by lia. cbn [bind].
    eexists. split; [reflexivity|].
    rewrite (N.mod_small c 256) by lia.
    assert (B : bytes (set_nth l n c)) by (apply Forall_set_nth; auto; unfold byte; lia).
    split; [now apply trim_canonical|].
    rewrite trim_val.
    assert (W : set_nth l n c = firstn n l ++ [c]).
    { rewrite <- (firstn_all (set_nth l n c)). rewrite set_nth_length by lia.
      rewrite I1. apply firstn_set_nth. lia. }
    rewrite W, from_le_snoc, firstn_length_le by lia. rewrite I5.
    f_equal.
    + rewrite <- Hval. rewrite <- (firstn_skipn n l0) at 2. rewrite from_le_app.
      assert (T : skipn n l0 = [0]).
      { unfold l0. apply skipn_app_exact. rewrite app_length, repeat_length. lia. }
      rewrite T. cbn [from_le]. lia.
    + now rewrite firstn_all2 by lia.
Qed.

(** ** Comparison *)

Lemma testbit_gt a b n : (forall j, n < j -> N.testbit a j = N.testbit b j) ->
  N.testbit a n = true -> N.testbit b n = false -> b < a.
Proof.
  intros H Ha Hb.
  assert (Q : a / 2 ^ (n + 1) = b / 2 ^ (n + 1)).
  { apply N.bits_inj. intros j. rewrite !N.div_pow2_bits. apply H. lia. }
  assert (Qa : a / 2 ^ n = 2 * (a / 2 ^ (n + 1)) + 1).
  { rewrite N.pow_add_r, <- N.div_div by (try apply N.pow_nonzero; lia).
    change (2 ^ 1) with 2. rewrite N.testbit_true in Ha. lia. }
  assert (Qb : b / 2 ^ n = 2 * (b / 2 ^ (n + 1))).
  { rewrite N.pow_add_r, <- N.div_div by (try apply N.pow_nonzero; lia).
    change (2 ^ 1) with 2. rewrite N.testbit_false in Hb. lia. }
  rewrite Q in Qa. pose proof (pow2_pos n).
  pose proof (N.div_mod a (2 ^ n) ltac:(lia)). pose proof (N.div_mod b (2 ^ n) ltac:(lia)).
  pose proof (N.mod_lt b (2 ^ n) ltac:(lia)).
  rewrite Qa in *. rewrite Qb in *. nia.
Qed.

Lemma cmp_loop_ok a b n : canonical a -> canonical b -> countable a -> countable b ->
  (forall j, N.of_nat n <= j -> N.testbit (from_le a) j = N.testbit (from_le b) j) ->
  cmp_loop a b (rev (range 0 n)) = Ok (from_le a ?= from_le b).
Proof.
  intros Ha Hb Ca Cb. induction n as [|n IH]; intros H.
  - cbn. f_equal. symmetry. apply N.compare_eq_iff. apply N.bits_inj. intros j. apply H. lia.
  - rewrite range_snoc by lia. rewrite rev_app_distr. cbn [rev app cmp_loop].
    rewrite !is_set_ok by auto. cbn [bind].
    destruct (N.testbit (from_le a) (N.of_nat n)) eqn:Ea,
      (N.testbit (from_le b) (N.of_nat n)) eqn:Eb; cbn [andb negb].
    + apply IH. intros j Hj. destruct (N.eq_dec j (N.of_nat n)) as [->|]; [congruence|].
      apply H. lia.
    + f_equal. symmetry. apply N.compare_gt_iff. apply (testbit_gt _ _ (N.of_nat n)); auto.
      intros j Hj. apply H. lia.
    + f_equal. symmetry. apply N.compare_lt_iff. apply (testbit_gt _ _ (N.of_nat n)); auto.
      intros j Hj. symmetry. apply H. lia.
    + apply IH. intros j Hj. destruct (N.eq_dec j (N.of_nat n)) as [->|]; [congruence|].
      apply H. lia.
Qed.

Lemma cmp_ok a b : canonical a -> canonical b -> countable a -> countable b ->
  big_cmp a b = Ok (from_le a ?= from_le b).
Proof.
  intros Ha Hb Ca Cb. unfold big_cmp. rewrite !bits_used_ok by auto. cbn [bind].
  destruct (N.compare_spec (N.size (from_le a)) (N.size (from_le b))) as [E|E|E].
  - apply cmp_loop_ok; auto. unfold ix. intros j Hj.
    rewrite (testbit_high (from_le a) (N.size (from_le a))) by (try apply lt_size; lia).
    rewrite (testbit_high (from_le b) (N.size (from_le b))) by (try apply lt_size; lia).
    reflexivity.
  - f_equal. symmetry. apply N.compare_lt_iff.
    apply pow_le_size in E. pose proof (lt_size (from_le a)). lia.
  - f_equal. symmetry. apply N.compare_gt_iff.
    apply pow_le_size in E. pose proof (lt_size (from_le b)). lia.
Qed.

Lemma le_ok a b : canonical a -> canonical b -> countable a -> countable b ->
  big_le a b = Ok (from_le a <=? from_le b).
Proof.
  intros. unfold big_le. rewrite cmp_ok by auto. cbn [bind]. f_equal.
Qed.

Lemma lt_ok a b : canonical a -> canonical b -> countable a -> countable b ->
  big_lt a b = Ok (from_le a <? from_le b).
Proof.
  intros. unfold big_lt. rewrite cmp_ok by auto. cbn [bind]. f_equal.
Qed.

(** ** Subtraction *)

Lemma wnot8 b : b < 256 -> wnot 8 b = 255 - b.
Proof. intros. now rewrite (wnot_arith 8 b). Qed.

Lemma map_wnot_val l : bytes l ->
  bytes (map (wnot 8) l) /\ from_le (map (wnot 8) l) + from_le l + 1 = 256 ^ N.of_nat (length l).
Proof.
  induction 1 as [|b l Hb Hl [I1 I2]]; cbn [map from_le length].
  - split; [constructor|reflexivity].
  - unfold byte in Hb. rewrite wnot8 by auto. split; [constructor; auto; unfold byte; lia|].
    rewrite pow256_S, <- I2. lia.
Qed.

Lemma repeat_255_val k : from_le (repeat 255 k) + 1 = 256 ^ N.of_nat k.
Proof.
  induction k; cbn [repeat from_le]; [reflexivity|]. rewrite pow256_S, <- IHk. lia.
Qed.

Lemma sub_cap_ok cap a b : canonical a -> bytes b -> (length a < cap)%nat ->
  (length b <= cap)%nat -> capacity_ok cap ->
  exists r, sub_assign_cap cap a b = Ok r /\ canonical r /\
    from_le r = (from_le a + 256 ^ N.of_nat cap - from_le b) mod 2 ^ N.size (from_le a).
Proof.
  intros Ha Hb La Lb Hcap. unfold capacity_ok in Hcap. unfold sub_assign_cap.
  rewrite bits_used_ok; auto.
  2:{ unfold countable. lia. }
  cbn [bind]. unfold nsub. destruct (Nat.leb_spec (length b) cap); [|lia]. cbn [bind].
  destruct (map_wnot_val b Hb) as [M1 M2].
  set (inv := map (wnot 8) b ++ repeat (wnot 8 0) (cap - length b)).
  assert (Binv : bytes inv).
  { apply Forall_app. split; auto. apply Forall_repeat. now vm_compute. }
  assert (Vinv : from_le inv + from_le b + 1 = 256 ^ N.of_nat cap).
  { unfold inv. rewrite from_le_app, map_length. change (wnot 8 0) with 255.
    pose proof (repeat_255_val (cap - length b)) as R.
    replace (N.of_nat cap) with (N.of_nat (length b) + N.of_nat (cap - length b)) by lia.
    rewrite N.pow_add_r, <- R, <- M2. ring. }
  destruct (add_u8_ok a 1 (canonical_bytes _ Ha) ltac:(lia)) as (s1 & E1 & C1 & V1).
  rewrite E1. cbn [bind].
  destruct (add_ok s1 (trim_trailing_zeroes inv) (canonical_bytes _ C1) (trim_bytes _ Binv))
    as (s2 & E2 & C2 & V2).
  rewrite E2. cbn [bind]. rewrite trim_val, V1 in V2.
  assert (V : from_le s2 = from_le a + 256 ^ N.of_nat cap - from_le b) by lia.
  assert (La' : from_le a < 256 ^ N.of_nat cap).
  { eapply N.lt_le_trans; [apply from_le_lt; now apply canonical_bytes|].
    apply N.pow_le_mono_r; lia. }
  assert (L2 : (length s2 <= cap + 1)%nat).
  { apply canonical_length_lt; auto. rewrite V. replace (cap + 1)%nat with (S cap) by lia.
    rewrite pow256_S. lia. }
  assert (Cn : countable s2) by (unfold countable; lia).
  rewrite bits_used_ok by auto. cbn [bind].
  destruct (clear_loop s2 (ix (N.size (from_le a))) (ix (N.size (from_le s2)))) as (s3 & E3 & L3 & B3 & V3).
  - now apply canonical_bytes.
  - pose proof (size_length s2 (canonical_bytes _ C2)). unfold ix. lia.
  - unfold ix. rewrite N2Nat.id. apply lt_size.
  - rewrite E3. cbn [bind]. eexists. split; [reflexivity|]. split; [now apply trim_canonical|].
    rewrite trim_val, V3, V. unfold ix. now rewrite N2Nat.id.
Qed.

Lemma sub_cap_exact cap a b : canonical a -> canonical b -> (length a < cap)%nat ->
  capacity_ok cap -> from_le b <= from_le a ->
  exists r, sub_assign_cap cap a b = Ok r /\ canonical r /\ from_le r = from_le a - from_le b.
Proof.
  intros Ha Hb La Hc L.
  assert (length b <= length a)%nat by (apply canonical_length_mono; auto using canonical_bytes).
  destruct (sub_cap_ok cap a b Ha (canonical_bytes _ Hb) La ltac:(lia) Hc) as (r & E & C & V).
  exists r. split; [exact E|]. split; [exact C|]. rewrite V.
  replace (from_le a + 256 ^ N.of_nat cap - from_le b)
    with (from_le a - from_le b + 256 ^ N.of_nat cap) by lia.
  pose proof (size_length a (canonical_bytes _ Ha)) as SZ.
  rewrite pow256_pow2.
  replace (8 * N.of_nat cap) with (8 * N.of_nat cap - N.size (from_le a) + N.size (from_le a)) by lia.
  rewrite N.pow_add_r, N.mod_add by (apply N.pow_nonzero; lia).
  apply N.mod_small. pose proof (lt_size (from_le a)). lia.
Qed.

Lemma sub_cap_panic cap a b : canonical a -> countable a -> (cap < length b)%nat ->
  sub_assign_cap cap a b = Panic POverflow.
Proof.
  intros Ha Hc L. unfold sub_assign_cap. rewrite bits_used_ok by auto. cbn [bind].
  unfold nsub. destruct (Nat.leb_spec (length b) cap); [lia|reflexivity].
Qed.

(** ** Shifts *)

Lemma shl_loop_ok rhs l c : 1 <= rhs <= 7 -> bytes l -> c < 2 ^ rhs ->
  bytes (shl_loop rhs c l) /\ length (shl_loop rhs c l) = length l /\
  from_le (shl_loop rhs c l) = (from_le l * 2 ^ rhs + c) mod 256 ^ N.of_nat (length l).
Proof.
  intros Hr Hl. revert c. induction Hl as [|b l Hb Hl IH]; intros c Hc; cbn [shl_loop from_le length].
  - split; [constructor|]. split; [reflexivity|]. now rewrite N.mod_1_r.
  - unfold byte in Hb.
    assert (Hq : wshr b (8 - rhs) < 2 ^ rhs).
    { unfold wshr. apply lt_pow2_testbit. intros i Hi. rewrite N.shiftr_spec'.
      apply (testbit_high b 8); auto. lia. }
    destruct (IH _ Hq) as (I1 & I2 & I3).
    rewrite I2, I3.
    assert (R : N.lor c (wshl 8 b rhs) = (b mod 2 ^ (8 - rhs)) * 2 ^ rhs + c).
    { rewrite wshl_arith by lia. rewrite N.lor_comm, <- N.shiftl_mul_pow2.
      rewrite lor_shift_add by auto. now rewrite N.shiftl_mul_pow2. }
    rewrite R, wshr_div.
    assert (P8 : 2 ^ (8 - rhs) * 2 ^ rhs = 256).
    { rewrite <- N.pow_add_r. replace (8 - rhs + rhs) with 8 by lia. reflexivity. }
    pose proof (pow2_pos (8 - rhs)) as PA. pose proof (pow2_pos rhs) as PB.
    pose proof (N.mod_lt b (2 ^ (8 - rhs)) ltac:(lia)) as HM.
    pose proof (N.div_mod b (2 ^ (8 - rhs)) ltac:(lia)) as HD.
    set (m := b mod 2 ^ (8 - rhs)) in *. set (q := b / 2 ^ (8 - rhs)) in *.
    assert (Hm : m * 2 ^ rhs + c < 256) by nia.
    rewrite wshr_div in I1. split; [constructor; auto|]. split; [reflexivity|].
    rewrite pow256_S, N.mod_mul_r by (try apply N.pow_nonzero; lia).
    assert (Eq : (b + 256 * from_le l) * 2 ^ rhs + c =
                 m * 2 ^ rhs + c + (from_le l * 2 ^ rhs + q) * 256).
    { rewrite HD, <- P8. ring. }
    rewrite Eq, N.mod_add, N.div_add by lia.
    rewrite (N.mod_small (m * 2 ^ rhs + c)) by auto.
    rewrite (N.div_small (m * 2 ^ rhs + c)) by auto. reflexivity.
Qed.

Lemma from_le_repeat_app k a : from_le (repeat 0 k ++ a) = from_le a * 2 ^ (8 * N.of_nat k).
Proof. rewrite from_le_app, from_le_zeros, repeat_length, pow256_pow2. lia. Qed.

Lemma canonical_repeat_app k a : canonical a -> a <> [] -> canonical (repeat 0 k ++ a).
Proof.
  intros H Hn. destruct (canonical_cases _ H) as [->|(l & b & -> & Hl & Hb & Hz)]; [easy|].
  rewrite app_assoc. apply canonical_snoc. repeat split; auto.
  apply Forall_app. split; auto. apply Forall_repeat. unfold byte; lia.
Qed.

Lemma shl_ok a k : canonical a -> a <> [] ->
  canonical (shl_assign a k) /\ from_le (shl_assign a k) = from_le a * 2 ^ k.
Proof.
  intros Ha Hn. unfold shl_assign.
  set (st := k / 8). set (r := k - st * 8).
  assert (Hr : r < 8) by (unfold r, st; lia).
  assert (Hk : k = r + 8 * st) by (unfold r, st; lia).
  pose (a1 := if 0 <? r then trim_trailing_zeroes (shl_loop r 0 (a ++ [0])) else a).
  fold a1.
  assert (A1 : canonical a1 /\ from_le a1 = from_le a * 2 ^ r).
  { unfold a1. destruct (N.ltb_spec 0 r).
    - destruct (shl_loop_ok r (a ++ [0]) 0 ltac:(lia)) as (I1 & I2 & I3).
      + now apply bytes_snoc_0, canonical_bytes.
      + apply pow2_pos.
      + split; [now apply trim_canonical|]. rewrite trim_val, I3, from_le_snoc_0, N.add_0_r.
        apply N.mod_small. rewrite app_length; cbn [length].
        replace (length a + 1)%nat with (S (length a)) by lia. rewrite pow256_S.
        pose proof (from_le_lt a (canonical_bytes _ Ha)).
        assert (2 ^ r < 256) by (change 256 with (2 ^ 8); apply N.pow_lt_mono_r; lia).
        pose proof (pow2_pos r). nia.
    - assert (r = 0) as -> by lia. split; auto. rewrite N.pow_0_r. lia. }
  destruct A1 as [C1 V1].
  assert (N1 : a1 <> []).
  { intros E. rewrite E in V1. cbn [from_le] in V1.
    pose proof (canonical_val_pos a Ha Hn). pose proof (pow2_pos r). nia. }
  rewrite Hk, N.pow_add_r, N.mul_assoc, <- V1.
  destruct (N.ltb_spec 0 st).
  - split; [now apply canonical_repeat_app|]. rewrite from_le_repeat_app. unfold ix. now rewrite N2Nat.id.
  - assert (st = 0) as -> by lia. split; auto. rewrite N.mul_0_r, N.pow_0_r. lia.
Qed.

Lemma shl_nil k : shl_assign [] k = repeat 0 (ix (k / 8)).
Proof.
  unfold shl_assign. set (r := k - k / 8 * 8).
  assert (E : (if 0 <? r then trim_trailing_zeroes (shl_loop r 0 ([] ++ [0])) else []) = []).
  { destruct (N.ltb_spec 0 r); reflexivity. }
  rewrite E. destruct (N.ltb_spec 0 (k / 8)).
  - apply app_nil_r.
  - assert (k / 8 = 0) as -> by lia. reflexivity.
Qed.

Lemma skipn_nth_cons {A} (l : list A) i d : (i < length l)%nat ->
  skipn i l = nth i l d :: skipn (S i) l.
Proof.
  revert i. induction l as [|x l IH]; intros i H; cbn [length] in H; [lia|].
  destruct i; [reflexivity|]. cbn [skipn nth]. rewrite IH by lia. reflexivity.
Qed.

Lemma skipn_set_nth_here {A} (l : list A) i v : (i < length l)%nat ->
  skipn i (set_nth l i v) = v :: skipn (S i) l.
Proof.
  intros H. unfold set_nth. apply skipn_app_exact. rewrite firstn_length. lia.
Qed.

Lemma firstn_set_nth_here {A} (l : list A) i v : (i < length l)%nat ->
  firstn i (set_nth l i v) = firstn i l.
Proof.
  intros H. unfold set_nth. apply firstn_app_exact. rewrite firstn_length. lia.
Qed.

Lemma firstn_S_eq {A} (l l0 : list A) i : firstn (S i) l = firstn (S i) l0 ->
  firstn i l = firstn i l0.
Proof.
  intros H. apply (f_equal (firstn i)) in H. rewrite !firstn_firstn in H.
  now rewrite !Nat.min_l in H by lia.
Qed.

Lemma shr_loop_ok a r : bytes a -> 1 <= r <= 7 ->
  exists l c, forM (rev (range 0 (length a))) (fun i '(a, carry) =>
        let* b := idx a i in
        let r1 := N.lor carry (wshr b r) in
        let carry := wshl 8 b (8 - r) in
        let* a := upd a i r1 in
        Ok (a, carry)) (a, 0) = Ok (l, c) /\ bytes l /\ from_le l = from_le a / 2 ^ r.
Proof.
  intros Ha Hr.
  assert (P8 : 2 ^ (8 - r) * 2 ^ r = 256).
  { rewrite <- N.pow_add_r. replace (8 - r + r) with 8 by lia. reflexivity. }
  pose proof (pow2_pos (8 - r)) as PA. pose proof (pow2_pos r) as PB.
  match goal with |- context[forM _ ?f ?s0] =>
    destruct (forM_rev_range_inv (fun i (st : list N * N) => let (l, c) := st in
      length l = length a /\ firstn i l = firstn i a /\ bytes l /\
      from_le (skipn i l) = from_le (skipn i a) / 2 ^ r /\
      c = (from_le (skipn i a) mod 2 ^ r) * 2 ^ (8 - r)) f 0%nat (length a) s0) as ([l c] & E & I1 & I2 & I3 & I4 & I5)
  end.
  - lia.
  - rewrite skipn_all. cbn [from_le]. rewrite N.mod_0_l, N.div_0_l by (apply N.pow_nonzero; lia).
    repeat split; auto.
  - intros i [l c] Hi (I1 & I2 & I3 & I4 & I5).
    rewrite (idx_nth l i 0) by lia. cbn [bind]. rewrite upd_ok by lia. cbn [bind].
    eexists. split; [reflexivity|]. cbv beta iota.
    assert (En : nth i l 0 = nth i a 0).
    { rewrite <- (nth_firstn' l (S i) i 0), <- (nth_firstn' a (S i) i 0) by lia. now rewrite I2. }
    rewrite En.
    assert (Hb : nth i a 0 < 256) by (apply (Forall_nth_lt byte); auto; lia).
    rewrite (skipn_nth_cons a i 0) by lia. cbn [from_le].
    set (b := nth i a 0) in *. set (v := from_le (skipn (S i) a)) in *.
    assert (R : N.lor c (wshr b r) = v mod 2 ^ r * 2 ^ (8 - r) + b / 2 ^ r).
    { rewrite I5, wshr_div, <- N.shiftl_mul_pow2. rewrite lor_shift_add by (apply N.div_lt_upper_bound; lia).
      now rewrite N.shiftl_mul_pow2. }
    pose proof (N.mod_lt v (2 ^ r) ltac:(lia)) as Hv.
    pose proof (N.div_mod v (2 ^ r) ltac:(lia)) as Dv.
    pose proof (N.mod_lt b (2 ^ r) ltac:(lia)) as Hb'.
    pose proof (N.div_mod b (2 ^ r) ltac:(lia)) as Db.
    assert (Eq : b + 256 * v = b mod 2 ^ r + (b / 2 ^ r + 2 ^ (8 - r) * v) * 2 ^ r).
    { rewrite Db at 1. rewrite <- P8. ring. }
    assert (Hbq : b / 2 ^ r < 2 ^ (8 - r)) by (apply N.div_lt_upper_bound; lia).
    split; [now rewrite set_nth_length by lia|].
    split; [rewrite firstn_set_nth_here by lia; now apply firstn_S_eq|].
    split.
    { apply Forall_set_nth; auto. unfold byte. rewrite R. nia. }
    split.
    + rewrite skipn_set_nth_here by lia. cbn [from_le]. rewrite I4, R, Eq.
      rewrite N.div_add, (N.div_small (b mod 2 ^ r)), N.add_0_l by lia.
      rewrite Dv at 3. rewrite <- P8. ring.
    + rewrite wshl_arith by lia. replace (8 - (8 - r)) with r by lia.
      rewrite Eq, N.mod_add by lia. f_equal. symmetry. apply N.mod_mod. lia.
  - exists l, c. split; [exact E|]. split; [exact I3|]. exact I4.
Qed.

Lemma from_le_skipn a k : bytes a -> (k <= length a)%nat ->
  from_le (skipn k a) = from_le a / 2 ^ (8 * N.of_nat k).
Proof.
  intros Ha Hk. rewrite <- (firstn_skipn k a) at 2. rewrite from_le_app, firstn_length_le by auto.
  rewrite <- pow256_pow2.
  rewrite (N.mul_comm (256 ^ N.of_nat k)), N.div_add by (apply N.pow_nonzero; lia).
  rewrite N.div_small; [lia|].
  assert (B : bytes (firstn k a)) by now apply Forall_firstn.
  apply from_le_lt in B. rewrite firstn_length_le in B by auto. exact B.
Qed.

Lemma canonical_skipn a k : canonical a -> canonical (skipn k a).
Proof.
  intros H. destruct (le_lt_dec (length a) k) as [L|L].
  { rewrite skipn_all2 by auto. apply canonical_nil. }
  destruct (canonical_cases _ H) as [->|(l & b & -> & Hl & Hb & Hz)]; [cbn in L; lia|].
  rewrite app_length in L. cbn [length] in L. rewrite skipn_app.
  replace (k - length l)%nat with O by lia. cbn [skipn].
  apply canonical_snoc. repeat split; auto. now apply Forall_skipn.
Qed.

Lemma shr_ok a k : canonical a -> k / 8 <= N.of_nat (length a) ->
  exists r, shr_assign a k = Ok r /\ canonical r /\ from_le r = from_le a / 2 ^ k.
Proof.
  intros Ha Hk. unfold shr_assign.
  assert (E : (if 8 <=? k then
      let steps := k / 8 in
      let* a := slice_from a (ix steps) in
      Ok (a, k - steps * 8)
    else Ok (a, k)) = Ok (skipn (ix (k / 8)) a, k mod 8)).
  { unfold ix. destruct (N.leb_spec 8 k).
    - cbv zeta. rewrite slice_from_ok by lia. cbn [bind]. f_equal. f_equal. lia.
    - rewrite N.div_small, N.mod_small by lia. reflexivity. }
  cbv zeta in E |- *. rewrite E. cbn [bind].
  set (a1 := skipn (ix (k / 8)) a).
  assert (C1 : canonical a1) by now apply canonical_skipn.
  assert (V1 : from_le a1 = from_le a / 2 ^ (8 * (k / 8))).
  { unfold a1, ix. rewrite from_le_skipn by (auto using canonical_bytes; lia). now rewrite N2Nat.id. }
  assert (V : from_le a / 2 ^ k = from_le a1 / 2 ^ (k mod 8)).
  { rewrite V1, N.div_div by (apply N.pow_nonzero; lia). rewrite <- N.pow_add_r.
    f_equal. f_equal. lia. }
  rewrite V. destruct (N.ltb_spec 0 (k mod 8)).
  - destruct (shr_loop_ok a1 (k mod 8) (canonical_bytes _ C1) ltac:(lia)) as (l & c & F & B & L).
    cbv zeta in F |- *. rewrite F. cbn [bind]. eexists. split; [reflexivity|].
    split; [now apply trim_canonical|]. now rewrite trim_val.
  - exists a1. split; [reflexivity|]. split; [exact C1|].
    replace (k mod 8) with 0 by lia. now rewrite N.pow_0_r, N.div_1_r.
Qed.

Lemma shr_panic a k : N.of_nat (length a) < k / 8 -> shr_assign a k = Panic PIndex.
Proof.
  intros Hk. unfold shr_assign. destruct (N.leb_spec 8 k); [|lia].
  cbv zeta. unfold ix. rewrite slice_from_panic by lia. reflexivity.
Qed.

(** ** Remainder *)

Lemma rem_loop_step capf a m n r : canonical a -> canonical m ->
  allocates capf n -> (length a < n)%nat -> countable m ->
  r = (if from_le m <=? from_le a then from_le a - from_le m else from_le a) ->
  exists a' m',
    (let* le := big_le m a in
     let* a := if le then sub_assign capf a m else Ok a in
     let* m := shr_assign m 1 in
     Ok (a, m)) = Ok (a', m') /\ canonical a' /\ canonical m' /\
    from_le a' = r /\ from_le m' = from_le m / 2.
Proof.
  intros Ha Hm Hcap Hl Hcm ->.
  assert (Hca : countable a).
  { destruct (Hcap (length a + 1)%nat ltac:(lia)) as [P1 P2]. unfold capacity_ok in P2.
    unfold countable. lia. }
  rewrite le_ok by auto. cbn [bind].
  destruct (shr_ok m 1 Hm) as (m' & S1 & S2 & S3).
  { change (1 / 8) with 0. lia. }
  destruct (N.leb_spec (from_le m) (from_le a)) as [L|L].
  - destruct (Hcap (length a + 1)%nat ltac:(lia)) as [P1 P2].
    destruct (sub_cap_exact (capf (length a + 1)%nat) a m Ha Hm ltac:(lia) P2 L) as (a' & A1 & A2 & A3).
    unfold sub_assign. rewrite A1. cbn [bind]. rewrite S1. cbn [bind].
    exists a', m'. repeat split; auto; try apply A2; try apply S2.
  - cbn [bind]. rewrite S1. cbn [bind]. exists a, m'. repeat split; auto; try apply S2; try apply Ha.
Qed.

Lemma rem_ok capf a m : canonical a -> canonical m -> m <> [] ->
  allocates capf (length a + 1) -> countable m ->
  exists r, rem_assign capf a m = Ok r /\ canonical r /\ from_le r = from_le a mod from_le m.
Proof.
  intros Ha Hm Hn Hcap Hcm.
  assert (Hca : countable a).
  { destruct (Hcap (length a + 1)%nat ltac:(lia)) as [P1 P2]. unfold capacity_ok in P2.
    unfold countable. lia. }
  assert (Hpos : 0 < from_le m) by now apply canonical_val_pos.
  unfold rem_assign. rewrite !bits_used_ok by auto. cbn [bind].
  destruct (N.ltb_spec (N.size (from_le a)) (N.size (from_le m))) as [L|L].
  { exists a. split; [reflexivity|]. split; [exact Ha|]. symmetry. apply N.mod_small.
    apply pow_le_size in L. pose proof (lt_size (from_le a)). lia. }
  rewrite csub_ok by auto. cbn [bind].
  set (d := N.size (from_le a) - N.size (from_le m)).
  destruct (shl_ok m d Hm Hn) as [C0 V0].
  match goal with |- context[forM _ ?f ?s0] =>
    destruct (forM_rev_range_inv (fun i (st : list N * list N) => let (x, y) := st in
      canonical x /\ canonical y /\ from_le y = from_le m * 2 ^ N.of_nat i / 2 /\
      from_le x < from_le m * 2 ^ N.of_nat i /\
      from_le x mod from_le m = from_le a mod from_le m /\ from_le x <= from_le a /\
      from_le y <= from_le m * 2 ^ d) f 0%nat (ix d + 1)%nat s0)
      as ([x y] & E & I1 & I2 & I3 & I4 & I5 & _)
  end.
  - lia.
  - split; [exact Ha|]. split; [exact C0|]. unfold ix.
    replace (N.of_nat (N.to_nat d + 1)) with (d + 1) by lia.
    rewrite V0, N.pow_add_r. change (2 ^ 1) with 2.
    split; [rewrite N.mul_assoc, N.div_mul by lia; reflexivity|].
    split; [|split; [reflexivity|split; lia]].
    pose proof (lt_size (from_le a)) as H1.
    replace (N.size (from_le a)) with (N.size (from_le m) - 1 + (d + 1)) in H1.
    2:{ assert (0 < N.size (from_le m)) by (apply pow_le_size; cbn; lia). unfold d. lia. }
    rewrite !N.pow_add_r in H1. change (2 ^ 1) with 2 in H1.
    assert (2 ^ (N.size (from_le m) - 1) <= from_le m).
    { apply pow_le_size. assert (0 < N.size (from_le m)) by (apply pow_le_size; cbn; lia). lia. }
    pose proof (pow2_pos d). nia.
  - intros i [x y] Hi (I1 & I2 & I3 & I4 & I5 & I6 & I7).
    replace (N.of_nat (S i)) with (N.of_nat i + 1) in I3, I4 by lia.
    rewrite N.pow_add_r in I3, I4. change (2 ^ 1) with 2 in *.
    rewrite N.mul_assoc, N.div_mul in I3 by lia. rewrite N.mul_assoc in I4.
    assert (Hcy : countable y).
    { unfold countable in *. 
      assert (length y <= length a)%nat; [|lia].
      apply canonical_length_lt; auto.
      eapply N.le_lt_trans; [exact I7|].
      apply N.lt_le_trans with (2 ^ N.size (from_le a)).
      + replace (N.size (from_le a)) with (N.size (from_le m) + d) by (unfold d; lia).
        rewrite N.pow_add_r. pose proof (lt_size (from_le m)). pose proof (pow2_pos d). nia.
      + rewrite pow256_pow2. apply N.pow_le_mono_r; [lia|]. apply size_length. now apply canonical_bytes. }
    assert (Lx : (length x <= length a)%nat)
      by (apply canonical_length_mono; auto using canonical_bytes).
    destruct (rem_loop_step capf x y (length a + 1) _ I1 I2 Hcap ltac:(lia) Hcy eq_refl)
      as (x' & y' & E & J1 & J2 & J3 & J4).
    exists (x', y'). split; [exact E|]. split; [exact J1|]. split; [exact J2|].
    rewrite J4, J3, I3. split; [reflexivity|].
    set (P := from_le m * 2 ^ N.of_nat i) in *.
    destruct (N.leb_spec P (from_le x)) as [G|G].
    + split; [lia|]. split; [|split; [lia|]].
      * rewrite <- I5. replace (from_le x) with (from_le x - P + 2 ^ N.of_nat i * from_le m) at 2
          by (unfold P in *; lia).
        symmetry. apply N.mod_add. lia.
      * apply N.le_trans with P; [|rewrite <- I3; exact I7].
        apply N.div_le_upper_bound; lia.
    + split; [lia|]. split; [exact I5|split; [lia|]].
      apply N.le_trans with P; [|rewrite <- I3; exact I7].
      apply N.div_le_upper_bound; lia.
  - rewrite E. cbn [bind]. exists x. split; [reflexivity|]. split; [exact I1|].
    rewrite <- I5. symmetry. apply N.mod_small.
    cbn [N.of_nat] in I4. rewrite N.pow_0_r in I4. lia.
Qed.

(** Remainder by zero. *)
Lemma sub_nil capf a : canonical a -> allocates capf (length a + 1) ->
  sub_assign capf a [] = Ok a.
Proof.
  intros Ha Hcap. destruct (Hcap (length a + 1)%nat ltac:(lia)) as [P1 P2].
  destruct (sub_cap_exact (capf (length a + 1)%nat) a [] Ha canonical_nil ltac:(lia) P2)
    as (r & E & C & V); [cbn [from_le]; lia|].
  unfold sub_assign. rewrite E. f_equal. apply canonical_unique; auto.
  rewrite V. cbn [from_le]. lia.
Qed.

Lemma rem_zero_small capf a : canonical a -> allocates capf (length a + 1) ->
  from_le a < 128 -> rem_assign capf a [] = Ok a.
Proof.
  intros Ha Hcap Hv.
  assert (Hca : countable a).
  { destruct (Hcap (length a + 1)%nat ltac:(lia)) as [P1 P2]. unfold capacity_ok in P2.
    unfold countable. lia. }
  unfold rem_assign. rewrite (bits_used_ok a) by auto. cbn [bits_used bind].
  destruct (N.ltb_spec (N.size (from_le a)) 0); [lia|].
  rewrite csub_ok by lia. cbn [bind]. rewrite N.sub_0_r.
  rewrite shl_nil. change 128 with (2 ^ 7) in Hv. apply size_le in Hv.
  rewrite N.div_small by lia. cbn [ix N.to_nat repeat].
  match goal with |- context[forM _ ?f ?s0] =>
    destruct (forM_rev_range_inv (fun _ st => st = (a, @nil N)) f 0%nat
      (ix (N.size (from_le a)) + 1)%nat s0) as (s & E & ->)
  end; [lia|reflexivity| |].
  - intros i s _ ->. exists (a, []). split; [|reflexivity].
    rewrite le_ok by (auto using canonical_nil; unfold countable; cbn; lia).
    cbn [bind from_le]. rewrite (proj2 (N.leb_le 0 (from_le a))) by lia.
    rewrite sub_nil by auto. reflexivity.
  - rewrite E. reflexivity.
Qed.

Lemma rem_zero_panic capf a : canonical a -> countable a -> 128 <= from_le a ->
  rem_assign capf a [] = Panic PExplicit.
Proof.
  intros Ha Hca Hv.
  unfold rem_assign. rewrite (bits_used_ok a) by auto. cbn [bits_used bind].
  destruct (N.ltb_spec (N.size (from_le a)) 0); [lia|].
  rewrite csub_ok by lia. cbn [bind]. rewrite N.sub_0_r, shl_nil.
  change 128 with (2 ^ 7) in Hv. apply pow_le_size in Hv.
  pose proof (size_length a (canonical_bytes _ Ha)) as SZ.
  set (k := ix (N.size (from_le a) / 8)).
  assert (Hk : (0 < k)%nat) by (unfold k, ix; lia).
  rewrite Nat.add_1_r, range_snoc by lia. rewrite rev_app_distr. cbn [rev app forM].
  unfold big_le, big_cmp. rewrite bits_used_top_zero.
  - reflexivity.
  - unfold countable in *. rewrite repeat_length. unfold k, ix. lia.
  - destruct k; [lia|discriminate].
  - destruct k as [|k']; [lia|]. replace (S k') with (k' + 1)%nat by lia.
    rewrite repeat_app. cbn [repeat]. apply last_last.
Qed.
