(** * Operations on numbers that are not canonical *)
From Coq Require Import ZifyBool ZifyNat ZifyN.
From Verif Require Import Base BaseLemmas ModelBig ModelRsa SpecEndian SpecBig SpecRsa SpecSpoiled
  ProofBig ProofBig2 ProofBig3 ProofRsa.
Local Open Scope N_scope.
Local Open Scope list_scope.

Lemma spoiled_cases a : bytes a -> canonical a \/ spoiled a.
Proof.
  intros B. destruct a as [|b l _] using rev_ind; [left; apply canonical_nil|].
  destruct (N.eq_dec b 0) as [->|Z].
  - right. split; [exact B|]. split; [intros E; apply app_eq_nil in E as [_ E]; discriminate|apply last_last].
  - left. apply canonical_snoc. apply Forall_app in B as [B1 B2]. inversion B2. auto.
Qed.

Lemma spoiled_not a : spoiled a -> ~ canonical a.
Proof. intros (_ & _ & L) [_ C]. now apply C. Qed.

Lemma spoiled_bits_used a : spoiled a -> countable a -> bits_used a = Panic PExplicit.
Proof. intros (_ & N & L) C. now apply bits_used_top_zero. Qed.

Lemma bits_used_either b : bytes b -> countable b -> (exists n, bits_used b = Ok n) \/ bits_used b = Panic PExplicit.
Proof.
  intros B C. destruct (spoiled_cases b B) as [H|H]; [left|right].
  - eexists. now apply bits_used_ok.
  - now apply spoiled_bits_used.
Qed.

Lemma spoiled_is_set a i : spoiled a -> countable a -> is_set a i = Panic PExplicit.
Proof. intros S C. unfold is_set. now rewrite spoiled_bits_used. Qed.

Lemma spoiled_cmp a b : spoiled a -> countable a -> bytes b -> countable b ->
  big_cmp a b = Panic PExplicit /\ big_cmp b a = Panic PExplicit.
Proof.
  intros S C B Cb. unfold big_cmp. rewrite (spoiled_bits_used a) by auto. cbn [bind]. split; [reflexivity|].
  destruct (bits_used_either b B Cb) as [[n ->]| ->]; reflexivity.
Qed.

Lemma spoiled_rem capf a b : spoiled a -> countable a -> bytes b -> countable b ->
  rem_assign capf a b = Panic PExplicit /\ rem_assign capf b a = Panic PExplicit.
Proof.
  intros S C B Cb. unfold rem_assign. rewrite (spoiled_bits_used a) by auto. cbn [bind]. split; [|reflexivity].
  destruct (bits_used_either b B Cb) as [[n ->]| ->]; reflexivity.
Qed.

Lemma spoiled_sub capf a b : spoiled a -> countable a -> sub_assign capf a b = Panic PExplicit.
Proof. intros S C. unfold sub_assign, sub_assign_cap. now rewrite spoiled_bits_used. Qed.

Lemma sub_any_right capf a b : canonical a -> bytes b -> allocates capf (length a + 1) ->
  (length b <= length a + 1)%nat -> num b <= num a ->
  exists r, sub_assign capf a b = Ok r /\ canonical r /\ num r = num a - num b.
Proof.
  intros Ha Hb Hal Hl Hv. unfold sub_assign.
  destruct (Hal (length a + 1)%nat ltac:(lia)) as [H1 H2].
  destruct (sub_cap_ok (capf (length a + 1)%nat) a b Ha Hb ltac:(lia) ltac:(lia) H2) as (r & E & C & V).
  exists r. split; [exact E|]. split; [exact C|]. change num with from_le in *. rewrite V.
  assert (from_le a < 2 ^ N.size (from_le a)) by apply lt_size.
  assert (P : N.size (from_le a) <= 8 * N.of_nat (capf (length a + 1)%nat)).
  { apply N.le_trans with (8 * N.of_nat (length a)); [apply size_length, canonical_bytes, Ha|lia]. }
  rewrite pow256_pow2.
  replace (2 ^ (8 * N.of_nat (capf (length a + 1)%nat)))
    with (2 ^ (8 * N.of_nat (capf (length a + 1)%nat) - N.size (from_le a)) * 2 ^ N.size (from_le a))
    by (rewrite <- N.pow_add_r; f_equal; lia).
  set (k := 2 ^ (_ - _)).
  replace (from_le a + k * 2 ^ N.size (from_le a) - from_le b)
    with (from_le a - from_le b + k * 2 ^ N.size (from_le a)) by lia.
  rewrite N.mod_add by (apply N.pow_nonzero; lia). apply N.mod_small. lia.
Qed.

Lemma shl_any a k : bytes a ->
  num (shl_assign a k) = num a * 2 ^ k /\
  (spoiled a -> (canonical (shl_assign a k) <-> k mod 8 <> 0 /\ (num a <> 0 \/ k < 8))).
Proof.
  intros Ba. change num with from_le. unfold shl_assign.
  assert (K : k - k / 8 * 8 = k mod 8) by (pose proof (N.div_mod k 8); lia). rewrite K.
  assert (Hm : k mod 8 < 8) by (apply N.mod_lt; lia).
  set (a1 := if 0 <? k mod 8 then _ else a).
  assert (V1 : from_le a1 = from_le a * 2 ^ (k mod 8)).
  { unfold a1. destruct (N.ltb_spec 0 (k mod 8)) as [L|L].
    - destruct (shl_loop_ok (k mod 8) (a ++ [0]) 0) as (X1 & X2 & X3); [lia|now apply bytes_snoc_0|apply N.neq_0_lt_0, N.pow_nonzero; lia|].
      rewrite trim_val, X3, from_le_snoc_0, N.add_0_r. apply N.mod_small.
      rewrite app_length. cbn [length]. rewrite Nat.add_1_r, Nat2N.inj_succ, N.pow_succ_r'.
      pose proof (from_le_lt a Ba). rewrite N.mul_comm. apply N.mul_lt_mono; [|exact H].
      change 256 with (2 ^ 8). apply N.pow_lt_mono_r; lia.
    - replace (k mod 8) with 0 by lia. now rewrite N.pow_0_r, N.mul_1_r. }
  assert (V : forall x, from_le x = from_le a * 2 ^ (k mod 8) ->
    from_le (if 0 <? k / 8 then repeat 0 (ix (k / 8)) ++ x else x) = from_le a * 2 ^ k).
  { intros x Vx. replace (2 ^ k) with (2 ^ (k mod 8) * 2 ^ (8 * (k / 8)))
      by (rewrite <- N.pow_add_r; f_equal; rewrite (N.div_mod k 8) at 3; lia).
    destruct (N.ltb_spec 0 (k / 8)) as [L|L].
    - rewrite from_le_repeat_app, Vx. unfold ix. rewrite N2Nat.id. lia.
    - replace (k / 8) with 0 by lia. rewrite N.mul_0_r, N.pow_0_r. rewrite Vx. lia. }
  split; [now apply V|].
  intros (_ & Na & La).
  destruct (N.ltb_spec 0 (k mod 8)) as [L|L].
  - assert (C1 : canonical a1).
    { cbv beta iota delta [a1]. apply trim_canonical, shl_loop_ok; [lia|now apply bytes_snoc_0|].
      apply N.neq_0_lt_0, N.pow_nonzero; lia. }
    destruct (N.ltb_spec 0 (k / 8)) as [S|S].
    + destruct a1 as [|x a2] eqn:Ea1.
      * cbn in V1. assert (Z : from_le a = 0).
        { symmetry in V1. apply N.eq_mul_0 in V1 as [V1|V1]; [exact V1|]. now apply N.pow_nonzero in V1. }
        split.
        -- intros [_ C]. exfalso. apply C. rewrite app_nil_r. unfold ix.
           destruct (N.to_nat (k / 8)) as [|n] eqn:E; [lia|]. cbn [repeat]. rewrite repeat_cons. apply last_last.
        -- intros [_ [H|H]]; [now elim H|]. rewrite N.div_small in S by exact H. lia.
      * split; [intros _|intros _; apply canonical_repeat_app; [exact C1|discriminate]].
        split; [lia|]. left. intros Z. rewrite Z in V1. cbn [N.mul] in V1.
        apply canonical_zero in V1; [discriminate|exact C1].
    + split; [intros _|intros _; exact C1]. split; [lia|]. right.
      rewrite (N.div_mod k 8) by lia. lia.
  - assert (E1 : a1 = a) by reflexivity.
    rewrite E1. split; [|intros [H _]; lia]. intros [_ C]. exfalso. apply C.
    destruct (0 <? k / 8); [|exact La].
    clear - La Na. destruct a as [|b l _] using rev_ind; [congruence|].
    rewrite last_last in La. subst b. rewrite app_assoc. apply last_last.
Qed.

Lemma shr_any a k : bytes a -> k / 8 <= N.of_nat (length a) ->
  exists r, shr_assign a k = Ok r /\ bytes r /\ num r = num a / 2 ^ k /\ (k mod 8 <> 0 -> canonical r).
Proof.
  intros Ba Hk. change num with from_le. unfold shr_assign.
  assert (E : (if 8 <=? k then
      let steps := k / 8 in
      let* a := slice_from a (ix steps) in
      Ok (a, k - steps * 8)
    else Ok (a, k)) = Ok (skipn (ix (k / 8)) a, k mod 8)).
  { destruct (N.leb_spec 8 k) as [L|L].
    - cbv zeta. rewrite slice_from_ok by (unfold ix; lia). cbn [bind]. do 2 f_equal.
      pose proof (N.div_mod k 8). lia.
    - rewrite N.div_small, N.mod_small by exact L. reflexivity. }
  cbv zeta in E |- *. rewrite E. cbn [bind]. clear E.
  assert (Bs : bytes (skipn (ix (k / 8)) a)) by now apply Forall_skipn.
  assert (Vs : from_le (skipn (ix (k / 8)) a) = from_le a / 2 ^ (8 * (k / 8))).
  { rewrite from_le_skipn by (auto; unfold ix; lia). unfold ix. now rewrite N2Nat.id. }
  assert (V : from_le a / 2 ^ (8 * (k / 8)) / 2 ^ (k mod 8) = from_le a / 2 ^ k).
  { rewrite N.div_div by (apply N.pow_nonzero; lia). rewrite <- N.pow_add_r.
    f_equal. f_equal. rewrite (N.div_mod k 8) at 3; lia. }
  assert (Hm : k mod 8 < 8) by (apply N.mod_lt; lia).
  destruct (N.ltb_spec 0 (k mod 8)) as [L|L].
  - destruct (shr_loop_ok (skipn (ix (k / 8)) a) (k mod 8) Bs ltac:(lia)) as (l & c & El & Bl & Vl).
    cbv zeta in El. rewrite El. cbn [bind]. exists (trim_trailing_zeroes l). split; [reflexivity|].
    split; [now apply trim_bytes|]. split; [|intros _; now apply trim_canonical].
    now rewrite trim_val, Vl, Vs.
  - exists (skipn (ix (k / 8)) a). split; [reflexivity|]. split; [exact Bs|]. split; [|lia].
    rewrite Vs, <- V. replace (k mod 8) with 0 by lia. now rewrite N.pow_0_r, N.div_1_r.
Qed.

Lemma repair_ok a : bytes a -> exists r, big_from_be_bytes (big_to_be_bytes a) = Ok r /\
  big_from_le_bytes a = r /\ canonical r /\ num r = num a /\ (spoiled a -> r <> a).
Proof.
  intros B. exists (trim_trailing_zeroes a). split.
  - rewrite from_be_bytes_ok. unfold big_to_be_bytes. now rewrite rev_involutive.
  - split; [reflexivity|]. pose proof (trim_canonical a B) as C. split; [exact C|].
    split; [apply trim_val|]. intros S E. rewrite E in C. now apply (spoiled_not a).
Qed.

(** ** RSA *)

Lemma mul_mod_spoiled capf a b m : spoiled b -> countable b -> mul_mod capf a b m = Panic PExplicit.
Proof.
  intros S C. unfold mul_mod. cbn [big_from_u128 N.eqb bind].
  destruct (8 * length b)%nat; cbn [mul_mod_loop]; now rewrite spoiled_bits_used.
Qed.

Lemma mul_mod_spoiled_modulus capf a b m : spoiled m -> countable m -> bytes a -> N.of_nat (length a) + 1 < 2 ^ 29 ->
  canonical b -> countable b -> num b <> 0 -> mul_mod capf a b m = Panic PExplicit.
Proof.
  intros Sm Cm Ba La Hb Cb Nb. unfold mul_mod. cbn [big_from_u128 N.eqb bind].
  change num with from_le in Nb.
  assert (R : forall x, bytes x -> (length x <= length a + 1)%nat -> rem_assign capf x m = Panic PExplicit).
  { intros x Bx Lx. apply spoiled_rem; auto. unfold countable. lia. }
  destruct b as [|b0 b']; [now elim Nb|]. set (b := b0 :: b') in *.
  replace (8 * length b)%nat with (S (7 + 8 * length b')) by (unfold b; cbn [length]; lia). cbn [mul_mod_loop].
  rewrite bits_used_ok by auto. cbn [bind].
  destruct (N.eqb_spec (N.size (from_le b)) 0) as [Z|Z].
  { pose proof (lt_size (from_le b)) as L. rewrite Z, N.pow_0_r in L. lia. }
  rewrite is_set_ok by auto. cbn [bind].
  destruct (N.testbit (from_le b) 0).
  - destruct (add_ok [] a) as (r & E & C & V); [constructor|exact Ba|]. rewrite E. cbn [bind].
    rewrite R; [reflexivity|now apply canonical_bytes|].
    assert (length r <= length a)%nat; [|lia]. apply canonical_length_mono; auto. rewrite V. cbn. lia.
  - cbn [bind]. rewrite R; [reflexivity|now apply shl_bytes|].
    unfold shl_assign. change (1 / 8) with 0. cbn [N.mul N.sub N.ltb N.compare].
    rewrite trim_length. destruct (shl_loop_ok 1 (a ++ [0]) 0) as (_ & -> & _);
      [lia|now apply bytes_snoc_0|reflexivity|]. rewrite app_length. reflexivity.
Qed.

Lemma pow_mod_spoiled_base capf a p m : spoiled a -> countable a -> canonical p -> countable p -> num p <> 0 ->
  pow_mod capf a p m = Panic PExplicit.
Proof.
  intros Sa Ca Hp Cp Np. unfold pow_mod. destruct (from_u128_ok 1 eq_refl) as (r & -> & _). cbn [bind].
  change num with from_le in Np.
  rewrite bits_used_ok by auto. cbn [bind]. unfold range, ix.
  destruct (N.to_nat (N.size (from_le p))) as [|k] eqn:K.
  { pose proof (lt_size (from_le p)) as L. replace (N.size (from_le p)) with 0 in L by lia. rewrite N.pow_0_r in L. lia. }
  rewrite Nat.sub_0_r. cbn [seq forM]. rewrite is_set_ok by auto. cbn [bind].
  destruct (N.testbit (from_le p) (N.of_nat 0)).
  - now rewrite mul_mod_spoiled.
  - cbn [bind]. now rewrite mul_mod_spoiled.
Qed.

Lemma pow_mod_spoiled_exponent capf a p m : spoiled p -> countable p -> pow_mod capf a p m = Panic PExplicit.
Proof.
  intros Sp Cp. unfold pow_mod. destruct (from_u128_ok 1 eq_refl) as (r & -> & _). cbn [bind].
  now rewrite spoiled_bits_used.
Qed.

Lemma pow_mod_spoiled_modulus capf a p m : spoiled m -> countable m -> canonical a -> N.of_nat (length a) + 1 < 2 ^ 29 ->
  num a <> 0 -> canonical p -> countable p -> num p <> 0 -> pow_mod capf a p m = Panic PExplicit.
Proof.
  intros Sm Cm Ha La Na Hp Cp Np. unfold pow_mod.
  destruct (from_u128_ok 1 eq_refl) as (r & -> & Cr & Vr). cbn [bind].
  assert (Lr : (length r <= 1)%nat) by (apply canonical_length_lt; auto; rewrite Vr; reflexivity).
  change num with from_le in Np.
  rewrite bits_used_ok by auto. cbn [bind]. unfold range, ix.
  destruct (N.to_nat (N.size (from_le p))) as [|k] eqn:K.
  { pose proof (lt_size (from_le p)) as L. replace (N.size (from_le p)) with 0 in L by lia. rewrite N.pow_0_r in L. lia. }
  rewrite Nat.sub_0_r. cbn [seq forM]. rewrite is_set_ok by auto. cbn [bind].
  assert (Ca : countable a) by (unfold countable; lia).
  destruct (N.testbit (from_le p) (N.of_nat 0)).
  - rewrite mul_mod_spoiled_modulus; auto using canonical_bytes. change (2 ^ 29) with 536870912. lia.
  - cbn [bind]. rewrite mul_mod_spoiled_modulus; auto using canonical_bytes.
Qed.
