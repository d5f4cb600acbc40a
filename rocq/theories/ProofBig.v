(** * Proofs about BigUint, part 1: representation, bits *)
From Verif Require Import Base BaseLemmas ModelBig SpecEndian ProofEndian SpecBig.
From Coq Require Import ZifyBool ZifyNat ZifyN.
Ltac Zify.zify_post_hook ::= Z.div_mod_to_equations.
Local Open Scope N_scope.
Local Open Scope list_scope.

Lemma num_from_le a : num a = from_le a.
Proof. unfold num. symmetry. apply from_le_le_num. Qed.

Lemma canonical_bytes a : canonical a -> bytes a.
Proof. now intros []. Qed.

Lemma canonical_nil : canonical [].
Proof. split; [constructor|cbn; lia]. Qed.

Lemma canonical_snoc l b : canonical (l ++ [b]) <-> bytes l /\ b < 256 /\ b <> 0.
Proof.
  unfold canonical, bytes, byte. rewrite last_last, Forall_app. split.
  - intros [[H1 H2] H3]. inversion H2; auto.
  - intros (H1 & H2 & H3). repeat split; auto.
Qed.

Lemma canonical_cases a : canonical a -> a = [] \/ exists l b, a = l ++ [b] /\ bytes l /\ b < 256 /\ b <> 0.
Proof.
  destruct a as [|b l] using rev_ind; [auto|].
  intros H. right. exists l, b. apply canonical_snoc in H. tauto.
Qed.

Lemma from_le_snoc l b : from_le (l ++ [b]) = from_le l + 256 ^ N.of_nat (length l) * b.
Proof. rewrite from_le_app. cbn [from_le]. lia. Qed.

(** ** Trimming *)

Lemma last_opt_snoc {A} (l : list A) b : last_opt (l ++ [b]) = Some b.
Proof.
  unfold last_opt. rewrite app_length. cbn [length].
  replace (length l + 1 - 1)%nat with (length l) by lia.
  rewrite nth_error_app2, Nat.sub_diag by lia. reflexivity.
Qed.

Lemma trim_nil : trim_trailing_zeroes [] = [].
Proof. reflexivity. Qed.

Lemma trim_snoc l b :
  trim_trailing_zeroes (l ++ [b]) = if b =? 0 then trim_trailing_zeroes l else l ++ [b].
Proof.
  unfold trim_trailing_zeroes. rewrite app_length. cbn [length].
  replace (length l + 1)%nat with (S (length l)) by lia.
  cbn [trim_loop]. rewrite last_opt_snoc, removelast_last. reflexivity.
Qed.

Lemma trim_val l : from_le (trim_trailing_zeroes l) = from_le l.
Proof.
  induction l as [|b l IH] using rev_ind; [reflexivity|].
  rewrite trim_snoc. destruct (N.eqb_spec b 0) as [->|]; auto.
  rewrite from_le_snoc, IH. lia.
Qed.

Lemma trim_canonical l : bytes l -> canonical (trim_trailing_zeroes l).
Proof.
  induction l as [|b l IH] using rev_ind; intros H; [apply canonical_nil|].
  apply Forall_app in H as [H1 H2]. inversion H2; subst.
  rewrite trim_snoc. destruct (N.eqb_spec b 0) as [->|]; auto.
  apply canonical_snoc. auto.
Qed.

Lemma trim_bytes l : bytes l -> bytes (trim_trailing_zeroes l).
Proof. intros. now apply canonical_bytes, trim_canonical. Qed.

Lemma trim_length l : (length (trim_trailing_zeroes l) <= length l)%nat.
Proof.
  induction l as [|b l IH] using rev_ind; [auto|].
  rewrite trim_snoc, app_length. cbn [length]. destruct (b =? 0); [lia|].
  rewrite app_length. cbn [length]. lia.
Qed.

Lemma trim_id l : canonical l -> trim_trailing_zeroes l = l.
Proof.
  intros H. destruct (canonical_cases _ H) as [->|(l' & b & -> & _ & _ & Hb)]; auto.
  rewrite trim_snoc. destruct (N.eqb_spec b 0); congruence.
Qed.

(** ** Length of a canonical representation *)

Lemma canonical_bounds l b : bytes l -> b < 256 -> b <> 0 ->
  256 ^ N.of_nat (length l) <= from_le (l ++ [b]) < 256 ^ N.of_nat (S (length l)).
Proof.
  intros Hl Hb Hz. rewrite from_le_snoc, pow256_S. pose proof (from_le_lt l Hl).
  pose proof (pow2_pos (8 * N.of_nat (length l))) as P.
  nia.
Qed.

Lemma canonical_val_pos a : canonical a -> a <> [] -> 0 < from_le a.
Proof.
  intros H Hn. destruct (canonical_cases _ H) as [->|(l & b & -> & Hl & Hb & Hz)]; [easy|].
  pose proof (canonical_bounds l b Hl Hb Hz).
  assert (256 ^ N.of_nat (length l) <> 0) by (apply N.pow_nonzero; lia). lia.
Qed.

Lemma canonical_length_lt a k : canonical a -> from_le a < 256 ^ N.of_nat k -> (length a <= k)%nat.
Proof.
  intros H Hv. destruct (canonical_cases _ H) as [->|(l & b & -> & Hl & Hb & Hz)]; [cbn; lia|].
  pose proof (canonical_bounds l b Hl Hb Hz). rewrite app_length; cbn [length].
  destruct (le_lt_dec k (length l)) as [G|]; [|lia]. exfalso.
  assert (256 ^ N.of_nat k <= 256 ^ N.of_nat (length l)) by (apply N.pow_le_mono_r; lia). lia.
Qed.

Lemma canonical_length_mono a b : canonical a -> bytes b -> from_le a <= from_le b ->
  (length a <= length b)%nat.
Proof.
  intros Ha Hb H. apply canonical_length_lt; auto. pose proof (from_le_lt b Hb). lia.
Qed.

Lemma canonical_unique a b : canonical a -> canonical b -> from_le a = from_le b -> a = b.
Proof.
  intros Ha Hb E. apply from_le_inj; auto using canonical_bytes.
  apply Nat.le_antisymm; apply canonical_length_mono; auto using canonical_bytes; lia.
Qed.

Lemma canonical_zero a : canonical a -> from_le a = 0 -> a = [].
Proof.
  intros H E. apply (canonical_unique a [] H canonical_nil). now rewrite E.
Qed.

(** ** Bits *)

Lemma testbit_add_256 b v i : b < 256 ->
  N.testbit (b + 256 * v) i = if i <? 8 then N.testbit b i else N.testbit v (i - 8).
Proof.
  intros Hb. destruct (N.ltb_spec i 8).
  - rewrite <- (N.mod_pow2_bits_low _ 8 i) by auto.
    replace ((b + 256 * v) mod 2 ^ 8) with b; auto.
    change (2 ^ 8) with 256. lia.
  - replace i with ((i - 8) + 8) at 1 by lia. rewrite <- N.div_pow2_bits.
    f_equal. change (2 ^ 8) with 256. lia.
Qed.

Lemma testbit_val a i : bytes a ->
  N.testbit (from_le a) i = N.testbit (nth (N.to_nat (i / 8)) a 0) (i mod 8).
Proof.
  intros H. revert i. induction H as [|b l Hb Hl IH]; intros i.
  - cbn [from_le]. rewrite N.bits_0. destruct (N.to_nat (i / 8)); reflexivity.
  - cbn [from_le]. rewrite testbit_add_256 by exact Hb. destruct (N.ltb_spec i 8).
    + rewrite N.div_small, N.mod_small by auto. reflexivity.
    + rewrite IH. replace (i / 8) with (N.succ ((i - 8) / 8)) by lia.
      rewrite N2Nat.inj_succ. cbn [nth]. f_equal. lia.
Qed.

Lemma pow256_pow2 k : 256 ^ k = 2 ^ (8 * k).
Proof. rewrite N.pow_mul_r. reflexivity. Qed.

Lemma bit_length_size n : bit_length n = N.size n.
Proof. destruct n; auto. unfold bit_length. cbn [N.eqb]. rewrite N.size_log2 by easy. lia. Qed.

Lemma lt_size n : n < 2 ^ N.size n.
Proof. apply N.size_gt. Qed.

Lemma size_le n k : n < 2 ^ k <-> N.size n <= k.
Proof.
  destruct (N.eq_dec n 0) as [->|Hz].
  - cbn. split; [lia|]. intros. apply pow2_pos.
  - rewrite N.size_log2 by auto. rewrite N.log2_lt_pow2 by lia. lia.
Qed.

Lemma pow_le_size n k : 2 ^ k <= n <-> k < N.size n.
Proof. pose proof (size_le n k). lia. Qed.

Lemma size_snoc l b : bytes l -> b < 256 -> b <> 0 ->
  N.size (from_le (l ++ [b])) = 8 * N.of_nat (length l) + (N.log2 b + 1).
Proof.
  intros Hl Hb Hz. rewrite N.size_log2.
  2:{ pose proof (canonical_bounds l b Hl Hb Hz).
      assert (256 ^ N.of_nat (length l) <> 0) by (apply N.pow_nonzero; lia). lia. }
  rewrite <- N.add_1_r, N.add_assoc. f_equal.
  apply N.log2_unique; [lia|].
  rewrite from_le_snoc, <- N.add_1_r, <- N.add_assoc, !N.pow_add_r, <- pow256_pow2.
  pose proof (from_le_lt l Hl). pose proof (N.log2_spec b ltac:(lia)) as L.
  rewrite <- N.add_1_r, N.pow_add_r in L. change (2 ^ 1) with 2 in *.
  generalize dependent (2 ^ N.log2 b). generalize dependent (256 ^ N.of_nat (length l)).
  intros P HP Q HQ. nia.
Qed.

Lemma size_length a : bytes a -> N.size (from_le a) <= 8 * N.of_nat (length a).
Proof. intros. apply size_le. rewrite <- pow256_pow2. now apply from_le_lt. Qed.

Lemma bits_used_nonnil a : a <> [] -> bits_used a =
      let* last_idx := nsub (length a) 1 in
      let* k := cmul 32 (N.of_nat last_idx mod 2 ^ 32) 8 in
      let* bits := cadd 32 0 k in
      let* b := idx a last_idx in
      let* lg := ilog2_u8 b in
      let* lg := cadd 32 lg 1 in
      cadd 32 bits lg.
Proof. destruct a; [congruence|reflexivity]. Qed.

Lemma bits_used_ok a : canonical a -> countable a ->
  bits_used a = Ok (N.size (from_le a)).
Proof.
  intros H Hc. destruct (canonical_cases _ H) as [->|(l & b & -> & Hl & Hb & Hz)]; [reflexivity|].
  unfold countable in Hc. rewrite app_length in Hc. cbn [length] in Hc.
  rewrite size_snoc by auto. rewrite bits_used_nonnil by (intros E; destruct l; discriminate).
  rewrite app_length. cbn [length].
  unfold nsub. destruct (Nat.leb_spec 1 (length l + 1)); [|lia]. cbn [bind].
  replace (length l + 1 - 1)%nat with (length l) by lia.
  change (2 ^ 29) with 536870912 in Hc.
  rewrite N.mod_small by (change (2 ^ 32) with 4294967296; lia).
  rewrite cmul_ok by (change (2 ^ 32) with 4294967296; lia). cbn [bind].
  rewrite cadd_ok by (change (2 ^ 32) with 4294967296; lia). cbn [bind].
  rewrite (idx_nth _ _ 0) by (rewrite app_length; cbn [length]; lia). cbn [bind].
  rewrite app_nth2, Nat.sub_diag by lia. cbn [nth].
  unfold ilog2_u8. rewrite (proj2 (N.eqb_neq b 0) Hz). cbn [bind].
  assert (N.log2 b < 8) by (apply N.log2_lt_pow2; change (2 ^ 8) with 256; lia).
  rewrite cadd_ok by (change (2 ^ 32) with 4294967296; lia). cbn [bind].
  rewrite cadd_ok by (change (2 ^ 32) with 4294967296; lia).
  f_equal. lia.
Qed.

Lemma bits_used_top_zero a : countable a -> a <> [] -> last a 1 = 0 ->
  bits_used a = Panic PExplicit.
Proof.
  intros Hc Hn Hz. destruct a as [|b l _] using rev_ind; [easy|].
  rewrite last_last in Hz. subst b.
  unfold countable in Hc. rewrite app_length in Hc. cbn [length] in Hc.
  rewrite bits_used_nonnil by auto.
  rewrite app_length. cbn [length].
  unfold nsub. destruct (Nat.leb_spec 1 (length l + 1)); [|lia]. cbn [bind].
  replace (length l + 1 - 1)%nat with (length l) by lia.
  change (2 ^ 29) with 536870912 in Hc.
  rewrite N.mod_small by (change (2 ^ 32) with 4294967296; lia).
  rewrite cmul_ok by (change (2 ^ 32) with 4294967296; lia). cbn [bind].
  rewrite cadd_ok by (change (2 ^ 32) with 4294967296; lia). cbn [bind].
  rewrite (idx_nth _ _ 0) by (rewrite app_length; cbn [length]; lia). cbn [bind].
  rewrite app_nth2, Nat.sub_diag by lia. reflexivity.
Qed.

Lemma land_1_testbit x : negb (N.land x 1 =? 0) = N.testbit x 0.
Proof.
  change 1 with (N.ones 1). rewrite N.land_ones. change (2 ^ 1) with 2.
  rewrite N.bit0_eqb. destruct (N.eqb_spec (x mod 2) 0), (N.eqb_spec (x mod 2) 1); cbn; auto; lia.
Qed.

Lemma is_set_ok a i : canonical a -> countable a ->
  is_set a i = Ok (N.testbit (from_le a) i).
Proof.
  intros H Hc. unfold is_set. rewrite bits_used_ok by auto. cbn [bind].
  destruct (N.leb_spec (N.size (from_le a)) i) as [L|L].
  - f_equal. symmetry. eapply testbit_high; [apply lt_size|exact L].
  - rewrite testbit_val by now apply canonical_bytes.
    pose proof (size_length a (canonical_bytes _ H)).
    destruct a as [|x a']; [cbn in L; lia|]. set (a := x :: a') in *.
    unfold ix. destruct (Nat.leb_spec (length a) (N.to_nat (i / 8))); [lia|].
    rewrite (idx_nth _ _ 0) by lia. cbn [bind]. f_equal.
    rewrite land_1_testbit. unfold wshr. rewrite N.shiftr_spec', N.add_0_l. reflexivity.
Qed.

(** ** Changing a bit *)

Lemma update_ok a i s : bytes a -> i / 8 < N.of_nat (length a) ->
  exists a', update a i s = Ok a' /\ length a' = length a /\ bytes a' /\
    from_le a' = (if s then N.setbit else N.clearbit) (from_le a) i /\
    (forall j, j <> N.to_nat (i / 8) -> nth j a' 0 = nth j a 0) /\
    nth (N.to_nat (i / 8)) a' 0 =
      (if s then N.setbit else N.clearbit) (nth (N.to_nat (i / 8)) a 0) (i mod 8).
Proof.
  intros Ha Hi. unfold update, ix.
  destruct a as [|x l]; [cbn in Hi; lia|]. set (a := x :: l) in *.
  destruct (Nat.leb_spec (length a) (N.to_nat (i / 8))); [lia|].
  set (k := N.to_nat (i / 8)) in *.
  rewrite (idx_nth _ _ 0) by lia. cbn [bind].
  assert (Hb : nth k a 0 < 256) by (apply (Forall_nth_lt byte); auto).
  assert (Hm : i mod 8 < 8) by lia.
  assert (Hw : wshl 8 1 (i mod 8) = 2 ^ (i mod 8)).
  { unfold wshl. rewrite N.shiftl_1_l. apply N.mod_small. apply N.pow_lt_mono_r; lia. }
  rewrite Hw.
  assert (E : (if s then upd a k (N.lor (nth k a 0) (2 ^ (i mod 8)))
               else upd a k (N.land (nth k a 0) (wnot 8 (2 ^ (i mod 8))))) =
              Ok (set_nth a k ((if s then N.setbit else N.clearbit) (nth k a 0) (i mod 8)))).
  { destruct s; rewrite upd_ok by lia; f_equal; f_equal.
    - now rewrite N.setbit_spec'.
    - rewrite N.clearbit_spec'. apply N.bits_inj. intros j. unfold wnot.
      rewrite N.land_spec, N.ldiff_spec, N.lxor_spec.
      destruct (N.lt_ge_cases j 8).
      + rewrite N.ones_spec_low by auto. now destruct (N.testbit (2 ^ (i mod 8)) j).
      + rewrite (testbit_high (nth k a 0) 8) by auto. reflexivity. }
  rewrite E. eexists. split; [reflexivity|]. split; [now apply set_nth_length|].
  assert (Hbb : byte ((if s then N.setbit else N.clearbit) (nth k a 0) (i mod 8))).
  { unfold byte. change 256 with (2 ^ 8). apply lt_pow2_testbit. intros j Hj.
    destruct s.
    - rewrite N.setbit_eqb, (testbit_high (nth k a 0) 8) by auto.
      destruct (N.eqb_spec (i mod 8) j); auto. lia.
    - rewrite N.clearbit_eqb, (testbit_high (nth k a 0) 8) by auto. reflexivity. }
  assert (Hbs : bytes (set_nth a k ((if s then N.setbit else N.clearbit) (nth k a 0) (i mod 8))))
    by (apply Forall_set_nth; auto).
  split; [exact Hbs|]. split; [|split].
  - apply N.bits_inj. intros j. rewrite testbit_val by exact Hbs.
    rewrite nth_set_nth by lia.
    destruct (Nat.eqb_spec k (N.to_nat (j / 8))) as [Ek|Ek].
    + assert (j / 8 = i / 8) as Ej by lia.
      destruct s.
      * rewrite !N.setbit_eqb, testbit_val by auto.
        rewrite Ej. fold k. f_equal.
        destruct (N.eqb_spec (i mod 8) (j mod 8)), (N.eqb_spec i j); auto; lia.
      * rewrite !N.clearbit_eqb, testbit_val by auto.
        rewrite Ej. fold k. f_equal. f_equal.
        destruct (N.eqb_spec (i mod 8) (j mod 8)), (N.eqb_spec i j); auto; lia.
    + destruct s.
      * rewrite !N.setbit_eqb, testbit_val by auto.
        destruct (N.eqb_spec i j); auto. subst; easy.
      * rewrite !N.clearbit_eqb, testbit_val by auto.
        destruct (N.eqb_spec i j); [subst; easy|]. cbn. now rewrite andb_true_r.
  - intros j Hj. apply nth_set_nth_neq; auto.
  - apply nth_set_nth_eq; auto.
Qed.

Lemma update_panic a i s : N.of_nat (length a) <= i / 8 -> update a i s = Panic PExplicit.
Proof.
  intros Hi. unfold update, ix. destruct a as [|x l]; auto.
  destruct (Nat.leb_spec (length (x :: l)) (N.to_nat (i / 8))); [auto|lia].
Qed.

(** Clearing a range of bits that reaches the top leaves the low bits. *)
Lemma clear_loop a lo hi : bytes a -> (hi <= 8 * length a)%nat ->
  from_le a < 2 ^ N.of_nat hi ->
  exists a', forM (range lo hi) (fun i s => update s (N.of_nat i) false) a = Ok a' /\
    length a' = length a /\ bytes a' /\ from_le a' = from_le a mod 2 ^ N.of_nat lo.
Proof.
  intros Ha Hh Hv. destruct (le_lt_dec lo hi) as [L|L].
  2:{ rewrite range_nil by lia. exists a. repeat split; auto.
      symmetry. apply N.mod_small. eapply N.lt_le_trans; [exact Hv|].
      apply N.pow_le_mono_r; lia. }
  destruct (forM_range_inv (fun i s => length s = length a /\ bytes s /\
      forall j, N.testbit (from_le s) j =
        (N.testbit (from_le a) j && negb ((N.of_nat lo <=? j) && (j <? N.of_nat i)))%bool)
      (fun i s => update s (N.of_nat i) false) lo hi a) as (a' & E & E1 & E2 & E3).
  - exact L.
  - repeat split; auto. intros j.
    destruct (N.leb_spec (N.of_nat lo) j), (N.ltb_spec j (N.of_nat lo)); cbn; try lia;
      now rewrite andb_true_r.
  - intros i s Hi (I1 & I2 & I3).
    destruct (update_ok s (N.of_nat i) false I2) as (s' & U & U1 & U2 & U3 & _).
    { rewrite I1. lia. }
    exists s'. split; [exact U|]. split; [congruence|]. split; [exact U2|].
    intros j. rewrite U3, N.clearbit_eqb, I3.
    destruct (N.eqb_spec (N.of_nat i) j), (N.leb_spec (N.of_nat lo) j),
      (N.ltb_spec j (N.of_nat i)), (N.ltb_spec j (N.of_nat (S i)));
      cbn; try lia; destruct (N.testbit (from_le a) j); auto.
  - exists a'. split; [exact E|]. split; [exact E1|]. split; [exact E2|].
    apply N.bits_inj. intros j. rewrite E3.
    destruct (N.lt_ge_cases j (N.of_nat lo)).
    + rewrite N.mod_pow2_bits_low by auto.
      destruct (N.leb_spec (N.of_nat lo) j); [lia|]. cbn. apply andb_true_r.
    + rewrite N.mod_pow2_bits_high by auto.
      destruct (N.leb_spec (N.of_nat lo) j); [|lia].
      destruct (N.ltb_spec j (N.of_nat hi)); cbn; [apply andb_false_r|].
      rewrite andb_true_r. eapply testbit_high; eauto.
Qed.
