(** * Proofs: the work of a modular exponentiation *)
From Coq Require Import ZifyBool ZifyNat ZifyN.
From Verif Require Import Base BaseLemmas ModelBig ModelRsa ModelWork SpecBig SpecRsa
  ProofBig ProofBig2 ProofBig3 ProofRsa ProofCost.
Local Open Scope N_scope.
Ltac Zify.zify_post_hook ::= idtac.

(** ** Erasure *)
Lemma rem_erase {P : profile} capf a m : rem_assign capf a m = let* (r, _) := rem_assign_sized capf a m in Ok r.
Proof.
  unfold rem_assign, rem_assign_sized. destruct (bits_used m) as [rb|e]; cbn [bind]; [|reflexivity].
  destruct (bits_used a) as [ab|e]; cbn [bind]; [|reflexivity].
  destruct (ab <? rb); [reflexivity|]. destruct (csub 32 ab rb) as [d|e]; cbn [bind]; [|reflexivity]. cbv zeta.
  match goal with |- context [forM _ ?g (a, shl_assign m d, [shl_size m d])] =>
    pose proof (forM_project (rev (range 0 (ix d + 1))) (fun (_ : nat) '(a, m) =>
        let* le := big_le m a in
        let* a := if le then sub_assign capf a m else Ok a in
        let* m := shr_assign m 1 in
        Ok (a, m)) g fst (a, shl_assign m d, [shl_size m d])) as H end.
  cbn [fst] in H. rewrite H; clear H.
  - destruct (forM _ _ _) as [[[x y] t]|e]; reflexivity.
  - intros i [[x y] t] _. cbn [fst]. destruct (big_le y x) as [le|e]; cbn [bind]; [|reflexivity]. destruct le.
    + destruct (sub_assign capf x y) as [x1|e]; cbn [bind]; [|reflexivity].
      destruct (shr_assign y 1) as [y1|e]; reflexivity.
    + cbn [bind]. destruct (shr_assign y 1) as [y1|e]; reflexivity.
Qed.

Lemma mul_loop_erase {P : profile} fuel capf : forall r a b m,
  mul_mod_loop fuel capf r a b m = let* (r, _) := mul_mod_loop_sized fuel capf r a b m in Ok r.
Proof.
  induction fuel as [|fuel IH]; intros r a b m; cbn [mul_mod_loop mul_mod_loop_sized];
    (destruct (bits_used b) as [n|e]; cbn [bind]; [|reflexivity]); (destruct (n =? 0); [reflexivity|]);
    [reflexivity|].
  destruct (is_set b 0) as [s|e]; cbn [bind]; [|reflexivity].
  destruct s.
  - destruct (add_assign r a) as [r1|e]; cbn [bind]; [|reflexivity].
    rewrite rem_erase. destruct (rem_assign_sized capf r1 m) as [[r2 t1]|e]; cbn [bind]; [|reflexivity].
    rewrite rem_erase. destruct (rem_assign_sized capf (shl_assign a 1) m) as [[a1 t2]|e]; cbn [bind]; [|reflexivity].
    destruct (shr_assign b 1) as [b1|e]; cbn [bind]; [|reflexivity].
    rewrite IH. destruct (mul_mod_loop_sized fuel capf r2 a1 b1 m) as [[r3 t]|e]; reflexivity.
  - cbn [bind].
    rewrite rem_erase. destruct (rem_assign_sized capf (shl_assign a 1) m) as [[a1 t2]|e]; cbn [bind]; [|reflexivity].
    destruct (shr_assign b 1) as [b1|e]; cbn [bind]; [|reflexivity].
    rewrite IH. destruct (mul_mod_loop_sized fuel capf r a1 b1 m) as [[r3 t]|e]; reflexivity.
Qed.

Lemma mul_erase {P : profile} capf a b m : mul_mod capf a b m = let* (r, _) := mul_mod_sized capf a b m in Ok r.
Proof.
  unfold mul_mod, mul_mod_sized. destruct (big_from_u128 0) as [r|e]; cbn [bind]; [|reflexivity].
  apply mul_loop_erase.
Qed.

Lemma pow_erase {P : profile} capf a p m : pow_mod capf a p m = let* (r, _) := pow_mod_sized capf a p m in Ok r.
Proof.
  unfold pow_mod, pow_mod_sized. destruct (big_from_u128 1) as [r|e]; cbn [bind]; [|reflexivity].
  destruct (bits_used p) as [n|e]; cbn [bind]; [|reflexivity].
  match goal with |- context [forM _ ?g (a, r, [])] =>
    pose proof (forM_project (range 0 (ix n)) (fun i '(a, r) =>
      let* s := is_set p (N.of_nat i) in
      let* r := if s then mul_mod capf r a m else Ok r in
      let* a := mul_mod capf a a m in
      Ok (a, r)) g fst (a, r, [])) as H end.
  cbn [fst] in H. rewrite H; clear H.
  - destruct (forM _ _ _) as [[[x y] t]|e]; reflexivity.
  - intros i [[x y] t] _. cbn [fst].
    destruct (is_set p (N.of_nat i)) as [s|e]; cbn [bind]; [|reflexivity]. destruct s.
    + rewrite mul_erase. destruct (mul_mod_sized capf y x m) as [[y1 t1]|e]; cbn [bind]; [|reflexivity].
      rewrite mul_erase. destruct (mul_mod_sized capf x x m) as [[x1 t2]|e]; reflexivity.
    + cbn [bind]. rewrite mul_erase. destruct (mul_mod_sized capf x x m) as [[x1 t2]|e]; reflexivity.
Qed.

(** ** Bounds *)

(** All entries of [t] are at most [w], and there are at most [k] of them. *)
Definition within (w k : nat) (t : list nat) : Prop := (length t <= k)%nat /\ Forall (fun x => (x <= w)%nat) t.

Lemma within_app w k k' t t' : within w k t -> within w k' t' -> within w (k + k') (t ++ t').
Proof. intros [L F] [L' F']. split; [rewrite app_length; lia|]. now apply Forall_app. Qed.
Lemma within_one w x : (x <= w)%nat -> within w 1 [x].
Proof. intros H. split; [apply le_n|]. repeat constructor. exact H. Qed.
Lemma within_nil w : within w 0 [].
Proof. split; [apply le_n|constructor]. Qed.
Lemma within_more w k k' t : within w k t -> (k <= k')%nat -> within w k' t.
Proof. intros [L F] H. split; [lia|exact F]. Qed.
Lemma within_cons w k x t : (x <= w)%nat -> within w k t -> within w (S k) (x :: t).
Proof. intros H [L F]. split; [cbn [length]; lia|now constructor]. Qed.

Section Bounds.
  (** Vectors get at most [c] bytes more than asked for; values have at most [w] bytes. *)
  Context (capf : nat -> nat) (c w : nat).
  Context (Hal : allocates capf (w + 1)) (Hc : forall k, (k <= w + 1)%nat -> (capf k <= k + c)%nat).

  Lemma short_countable a : (length a <= w)%nat -> countable a.
  Proof using Hal. intros L. apply (allocates_countable capf (w + 1)); [exact Hal|clear - L; lia]. Qed.

  Lemma rem_step a m t k : canonical a -> canonical m -> (length a <= w)%nat -> (length m <= w)%nat ->
    within (w + 2 + c) k t ->
    exists a' m' t',
      (let* le := big_le m a in
       let t := t ++ [cmp_size m a] in
       let* (a, t) := if le then let* r := sub_assign capf a m in Ok (r, t ++ [sub_size capf a]) else Ok (a, t) in
       let* m' := shr_assign m 1 in
       Ok (a, m', t ++ [shr_size m])) = Ok (a', m', t') /\
      canonical a' /\ canonical m' /\ (length a' <= w)%nat /\ (length m' <= w)%nat /\ within (w + 2 + c) (k + 3) t'.
  Proof using Hal Hc.
    intros Ca Cm La Lm W. assert (Na : countable a) by now apply short_countable.
    assert (Nm : countable m) by now apply short_countable.
    rewrite le_ok by assumption. cbn [bind]. cbv zeta.
    destruct (shr_spec m 1 Cm) as (m' & Em & Cm' & Vm); [change (1 / 8) with 0; lia|].
    assert (Lm' : (length m' <= w)%nat).
    { apply Nat.le_trans with (length m); [|exact Lm]. apply canonical_length_mono; [exact Cm'|apply Cm|].
      change from_le with num. rewrite Vm. apply N.div_le_upper_bound; [discriminate|]. change (2 ^ 1) with 2. lia. }
    assert (W1 : within (w + 2 + c) (k + 1) (t ++ [cmp_size m a])).
    { apply within_app; [exact W|]. apply within_one. unfold cmp_size. lia. }
    destruct (N.leb_spec (from_le m) (from_le a)) as [L|L].
    - destruct (sub_spec capf a m Ca Cm) as (r & Es & _ & Cr & Vr).
      { intros j Hj. apply Hal. lia. }
      { exact L. }
      rewrite Es. cbn [bind]. rewrite Em. cbn [bind]. eexists. eexists. eexists. split; [reflexivity|].
      split; [exact Cr|]. split; [exact Cm'|]. split.
      { apply Nat.le_trans with (length a); [|exact La]. apply canonical_length_mono; [exact Cr|apply Ca|].
        change from_le with num. rewrite Vr. lia. }
      split; [exact Lm'|]. replace (k + 3)%nat with (k + 1 + 1 + 1)%nat by lia.
      apply within_app; [apply within_app; [exact W1|]|]; apply within_one.
      + unfold sub_size. specialize (Hc (length a + 1)%nat). lia.
      + unfold shr_size. lia.
    - cbn [bind]. rewrite Em. cbn [bind]. eexists. eexists. eexists. split; [reflexivity|].
      split; [exact Ca|]. split; [exact Cm'|]. split; [exact La|]. split; [exact Lm'|].
      apply within_more with (k + 1 + 1)%nat; [|lia]. apply within_app; [exact W1|]. apply within_one. unfold shr_size. lia.
  Qed.

  Lemma rem_loop (l : list nat) : forall a m t k, canonical a -> canonical m -> (length a <= w)%nat -> (length m <= w)%nat ->
    within (w + 2 + c) k t ->
    exists a' m' t',
      forM l (fun (_ : nat) '(a, m, t) =>
        let* le := big_le m a in
        let t := t ++ [cmp_size m a] in
        let* (a, t) := if le then let* r := sub_assign capf a m in Ok (r, t ++ [sub_size capf a]) else Ok (a, t) in
        let* m' := shr_assign m 1 in
        Ok (a, m', t ++ [shr_size m])) (a, m, t) = Ok (a', m', t') /\ within (w + 2 + c) (k + 3 * length l) t'.
  Proof using Hal Hc.
    induction l as [|i l IH]; intros a m t k Ca Cm La Lm W; cbn [length].
    - eexists. eexists. eexists. split; [reflexivity|]. apply within_more with k; [exact W|lia].
    - match goal with |- context [forM (i :: l) ?f ?x] => change (forM (i :: l) f x) with (bind (f i x) (forM l f)) end.
      destruct (rem_step a m t k Ca Cm La Lm W) as (a' & m' & t' & E & Ca' & Cm' & La' & Lm' & W').
      match goal with |- context [bind ?u _] => replace u with (Ok (a', m', t')) by (symmetry; exact E) end.
      cbn [bind]. destruct (IH a' m' t' (k + 3)%nat Ca' Cm' La' Lm' W') as (a2 & m2 & t2 & E2 & W2).
      exists a2, m2, t2. split; [exact E2|]. apply within_more with (k + 3 + 3 * length l)%nat; [exact W2|lia].
  Qed.

  Context (m : list N) (s : N).
  Context (Cm : canonical m) (Pm : 1 < num m) (Hw : (length m + N.to_nat (s / 8) + 1 <= w)%nat).

  Lemma value_length v : canonical v -> num v < num m * 2 ^ (s + 1) -> (length v <= w)%nat.
  Proof using Cm Hw.
    intros Cv Lv. apply Nat.le_trans with (length m + N.to_nat (s / 8) + 1)%nat; [|exact Hw].
    apply canonical_length_lt; [exact Cv|]. change from_le with num. eapply N.lt_le_trans; [exact Lv|].
    pose proof (from_le_lt m (canonical_bytes _ Cm)) as Lm. change from_le with num in Lm.
    apply N.le_trans with (256 ^ N.of_nat (length m) * 2 ^ (s + 1)).
    - apply N.mul_le_mono_r. apply N.lt_le_incl. exact Lm.
    - change 256 with (2 ^ 8). rewrite <- !N.pow_mul_r, <- N.pow_add_r. apply N.pow_le_mono_r; [discriminate|].
      pose proof (N.div_mod s 8 ltac:(discriminate)) as D. pose proof (N.mod_lt s 8 ltac:(discriminate)) as M.
      remember (s / 8) as x. remember (s mod 8) as y. clear - D M. lia.
  Qed.

  Lemma rem_bound a : canonical a -> num a < num m * 2 ^ (s + 1) ->
    exists r t, rem_assign_sized capf a m = Ok (r, t) /\ canonical r /\ num r = num a mod num m /\
      within (w + 2 + c) (3 * N.to_nat s + 7) t.
  Proof using Hal Hc Cm Pm Hw.
    intros Ca La. pose proof (value_length a Ca La) as Wa.
    assert (Wm : (length m <= w)%nat) by lia.
    assert (X : exists r t, rem_assign_sized capf a m = Ok (r, t) /\ within (w + 2 + c) (3 * N.to_nat s + 7) t).
    { unfold rem_assign_sized. rewrite !bits_used_spec by (assumption || now apply short_countable). cbn [bind].
      destruct (N.ltb_spec (bit_length (num a)) (bit_length (num m))) as [L|L].
      - eexists. eexists. split; [reflexivity|]. apply within_more with 0%nat; [apply within_nil|lia].
      - unfold csub.
        replace (bit_length (num m) <=? bit_length (num a)) with true by (symmetry; apply N.leb_le; exact L). cbn [bind].
        set (d := bit_length (num a) - bit_length (num m)).
        assert (Hd : d <= s + 1).
        { assert (B : bit_length (num a) <= bit_length (num m) + (s + 1)); [|subst d; lia].
          apply bit_length_spec. rewrite N.pow_add_r.
          assert (Lm : num m < 2 ^ bit_length (num m)) by (apply bit_length_spec; lia).
          eapply N.lt_le_trans; [exact La|]. apply N.mul_le_mono_r. lia. }
        destruct (shl_spec m d Cm ltac:(lia)) as [Cs Vs].
        assert (Ls : (length (shl_assign m d) <= w)%nat).
        { apply Nat.le_trans with (length a); [|exact Wa]. apply canonical_length_lt; [exact Cs|]. change from_le with num.
          rewrite Vs. apply N.lt_le_trans with (2 ^ bit_length (num a)).
          - assert (Lm : num m < 2 ^ bit_length (num m)) by (apply bit_length_spec; lia).
            replace (bit_length (num a)) with (bit_length (num m) + d) by (subst d; lia). rewrite N.pow_add_r.
            apply N.mul_lt_mono_pos_r; [|exact Lm]. apply N.neq_0_lt_0. apply N.pow_nonzero. discriminate.
          - change 256 with (2 ^ 8). rewrite <- N.pow_mul_r. apply N.pow_le_mono_r; [discriminate|].
            rewrite bit_length_size. apply size_length. apply Ca. }
        destruct (rem_loop (rev (range 0 (ix d + 1))) a (shl_assign m d) [shl_size m d] 1 Ca Cs Wa Ls) as (a' & m' & t' & E & W).
        { apply within_one. unfold shl_size, ix.
          assert (D : d / 8 <= s / 8 + 1).
          { apply N.div_le_upper_bound; [discriminate|].
            pose proof (N.div_mod s 8 ltac:(discriminate)) as D. pose proof (N.mod_lt s 8 ltac:(discriminate)) as M.
            remember (s / 8) as x. remember (s mod 8) as y. clear Heqx Heqy. lia. }
          remember (d / 8) as x. remember (s / 8) as y. clear - D Hw. lia. }
        match goal with |- context [bind ?u _] => replace u with (Ok (a', m', t')) by (symmetry; exact E) end.
        cbn [bind]. eexists. eexists. split; [reflexivity|].
        apply within_more with (1 + 3 * length (rev (range 0 (ix d + 1))))%nat; [exact W|].
        rewrite rev_length. unfold range. rewrite seq_length. unfold ix. lia. }
    destruct X as (r & t & E & W). exists r, t. split; [exact E|].
    destruct (rem_spec capf a m Ca Cm ltac:(lia)) as (r' & E' & C' & V').
    { intros j Hj. apply Hal. lia. }
    { now apply short_countable. }
    rewrite rem_erase, E in E'. cbn [bind] in E'. apply Ok_inj in E'. subst r'. auto.
  Qed.

  Lemma mod_value x : x mod num m < num m * 2 ^ s.
  Proof using Pm.
    apply N.lt_le_trans with (num m); [apply N.mod_lt; clear - Pm; lia|]. rewrite <- (N.mul_1_r (num m)) at 1.
    apply N.mul_le_mono_l. pose proof (N.pow_nonzero 2 s ltac:(discriminate)) as X. clear - X. lia.
  Qed.

  Lemma small_double x : x < num m * 2 ^ s -> x * 2 < num m * 2 ^ (s + 1).
  Proof using. intros H. rewrite N.pow_add_r. change (2 ^ 1) with 2. clear - H. lia. Qed.

  Lemma small_length v : canonical v -> num v < num m * 2 ^ s -> (length v <= w)%nat.
  Proof using Cm Hw.
    intros Cv V. apply value_length; [exact Cv|]. pose proof (small_double _ V) as D. clear - D. lia.
  Qed.
  Lemma small_countable v : canonical v -> num v < num m * 2 ^ s -> countable v.
  Proof using Hal Cm Hw. intros Cv V. apply short_countable. now apply small_length. Qed.

  Lemma mul_loop_bound fuel : forall r a b, canonical r -> canonical a -> canonical b ->
    num r < num m * 2 ^ s -> num a < num m * 2 ^ s -> num b < num m * 2 ^ s ->
    N.size (num b) <= N.of_nat fuel ->
    exists r' t, mul_mod_loop_sized fuel capf r a b m = Ok (r', t) /\ canonical r' /\ num r' < num m * 2 ^ s /\
      within (w + 2 + c) (N.to_nat (N.size (num b)) * (6 * N.to_nat s + 17)) t.
  Proof using Hal Hc Cm Pm Hw.
    induction fuel as [|fuel IH]; intros r a b Cr Ca Cb Vr Va Vb Hf; cbn [mul_mod_loop_sized].
    - rewrite bits_used_ok by (assumption || now apply small_countable). cbn [bind]. change from_le with num.
      assert (Z0 : N.size (num b) = 0) by (clear - Hf; lia). rewrite Z0. cbn [N.eqb].
      exists r, []. split; [reflexivity|]. split; [exact Cr|]. split; [exact Vr|]. apply within_nil.
    - rewrite bits_used_ok by (assumption || now apply small_countable). cbn [bind]. change from_le with num.
      destruct (N.eqb_spec (N.size (num b)) 0) as [Z0|Z0].
      { exists r, []. split; [reflexivity|]. split; [exact Cr|]. split; [exact Vr|]. rewrite Z0. apply within_nil. }
      rewrite is_set_spec by (assumption || now apply small_countable). cbn [bind].
      assert (S1 : exists r1 t1, (if N.testbit (num b) 0
        then let* r' := add_assign r a in let* (r', t) := rem_assign_sized capf r' m in Ok (r', add_size r a :: t)
        else Ok (r, [])) = Ok (r1, t1) /\ canonical r1 /\ num r1 < num m * 2 ^ s /\
        within (w + 2 + c) (3 * N.to_nat s + 8) t1).
      { destruct (N.testbit (num b) 0).
        - destruct (add_spec r a Cr Ca) as (r0 & E0 & C0 & V0). rewrite E0. cbn [bind].
          destruct (rem_bound r0 C0) as (r1 & t1 & E1 & C1 & V1 & W1).
          { rewrite V0. pose proof (small_double _ Vr) as D. pose proof (small_double _ Va) as D'. clear - D D'. lia. }
          rewrite E1. cbn [bind]. exists r1, (add_size r a :: t1). split; [reflexivity|]. split; [exact C1|].
          split; [rewrite V1; apply mod_value|]. replace (3 * N.to_nat s + 8)%nat with (S (3 * N.to_nat s + 7)) by (clear; lia).
          apply within_cons; [|exact W1]. unfold add_size.
          pose proof (small_length r Cr Vr) as X. pose proof (small_length a Ca Va) as Y. clear - X Y. lia.
        - exists r, []. split; [reflexivity|]. split; [exact Cr|]. split; [exact Vr|].
          apply within_more with 0%nat; [apply within_nil|clear; lia]. }
      destruct S1 as (r1 & t1 & E1 & C1 & L1 & W1). rewrite E1. cbn [bind].
      destruct (shl_1_ok a Ca) as [C2 V2]. change from_le with num in V2.
      destruct (rem_bound (shl_assign a 1) C2) as (a1 & t2 & E2 & C3 & V3 & W2).
      { rewrite V2. now apply small_double. }
      rewrite E2. cbn [bind].
      destruct (shr_spec b 1 Cb) as (b1 & E4 & C4 & V4).
      { change (1 / 8) with 0. clear; lia. }
      rewrite E4. cbn [bind]. change (2 ^ 1) with 2 in V4.
      assert (H2 : N.size (num b1) + 1 <= N.size (num b)).
      { assert (X : N.size (num b1) <= N.size (num b) - 1); [|clear - X Z0; lia].
        rewrite V4. apply size_le. apply N.div_lt_upper_bound; [discriminate|].
        change 2 with (2 ^ 1) at 1. rewrite <- N.pow_add_r. apply size_le. clear - Z0; lia. }
      destruct (IH r1 a1 b1 C1 C3 C4 L1) as (r' & t3 & E5 & C5 & V5 & W5).
      { rewrite V3. apply mod_value. }
      { rewrite V4. apply N.le_lt_trans with (num b); [|exact Vb]. apply N.div_le_upper_bound; [discriminate|].
        clear; lia. }
      { clear - H2 Hf. lia. }
      rewrite E5. cbn [bind]. eexists. eexists. split; [reflexivity|]. split; [exact C5|]. split; [exact V5|].
      apply within_more with (3 * N.to_nat s + 8 + (S (3 * N.to_nat s + 7) + (1 + N.to_nat (N.size (num b1)) * (6 * N.to_nat s + 17))))%nat.
      + apply within_app; [exact W1|]. apply within_app.
        { apply within_cons; [|exact W2]. unfold shl_size, ix. change (1 / 8) with 0. change (N.to_nat 0) with 0%nat.
          pose proof (small_length a Ca Va) as Y. clear - Y. lia. }
        apply within_app; [|exact W5]. apply within_one. unfold shr_size.
        pose proof (small_length b Cb Vb) as Y. clear - Y. lia.
      + apply Nat.le_trans with ((1 + N.to_nat (N.size (num b1))) * (6 * N.to_nat s + 17))%nat; [clear; nia|].
        apply Nat.mul_le_mono_r. clear - H2. lia.
  Qed.

  Lemma mul_bound a b : canonical a -> canonical b -> num a < num m * 2 ^ s -> num b < num m * 2 ^ s ->
    exists r t, mul_mod_sized capf a b m = Ok (r, t) /\ canonical r /\ num r < num m * 2 ^ s /\
      within (w + 2 + c) ((N.to_nat (N.size (num m)) + N.to_nat s) * (6 * N.to_nat s + 17)) t.
  Proof using Hal Hc Cm Pm Hw.
    intros Ca Cb Va Vb. unfold mul_mod_sized. change (big_from_u128 0) with (@Ok (list N) []). cbn [bind].
    destruct (mul_loop_bound (8 * length b) [] a b canonical_nil Ca Cb) as (r & t & E & C & V & W).
    { change (num []) with 0. apply N.le_lt_trans with (num a); [apply N.le_0_l|exact Va]. }
    { exact Va. }
    { exact Vb. }
    { pose proof (size_length b (canonical_bytes _ Cb)) as X. change from_le with num in X. clear - X. lia. }
    exists r, t. split; [exact E|]. split; [exact C|]. split; [exact V|].
    apply within_more with (1 := W). apply Nat.mul_le_mono_r.
    assert (X : N.size (num b) <= N.size (num m) + s); [|clear - X; lia].
    apply size_le. rewrite N.pow_add_r. eapply N.lt_le_trans; [exact Vb|]. apply N.mul_le_mono_r.
    apply N.lt_le_incl, lt_size.
  Qed.

  Lemma pow_loop_bound p (l : list nat) : canonical p -> countable p -> forall a r t k, canonical a -> canonical r ->
    num a < num m * 2 ^ s -> num r < num m * 2 ^ s -> within (w + 2 + c) k t ->
    exists a' r' t', forM l (fun i '(a, r, t) =>
      let* s := is_set p (N.of_nat i) in
      let* (r, t) := if s then let* (r, t') := mul_mod_sized capf r a m in Ok (r, t ++ t') else Ok (r, t) in
      let* (a, t') := mul_mod_sized capf a a m in
      Ok (a, r, t ++ t')) (a, r, t) = Ok (a', r', t') /\
      within (w + 2 + c) (k + length l * (2 * ((N.to_nat (N.size (num m)) + N.to_nat s) * (6 * N.to_nat s + 17)))) t'.
  Proof using Hal Hc Cm Pm Hw.
    intros Cp Np. set (j := ((N.to_nat (N.size (num m)) + N.to_nat s) * (6 * N.to_nat s + 17))%nat) in *.
    induction l as [|i l IH]; intros a r t k Ca Cr Va Vr W; cbn [length].
    - eexists. eexists. eexists. split; [reflexivity|]. apply within_more with k; [exact W|clear; lia].
    - match goal with |- context [forM (i :: l) ?f ?x] => change (forM (i :: l) f x) with (bind (f i x) (forM l f)) end.
      cbv beta iota. rewrite is_set_spec by assumption. cbn [bind].
      assert (S1 : exists r1 t1, (if N.testbit (num p) (N.of_nat i)
          then let* (r, t') := mul_mod_sized capf r a m in Ok (r, t ++ t') else Ok (r, t)) = Ok (r1, t1) /\
          canonical r1 /\ num r1 < num m * 2 ^ s /\ within (w + 2 + c) (k + j) t1).
      { destruct (N.testbit (num p) (N.of_nat i)).
        - destruct (mul_bound r a Cr Ca Vr Va) as (r1 & t1 & E1 & C1 & V1 & W1). rewrite E1. cbn [bind].
          exists r1, (t ++ t1). split; [reflexivity|]. split; [exact C1|]. split; [exact V1|]. now apply within_app.
        - exists r, t. split; [reflexivity|]. split; [exact Cr|]. split; [exact Vr|].
          apply within_more with k; [exact W|clear; lia]. }
      destruct S1 as (r1 & t1 & E1 & C1 & V1 & W1). rewrite E1. cbn [bind].
      destruct (mul_bound a a Ca Ca Va Va) as (a1 & t2 & E2 & C2 & V2 & W2). rewrite E2. cbn [bind].
      destruct (IH a1 r1 (t1 ++ t2) (k + j + j)%nat C2 C1 V2 V1) as (a3 & r3 & t3 & E3 & W3).
      { apply within_app; [exact W1|exact W2]. }
      exists a3, r3, t3. split; [exact E3|]. apply within_more with (1 := W3). clear; lia.
  Qed.

  Lemma pow_bound a p : canonical a -> canonical p -> countable p -> num a < num m * 2 ^ s ->
    exists r t, pow_mod_sized capf a p m = Ok (r, t) /\
      within (w + 2 + c) (2 * N.to_nat (N.size (num p)) * ((N.to_nat (N.size (num m)) + N.to_nat s) * (6 * N.to_nat s + 17))) t.
  Proof using Hal Hc Cm Pm Hw.
    intros Ca Cp Np Va. unfold pow_mod_sized. change (big_from_u128 1) with (@Ok (list N) [1]). cbn [bind].
    rewrite bits_used_ok by assumption. cbn [bind]. change from_le with num.
    destruct (pow_loop_bound p (range 0 (ix (N.size (num p)))) Cp Np a [1] [] 0%nat Ca) as (a' & r' & t' & E & W).
    { split; [repeat constructor; reflexivity|discriminate]. }
    { exact Va. }
    { change (num [1]) with 1. apply N.lt_le_trans with (num m); [exact Pm|]. rewrite <- (N.mul_1_r (num m)) at 1.
      apply N.mul_le_mono_l. pose proof (N.pow_nonzero 2 s ltac:(discriminate)) as X. clear - X. lia. }
    { apply within_nil. }
    match goal with |- context [bind ?u _] => replace u with (Ok (a', r', t')) by (symmetry; exact E) end.
    cbn [bind]. exists r', t'. split; [reflexivity|]. apply within_more with (1 := W).
    unfold range. rewrite seq_length. unfold ix. clear; lia.
  Qed.
End Bounds.

Lemma pow_work capf c a p m s : canonical a -> canonical p -> canonical m -> 1 < num m -> countable p ->
  num a < num m * 2 ^ s -> let w := (length m + N.to_nat (s / 8) + 1)%nat in
  allocates capf (w + 1) -> (forall k, (k <= w + 1)%nat -> (capf k <= k + c)%nat) ->
  exists r t, pow_mod_sized capf a p m = Ok (r, t) /\ Forall (fun x => (x <= w + 2 + c)%nat) t /\
    N.of_nat (length t) <= 2 * bit_length (num p) * (bit_length (num m) + s) * (6 * s + 17).
Proof.
  intros Ca Cp Cm Pm Np Va w Hal Hc.
  destruct (pow_bound capf c w Hal Hc m s Cm Pm (le_n _) a p Ca Cp Np Va) as (r & t & E & L & F).
  exists r, t. split; [exact E|]. split; [exact F|]. rewrite !bit_length_size. clear - L. nia.
Qed.

Lemma pow_work_total capf c a p m s r t : canonical a -> canonical p -> canonical m -> 1 < num m -> countable p ->
  num a < num m * 2 ^ s -> let w := (length m + N.to_nat (s / 8) + 1)%nat in
  allocates capf (w + 1) -> (forall k, (k <= w + 1)%nat -> (capf k <= k + c)%nat) ->
  pow_mod_sized capf a p m = Ok (r, t) ->
  N.of_nat (list_sum t) <=
    2 * bit_length (num p) * (bit_length (num m) + s) * (6 * s + 17) * (N.of_nat (length m) + s / 8 + 3 + N.of_nat c).
Proof.
  intros Ca Cp Cm Pm Np Va w Hal Hc E.
  destruct (pow_work capf c a p m s Ca Cp Cm Pm Np Va Hal Hc) as (r' & t' & E' & F & L).
  rewrite E in E'. apply Ok_inj in E'. injection E' as <- <-.
  assert (S0 : (list_sum t <= length t * (w + 2 + c))%nat).
  { clear - F. induction F as [|x t H F IH]; [apply le_n|]. change (list_sum (x :: t)) with (x + list_sum t)%nat.
    cbn [length]. lia. }
  apply N.le_trans with (N.of_nat (length t) * (N.of_nat (length m) + s / 8 + 3 + N.of_nat c)).
  - subst w. remember (s / 8) as y. clear - S0. nia.
  - apply N.mul_le_mono_r. exact L.
Qed.

Lemma message_work capf c key msg : canonical (rsa_exponent key) -> canonical (rsa_modulo key) -> canonical msg ->
  1 < num (rsa_modulo key) -> countable (rsa_exponent key) -> num msg < num (rsa_modulo key) ->
  let k := length (rsa_modulo key) in
  allocates capf (k + 2) -> (forall j, (j <= k + 2)%nat -> (capf j <= j + c)%nat) ->
  exists r t, pow_mod_sized capf msg (rsa_exponent key) (rsa_modulo key) = Ok (r, t) /\
    rsa_encrypt capf key msg = Ok r /\ rsa_decrypt capf key msg = Ok r /\
    Forall (fun x => (x <= k + 3 + c)%nat) t /\
    N.of_nat (length t) <= 34 * bit_length (num (rsa_exponent key)) * bit_length (num (rsa_modulo key)).
Proof.
  intros Ce Cn Cm Pm Ne Vm k Hal Hc.
  destruct (pow_work capf c msg (rsa_exponent key) (rsa_modulo key) 0) as (r & t & E & F & L); try assumption.
  { rewrite N.pow_0_r, N.mul_1_r. exact Vm. }
  { change (0 / 8) with 0. change (N.to_nat 0) with 0%nat. fold k. replace (k + 0 + 1 + 1)%nat with (k + 2)%nat by lia. exact Hal. }
  { intros j Hj. apply Hc. change (0 / 8) with 0 in Hj. change (N.to_nat 0) with 0%nat in Hj. fold k in Hj. clear - Hj. lia. }
  exists r, t. split; [exact E|].
  assert (X : pow_mod capf msg (rsa_exponent key) (rsa_modulo key) = Ok r) by now rewrite pow_erase, E.
  split; [exact X|]. split; [exact X|]. split.
  - revert F. apply Forall_impl. intros x. change (0 / 8) with 0. change (N.to_nat 0) with 0%nat. fold k. clear. lia.
  - rewrite N.add_0_r in L. change (6 * 0 + 17) with 17 in L. clear - L. nia.
Qed.
