(** * Proofs about BigUint, part 3: statements in terms of [num], and what stays canonical *)
From Verif Require Import Base BaseLemmas ModelBig SpecEndian ProofEndian SpecBig ProofBig ProofBig2.
From Coq Require Import ZifyBool ZifyNat ZifyN.
Ltac Zify.zify_post_hook ::= Z.div_mod_to_equations.
Local Open Scope N_scope.
Local Open Scope list_scope.

Lemma from_be_spec l : bytes l ->
  exists a, big_from_be_bytes l = Ok a /\ canonical a /\ num a = be_num l.
Proof.
  intros H. rewrite from_be_bytes_ok. eexists. split; [reflexivity|].
  split; [apply trim_canonical; now apply Forall_rev|].
  change num with from_le; rewrite trim_val. apply from_be_be_num.
Qed.

Lemma from_le_spec l : bytes l ->
  canonical (big_from_le_bytes l) /\ num (big_from_le_bytes l) = le_num l.
Proof.
  intros H. unfold big_from_le_bytes. split; [now apply trim_canonical|].
  change num with from_le; rewrite trim_val. apply from_le_le_num.
Qed.

Lemma from_u128_spec v : v < 2 ^ 128 ->
  exists a, big_from_u128 v = Ok a /\ canonical a /\ num a = v.
Proof.
  intros H. destruct (from_u128_ok v H) as (a & E & C & V). exists a. change num with from_le; auto.
Qed.

Lemma to_be_spec a : canonical a ->
  be_num (big_to_be_bytes a) = num a /\ (a <> [] -> hd 0 (big_to_be_bytes a) <> 0) /\
  Forall (fun b => b < 256) (big_to_be_bytes a).
Proof.
  intros H. unfold big_to_be_bytes. split; [|split].
  - rewrite <- from_be_be_num. unfold from_be. rewrite rev_involutive. symmetry. apply num_from_le.
  - intros Hn. destruct (canonical_cases _ H) as [->|(l & b & -> & _ & _ & Hz)]; [easy|].
    rewrite rev_app_distr. exact Hz.
  - apply Forall_rev. apply H.
Qed.

Lemma num_inj a b : canonical a -> canonical b -> (num a = num b <-> a = b).
Proof.
  intros Ha Hb. change num with from_le. split; [now apply canonical_unique|congruence].
Qed.

Lemma from_be_to_be_spec a : canonical a -> big_from_be_bytes (big_to_be_bytes a) = Ok a.
Proof.
  intros H. rewrite from_be_bytes_ok. unfold big_to_be_bytes. rewrite rev_involutive.
  now rewrite trim_id.
Qed.

Lemma to_be_from_be_spec l : bytes l -> hd 1 l <> 0 ->
  exists a, big_from_be_bytes l = Ok a /\ big_to_be_bytes a = l.
Proof.
  intros H Hh. rewrite from_be_bytes_ok. eexists. split; [reflexivity|].
  unfold big_to_be_bytes. rewrite trim_id; [apply rev_involutive|].
  destruct l as [|b l]; [apply canonical_nil|]. cbn [rev]. apply canonical_snoc.
  inversion H; subst. cbn [hd] in Hh. repeat split; auto. now apply Forall_rev.
Qed.

Lemma strip_zeros_spec k l : bytes l -> hd 1 l <> 0 ->
  exists a, big_from_be_bytes (repeat 0 k ++ l) = Ok a /\ big_to_be_bytes a = l.
Proof.
  intros H Hh. rewrite from_be_bytes_ok. eexists. split; [reflexivity|].
  rewrite rev_app_distr. unfold big_to_be_bytes.
  assert (R : rev (repeat 0 k) = repeat 0 k).
  { clear. induction k; auto. cbn [repeat rev]. rewrite IHk. symmetry. apply (repeat_cons k 0). }
  rewrite R.
  assert (Z : forall k, trim_trailing_zeroes (rev l ++ repeat 0 k) = trim_trailing_zeroes (rev l)).
  { induction k0; [now rewrite app_nil_r|].
    replace (S k0) with (k0 + 1)%nat by lia. rewrite repeat_app, app_assoc. cbn [repeat].
    rewrite trim_snoc. exact IHk0. }
  rewrite Z, trim_id; [apply rev_involutive|].
  destruct l as [|b l]; [apply canonical_nil|]. cbn [rev]. apply canonical_snoc.
  inversion H; subst. cbn [hd] in Hh. repeat split; auto. now apply Forall_rev.
Qed.

Lemma add_spec a b : canonical a -> canonical b ->
  exists r, add_assign a b = Ok r /\ canonical r /\ num r = num a + num b.
Proof.
  intros Ha Hb. destruct (add_ok a b) as (r & E & C & V); auto using canonical_bytes.
  exists r. change num with from_le; auto.
Qed.

Lemma add_u8_spec a c : canonical a -> c < 256 ->
  exists r, add_assign_u8 a c = Ok r /\ canonical r /\ num r = num a + c.
Proof.
  intros Ha Hc. destruct (add_u8_ok a c) as (r & E & C & V); auto using canonical_bytes.
  exists r. change num with from_le; auto.
Qed.

Lemma sub_spec capf a b : canonical a -> canonical b -> allocates capf (length a + 1) ->
  num b <= num a ->
  exists r, sub_assign capf a b = Ok r /\ big_sub capf a b = Ok r /\ canonical r /\
    num r = num a - num b.
Proof.
  intros Ha Hb Hc. change num with from_le. intros L.
  destruct (Hc (length a + 1)%nat ltac:(lia)) as [P1 P2].
  destruct (sub_cap_exact (capf (length a + 1)%nat) a b Ha Hb ltac:(lia) P2 L) as (r & E & C & V).
  exists r. unfold big_sub, sub_assign. change num with from_le. auto.
Qed.

Lemma sub_under_spec capf a b : canonical a -> canonical b -> allocates capf (length a + 1) ->
  num a < num b -> (length b <= capf (length a + 1))%nat ->
  exists r, sub_assign capf a b = Ok r /\ canonical r /\
    Z.of_N (num r) = ((Z.of_N (num a) - Z.of_N (num b)) mod 2 ^ Z.of_N (bit_length (num a)))%Z.
Proof.
  intros Ha Hb Hc. change num with from_le; rewrite bit_length_size. intros L Lb.
  destruct (Hc (length a + 1)%nat ltac:(lia)) as [P1 P2].
  set (cap := capf (length a + 1)%nat) in *.
  destruct (sub_cap_ok cap a b Ha (canonical_bytes _ Hb) ltac:(lia) ltac:(lia) P2) as (r & E & C & V).
  exists r. split; [exact E|]. split; [exact C|]. change num with from_le; rewrite V.
  assert (B : from_le b < 256 ^ N.of_nat cap).
  { eapply N.lt_le_trans; [apply from_le_lt; now apply canonical_bytes|].
    apply N.pow_le_mono_r; lia. }
  rewrite N2Z.inj_mod, N2Z.inj_pow, N2Z.inj_sub, N2Z.inj_add by lia.
  pose proof (size_length a (canonical_bytes _ Ha)) as SZ.
  rewrite pow256_pow2.
  replace (8 * N.of_nat cap) with (8 * N.of_nat cap - N.size (from_le a) + N.size (from_le a)) by lia.
  rewrite N.pow_add_r, N2Z.inj_mul, (N2Z.inj_pow 2 (N.size (from_le a))).
  change (Z.of_N 2) with 2%Z.
  set (K := Z.of_N (2 ^ (8 * N.of_nat cap - N.size (from_le a)))).
  replace (Z.of_N (from_le a) + K * 2 ^ Z.of_N (N.size (from_le a)) - Z.of_N (from_le b))%Z
    with (Z.of_N (from_le a) - Z.of_N (from_le b) + K * 2 ^ Z.of_N (N.size (from_le a)))%Z by lia.
  apply Z_mod_plus_full.
Qed.

Lemma sub_panic_spec capf a b : canonical a -> countable a ->
  (capf (length a + 1) < length b)%nat -> sub_assign capf a b = Panic POverflow.
Proof. intros. now apply sub_cap_panic. Qed.

Lemma cmp_spec a b : canonical a -> canonical b -> countable a -> countable b ->
  big_cmp a b = Ok (num a ?= num b) /\ big_le a b = Ok (num a <=? num b) /\
  big_lt a b = Ok (num a <? num b).
Proof. intros. change num with from_le. auto using cmp_ok, le_ok, lt_ok. Qed.

Lemma cmp_eq_spec a b : canonical a -> canonical b -> countable a -> countable b ->
  (big_cmp a b = Ok Eq <-> a = b).
Proof.
  intros. rewrite cmp_ok by auto. split.
  - intros E. apply Ok_inj in E. apply N.compare_eq_iff in E. now apply canonical_unique.
  - intros <-. now rewrite N.compare_refl.
Qed.

Lemma rem_spec capf a m : canonical a -> canonical m -> num m <> 0 ->
  allocates capf (length a + 1) -> countable m ->
  exists r, rem_assign capf a m = Ok r /\ canonical r /\ num r = num a mod num m.
Proof.
  change num with from_le. intros Ha Hm Hz Hc Cm.
  destruct (rem_ok capf a m Ha Hm) as (r & E & C & V); auto.
  - intros ->. now apply Hz.
  - exists r. change num with from_le; auto.
Qed.

Lemma rem_zero_spec capf a : canonical a -> allocates capf (length a + 1) ->
  (num a < 128 -> rem_assign capf a [] = Ok a) /\
  (128 <= num a -> rem_assign capf a [] = Panic PExplicit).
Proof.
  change num with from_le. intros Ha Hc. split; intros.
  - now apply rem_zero_small.
  - apply rem_zero_panic; auto. destruct (Hc (length a + 1)%nat ltac:(lia)) as [P1 P2].
    unfold capacity_ok in P2. unfold countable. lia.
Qed.

Lemma shl_spec a k : canonical a -> num a <> 0 ->
  canonical (shl_assign a k) /\ num (shl_assign a k) = num a * 2 ^ k.
Proof.
  change num with from_le. intros Ha Hz. apply shl_ok; auto. intros ->. now apply Hz.
Qed.

Lemma shl_zero_spec k : shl_assign [] k = repeat 0 (N.to_nat (k / 8)) /\
  num (shl_assign [] k) = 0.
Proof. change num with from_le; rewrite shl_nil. split; [reflexivity|apply from_le_zeros]. Qed.

Lemma shr_spec a k : canonical a -> k / 8 <= N.of_nat (length a) ->
  exists r, shr_assign a k = Ok r /\ canonical r /\ num r = num a / 2 ^ k.
Proof.
  intros Ha Hk. destruct (shr_ok a k Ha Hk) as (r & E & C & V). exists r. change num with from_le; auto.
Qed.

Lemma bits_used_spec a : canonical a -> countable a -> bits_used a = Ok (bit_length (num a)).
Proof. intros. change num with from_le; rewrite bit_length_size. now apply bits_used_ok. Qed.

Lemma bit_length_spec n k : n < 2 ^ k <-> bit_length n <= k.
Proof. rewrite bit_length_size. apply size_le. Qed.

Lemma is_set_spec a i : canonical a -> countable a -> is_set a i = Ok (N.testbit (num a) i).
Proof. intros. change num with from_le. now apply is_set_ok. Qed.

Lemma update_spec a i s : bytes a -> i / 8 < N.of_nat (length a) ->
  exists r, update a i s = Ok r /\ length r = length a /\ bytes r /\
    forall j, N.testbit (num r) j = if j =? i then s else N.testbit (num a) j.
Proof.
  intros Ha Hi. destruct (update_ok a i s Ha Hi) as (r & E & L & B & V & _).
  exists r. split; [exact E|]. split; [exact L|]. split; [exact B|]. intros j.
  change num with from_le; rewrite V. rewrite (N.eqb_sym j i). destruct s.
  - rewrite N.setbit_eqb. now destruct (i =? j).
  - rewrite N.clearbit_eqb. destruct (i =? j); cbn; [apply andb_false_r|apply andb_true_r].
Qed.

Lemma as_u128_spec a : canonical a ->
  big_as_u128 a = Ok (if num a <? 2 ^ 128 then ROk (num a) else RErr (length a)).
Proof.
  intros Ha. change num with from_le. destruct (N.ltb_spec (from_le a) (2 ^ 128)) as [L|L].
  - rewrite as_u128_ok; auto using canonical_bytes. now apply canonical_length_lt.
  - rewrite as_u128_err; auto. destruct (le_lt_dec (length a) 16) as [G|]; auto. exfalso.
    pose proof (from_le_lt a (canonical_bytes _ Ha)).
    assert (256 ^ N.of_nat (length a) <= 256 ^ 16) by (apply N.pow_le_mono_r; lia).
    change (256 ^ 16) with (2 ^ 128) in *. lia.
Qed.

Lemma u128_roundtrip v : v < 2 ^ 128 ->
  exists a, big_from_u128 v = Ok a /\ big_as_u128 a = Ok (ROk v).
Proof.
  intros H. destruct (from_u128_spec v H) as (a & E & C & V). exists a. split; [exact E|].
  rewrite as_u128_spec by auto. rewrite V. now rewrite (proj2 (N.ltb_lt _ _) H).
Qed.

(** ** What stays canonical *)

Lemma update_bytes a i s r : bytes a -> update a i s = Ok r -> bytes r.
Proof.
  intros Ha E. destruct (N.lt_ge_cases (i / 8) (N.of_nat (length a))) as [L|L].
  - destruct (update_ok a i s Ha L) as (r' & E' & _ & B & _). rewrite E in E'.
    apply Ok_inj in E'. now subst.
  - rewrite update_panic in E by auto. discriminate.
Qed.

Lemma forM_post {A S} (P : S -> Prop) (f : A -> S -> res S) l s r :
  (forall a s s', P s -> f a s = Ok s' -> P s') -> P s -> forM l f s = Ok r -> P r.
Proof.
  intros Hf. revert s. induction l as [|a l IH]; intros s Hs E; cbn [forM] in E.
  - apply Ok_inj in E. now subst.
  - apply bind_ok_inv in E as (s' & E1 & E2). eauto.
Qed.

Lemma sub_post cap a b r : bytes a -> bytes b -> sub_assign_cap cap a b = Ok r -> canonical r.
Proof.
  intros Ha Hb. unfold sub_assign_cap. intros E.
  apply bind_ok_inv in E as (k & _ & E). apply bind_ok_inv in E as (o & _ & E).
  set (inv := map (wnot 8) b ++ repeat (wnot 8 0) o) in E.
  assert (Binv : bytes inv).
  { apply Forall_app. split; [now apply map_wnot_val|]. apply Forall_repeat. now vm_compute. }
  destruct (add_u8_ok a 1 Ha ltac:(lia)) as (s1 & E1 & C1 & V1).
  rewrite E1 in E. cbn [bind] in E.
  destruct (add_ok s1 (trim_trailing_zeroes inv) (canonical_bytes _ C1) (trim_bytes _ Binv))
    as (s2 & E2 & C2 & V2).
  rewrite E2 in E. cbn [bind] in E. apply bind_ok_inv in E as (bits & _ & E).
  apply bind_ok_inv in E as (s3 & E3 & E). apply Ok_inj in E. subst r.
  apply trim_canonical. revert E3. apply forM_post.
  - intros i s s' Hs. now apply update_bytes.
  - now apply canonical_bytes.
Qed.

Lemma shl_bytes a k : bytes a -> bytes (shl_assign a k).
Proof.
  intros Ha. unfold shl_assign. set (st := k / 8). set (r := k - st * 8).
  assert (B : bytes (if 0 <? r then trim_trailing_zeroes (shl_loop r 0 (a ++ [0])) else a)).
  { destruct (N.ltb_spec 0 r); auto. apply trim_bytes.
    apply shl_loop_ok; [unfold r, st; lia|now apply bytes_snoc_0|apply pow2_pos]. }
  destruct (0 <? st); auto. apply Forall_app. split; auto. apply Forall_repeat. unfold byte; lia.
Qed.

Lemma shr_bytes a k r : bytes a -> shr_assign a k = Ok r -> bytes r.
Proof.
  intros Ha. unfold shr_assign. intros E. apply bind_ok_inv in E as ([a1 r1] & E1 & E).
  assert (B : bytes a1 /\ r1 < 8).
  { destruct (N.leb_spec 8 k).
    - cbv zeta in E1. apply bind_ok_inv in E1 as (a' & E1 & E2). apply Ok_inj in E2.
      injection E2 as <- <-. split; [|lia].
      unfold slice_from in E1. destruct (_ <=? _)%nat; [|discriminate].
      apply Ok_inj in E1. subst. now apply Forall_skipn.
    - apply Ok_inj in E1. injection E1 as <- <-. split; auto. }
  destruct B as [B R]. destruct (N.ltb_spec 0 r1).
  - destruct (shr_loop_ok a1 r1 B ltac:(lia)) as (l & c & F & Bl & _).
    cbv zeta in F, E. rewrite F in E. cbn [bind] in E. apply Ok_inj in E. subst.
    now apply trim_bytes.
  - apply Ok_inj in E. now subst.
Qed.

Lemma rem_post capf a m r : canonical a -> bytes m -> rem_assign capf a m = Ok r -> canonical r.
Proof.
  intros Ha Hm. unfold rem_assign. intros E.
  apply bind_ok_inv in E as (rb & _ & E). apply bind_ok_inv in E as (ab & _ & E).
  destruct (ab <? rb); [apply Ok_inj in E; now subst|].
  apply bind_ok_inv in E as (d & _ & E). apply bind_ok_inv in E as ([x y] & E1 & E).
  apply Ok_inj in E. subst r.
  cut (let (x, y) := (x, y) in canonical x /\ bytes y); [now intros []|].
  revert E1. apply (forM_post (fun st : list N * list N => let (x, y) := st in canonical x /\ bytes y)).
  - intros i [u v] [u' v'] [Hu Hv] E. apply bind_ok_inv in E as (le & _ & E).
    apply bind_ok_inv in E as (u1 & E1 & E). apply bind_ok_inv in E as (v1 & E2 & E).
    apply Ok_inj in E. injection E as <- <-. split.
    + destruct le; [|apply Ok_inj in E1; now subst].
      eapply sub_post; [| |exact E1]; auto using canonical_bytes.
    + eapply shr_bytes; eauto.
  - split; auto. now apply shl_bytes.
Qed.

Lemma shr_post a k r : canonical a -> shr_assign a k = Ok r -> canonical r.
Proof.
  intros Ha E. destruct (N.le_gt_cases (k / 8) (N.of_nat (length a))) as [L|L].
  - destruct (shr_ok a k Ha L) as (r' & E' & C & _). rewrite E in E'. apply Ok_inj in E'. now subst.
  - rewrite shr_panic in E by auto. discriminate.
Qed.

Lemma update_set_post a i r : canonical a -> update a i true = Ok r -> canonical r.
Proof.
  intros Ha E. destruct (N.lt_ge_cases (i / 8) (N.of_nat (length a))) as [L|L].
  2:{ rewrite update_panic in E by auto. discriminate. }
  destruct (canonical_cases _ Ha) as [->|(l & b & -> & Hl & Hb & Hz)]; [discriminate|].
  destruct (update_ok (l ++ [b]) i true (canonical_bytes _ Ha) L) as (r' & E' & Lr & B & _ & K1 & K2).
  rewrite E in E'. apply Ok_inj in E'. subst r'.
  split; [exact B|].
  destruct r as [|c r _] using rev_ind; [cbn; lia|].
  rewrite last_last. rewrite !app_length in Lr. cbn [length] in Lr.
  assert (LL : length r = length l) by lia.
  assert (N1 : forall (x : N) q, nth (length q) (q ++ [x]) 0 = x).
  { intros. rewrite app_nth2, Nat.sub_diag by lia. reflexivity. }
  destruct (Nat.eq_dec (length l) (N.to_nat (i / 8))) as [Ei|Ei].
  - rewrite <- Ei, N1, <- LL, N1 in K2.
    rewrite K2. intros Z. apply (f_equal (fun x => N.testbit x (i mod 8))) in Z.
    rewrite N.setbit_eq, N.bits_0 in Z. discriminate.
  - specialize (K1 (length l) Ei). rewrite N1, <- LL, N1 in K1. now rewrite K1.
Qed.

(** Clearing keeps the form exactly when the top byte keeps a bit. *)
Lemma update_clear_post l b i : canonical (l ++ [b]) -> i / 8 < N.of_nat (length l + 1) ->
  exists r, update (l ++ [b]) i false = Ok r /\
    (canonical r <-> (i / 8 < N.of_nat (length l) \/ b <> 2 ^ (i mod 8))).
Proof.
  intros Ha L. apply canonical_snoc in Ha as Ha'. destruct Ha' as (Hl & Hb & Hz).
  destruct (update_ok (l ++ [b]) i false (canonical_bytes _ Ha)) as (r & E & Lr & B & _ & K1 & K2).
  { rewrite app_length. exact L. }
  exists r. split; [exact E|].
  destruct r as [|c r _] using rev_ind; [rewrite app_length in Lr; cbn in Lr; lia|].
  rewrite !app_length in Lr. cbn [length] in Lr.
  assert (LL : length r = length l) by lia.
  assert (N1 : forall (x : N) q, nth (length q) (q ++ [x]) 0 = x).
  { intros. rewrite app_nth2, Nat.sub_diag by lia. reflexivity. }
  assert (Bc : bytes r /\ c < 256).
  { apply Forall_app in B as [B1 B2]. split; auto. inversion B2; auto. }
  rewrite canonical_snoc.
  destruct (Nat.eq_dec (length l) (N.to_nat (i / 8))) as [Ei|Ei].
  - rewrite <- Ei, N1, <- LL, N1 in K2. 
    assert (Q : c = 0 <-> b = 2 ^ (i mod 8)).
    { rewrite K2. split.
      - intros Z. apply N.bits_inj. intros j. rewrite N.pow2_bits_eqb.
        destruct (N.eqb_spec (i mod 8) j) as [<-|Hj].
        + destruct (N.testbit b (i mod 8)) eqn:T; auto. exfalso. apply Hz.
          apply N.bits_inj. intros k. rewrite N.bits_0.
          apply (f_equal (fun x => N.testbit x k)) in Z. rewrite N.clearbit_eqb, N.bits_0 in Z.
          destruct (N.eqb_spec (i mod 8) k) as [Hk|Hk]; [rewrite <- Hk; exact T|]. cbn in Z. now rewrite andb_true_r in Z.
        + apply (f_equal (fun x => N.testbit x j)) in Z. rewrite N.clearbit_eqb, N.bits_0 in Z.
          destruct (N.eqb_spec (i mod 8) j) as [|]; [easy|]. cbn in Z. now rewrite andb_true_r in Z.
      - intros ->. apply N.bits_inj. intros j. rewrite N.clearbit_eqb, N.pow2_bits_eqb, N.bits_0.
        now destruct (i mod 8 =? j). }
    split.
    + intros (_ & _ & G). right. tauto.
    + intros [G|G]; [lia|]. repeat split; try apply Bc. tauto.
  - specialize (K1 (length l) Ei). rewrite N1, <- LL, N1 in K1. subst c.
    split; [left; lia|]. intros _. repeat split; try apply Bc. exact Hz.
Qed.

Lemma update_clear_breaks l i : canonical (l ++ [2 ^ (i mod 8)]) ->
  countable (l ++ [2 ^ (i mod 8)]) -> i / 8 = N.of_nat (length l) ->
  exists r, update (l ++ [2 ^ (i mod 8)]) i false = Ok r /\ bits_used r = Panic PExplicit.
Proof.
  intros Ha Hc Hi.
  destruct (update_clear_post l (2 ^ (i mod 8)) i Ha ltac:(lia)) as (r & E & Q).
  exists r. split; [exact E|].
  destruct (update_ok (l ++ [2 ^ (i mod 8)]) i false (canonical_bytes _ Ha)) as (r' & E' & Lr & B & _).
  { rewrite app_length. cbn [length]. lia. }
  rewrite E in E'. apply Ok_inj in E'. subst r'.
  apply bits_used_top_zero.
  - unfold countable in *. now rewrite Lr.
  - intros ->. rewrite app_length in Lr. cbn in Lr. lia.
  - destruct (N.eq_dec (last r 1) 0) as [|G]; auto. exfalso.
    assert (C : canonical r) by (split; auto). apply Q in C as [C|C]; [lia|easy].
Qed.

Lemma shl_zero_breaks k : 8 <= k < 2 ^ 32 -> bits_used (shl_assign [] k) = Panic PExplicit.
Proof.
  intros Hk. rewrite shl_nil. unfold ix.
  assert (H1 : (0 < N.to_nat (k / 8))%nat) by lia.
  assert (H2 : N.of_nat (N.to_nat (k / 8)) < 2 ^ 29).
  { rewrite N2Nat.id. change (2 ^ 29) with 536870912. change (2 ^ 32) with 4294967296 in Hk. lia. }
  generalize dependent (N.to_nat (k / 8)). intros n H1 H2.
  apply bits_used_top_zero.
  - unfold countable. now rewrite repeat_length.
  - destruct n; [lia|discriminate].
  - destruct n as [|n']; [lia|]. replace (S n') with (n' + 1)%nat by lia.
    rewrite repeat_app. apply last_last.
Qed.
