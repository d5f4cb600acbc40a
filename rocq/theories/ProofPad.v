From Coq Require Import ZifyBool ZifyNat ZifyN.
From Verif Require Import Base BaseLemmas ModelPad SpecPad.
Ltac Zify.zify_post_hook ::= Z.div_mod_to_equations.

Lemma pkcs_pad_eq n p : (length p < n)%nat ->
  pkcs_pad n p = Ok (p ++ repeat (N.of_nat (n - length p) mod 256) (n - length p)).
Proof.
  intros H. unfold pkcs_pad. rewrite (proj2 (Nat.leb_gt _ _)) by lia.
  rewrite copy_range_ok; [|rewrite repeat_length; lia|lia].
  cbn [bind firstn app]. rewrite skipn_repeat.
  rewrite fill_range_ok by (rewrite app_length, repeat_length; lia).
  rewrite firstn_app_exact by auto.
  rewrite skipn_all2, app_nil_r by (rewrite app_length, repeat_length; lia). reflexivity.
Qed.

Lemma pkcs_pad_panics n p : (n <= length p)%nat -> pkcs_pad n p = Panic PExplicit.
Proof. intros H. unfold pkcs_pad. now rewrite (proj2 (Nat.leb_le _ _)) by lia. Qed.

Lemma last_nth {A} (l : list A) d : last l d = nth (length l - 1) l d.
Proof.
  induction l as [|a l IH]; auto. destruct l as [|b l]; auto.
  change (last (a :: b :: l) d) with (last (b :: l) d). rewrite IH.
  cbn [length]. replace (S (S (length l)) - 1)%nat with (S (S (length l) - 1)) by lia. reflexivity.
Qed.

Lemma pkcs_unpad_eq n b : (0 < n)%nat -> length b = n ->
  pkcs_unpad n b = if last b 0 <=? N.of_nat n
                   then Ok (n - N.to_nat (last b 0%N))%nat else Panic PExplicit.
Proof.
  intros Hn Hb. unfold pkcs_unpad. rewrite nsub_ok by lia. cbn [bind].
  rewrite (idx_nth b _ 0) by lia. cbn [bind]. rewrite last_nth, Hb.
  unfold ix. set (k := nth (n - 1) b 0).
  destruct (N.leb_spec k (N.of_nat n)), (Nat.ltb_spec n (N.to_nat k)); try lia; auto.
  apply nsub_ok; lia.
Qed.

Lemma last_app_repeat {A} (p : list A) x k d : (0 < k)%nat -> last (p ++ repeat x k) d = x.
Proof.
  intros. destruct k; [lia|]. clear H.
  replace (repeat x (S k)) with (repeat x k ++ [x]).
  - rewrite app_assoc. apply last_last.
  - clear. induction k; cbn; auto. cbn in IHk. now rewrite IHk.
Qed.

Lemma pkcs_roundtrip_gen n p : (length p < n)%nat ->
  exists b, pkcs_pad n p = Ok b /\ length b = n /\ firstn (length p) b = p /\
    pkcs_unpad n b = Ok (n - (n - length p) mod 256)%nat.
Proof.
  intros H. eexists. split; [now apply pkcs_pad_eq|].
  assert (Hl : length (p ++ repeat (N.of_nat (n - length p) mod 256) (n - length p)) = n)
    by (rewrite app_length, repeat_length; lia).
  split; auto. split; [now apply firstn_app_exact|].
  rewrite pkcs_unpad_eq, last_app_repeat by (auto; lia).
  rewrite (proj2 (N.leb_le _ _)) by lia. f_equal. f_equal. lia.
Qed.

Lemma pkcs_roundtrip n p : (1 <= n <= 255)%nat -> (length p < n)%nat ->
  exists b, pkcs_pad n p = Ok b /\ length b = n /\ firstn (length p) b = p /\
            pkcs_unpad n b = Ok (length p).
Proof.
  intros Hn H. destruct (pkcs_roundtrip_gen n p H) as (b & H1 & H2 & H3 & H4).
  exists b. repeat split; auto. rewrite H4. f_equal.
  rewrite Nat.mod_small; lia.
Qed.

Lemma pkcs_pad_exact n p :
  ((length p < n)%nat ->
     pkcs_pad n p = Ok (p ++ repeat (N.of_nat (n - length p) mod 256) (n - length p))) /\
  ((n <= length p)%nat -> pkcs_pad n p = Panic PExplicit).
Proof.
  split; [apply pkcs_pad_eq|]. intros. now apply pkcs_pad_panics.
Qed.

Lemma pkcs_pad_padded n p : (n <= 255)%nat -> (length p < n)%nat ->
  pkcs_pad n p = Ok (pkcs_padded n p).
Proof.
  intros. rewrite pkcs_pad_eq by auto. unfold pkcs_padded.
  rewrite N.mod_small by lia. reflexivity.
Qed.

Lemma pkcs_unpad_exact n b : length b = n ->
  (n = 0%nat -> pkcs_unpad n b = Panic POverflow) /\
  ((0 < n)%nat -> last b 0 <= N.of_nat n ->
     pkcs_unpad n b = Ok (n - N.to_nat (last b 0%N))%nat) /\
  ((0 < n)%nat -> N.of_nat n < last b 0 -> pkcs_unpad n b = Panic PExplicit).
Proof.
  intros Hb. split; [|split].
  - intros ->. reflexivity.
  - intros Hn Hk. rewrite pkcs_unpad_eq by auto. now rewrite (proj2 (N.leb_le _ _)).
  - intros Hn Hk. rewrite pkcs_unpad_eq by auto. now rewrite (proj2 (N.leb_gt _ _)).
Qed.

Lemma pkcs_unpad_last_only n b b' : length b = n -> length b' = n ->
  last b 0 = last b' 0 -> pkcs_unpad n b = pkcs_unpad n b'.
Proof.
  intros Hb Hb' Hl. destruct n as [|n]; [reflexivity|].
  rewrite !pkcs_unpad_eq by (auto; lia). now rewrite Hl.
Qed.

(** Acceptance and genuineness. *)
Lemma pkcs_unpad_accepts n b : (1 <= n)%nat -> length b = n ->
  ((exists k, pkcs_unpad n b = Ok k) <-> last b 0 <= N.of_nat n).
Proof.
  intros Hn Hb. rewrite pkcs_unpad_eq by (auto; lia).
  destruct (N.leb_spec (last b 0) (N.of_nat n)); split; eauto; try lia.
  intros [k E]; discriminate.
Qed.

Lemma pkcs_genuine_iff n b : (1 <= n <= 255)%nat -> length b = n ->
  (pkcs_genuine n b <->
   exists k, pkcs_unpad n b = Ok k /\ pkcs_pad n (firstn k b) = Ok b).
Proof.
  intros Hn Hb. split.
  - intros (p & Hp & ->). exists (length p).
    destruct (pkcs_roundtrip n p) as (b & H1 & H2 & H3 & H4); auto.
    rewrite pkcs_pad_padded in H1 by lia. injection H1 as <-. split; auto.
    rewrite H3. now rewrite pkcs_pad_padded by lia.
  - intros (k & H1 & H2).
    assert (Hl : (length (firstn k b) < n)%nat).
    { destruct (lt_dec (length (firstn k b)) n); auto.
      rewrite pkcs_pad_panics in H2 by lia. discriminate. }
    rewrite pkcs_pad_padded in H2 by lia. injection H2 as H2.
    exists (firstn k b). auto.
Qed.

(** Bit padding. *)
Lemma bit_pad_eq n p : (length p < n)%nat -> bit_pad n p = Ok (bit_padded n p).
Proof.
  intros H. unfold bit_pad. rewrite (proj2 (Nat.leb_gt _ _)) by lia.
  rewrite copy_range_ok; [|rewrite repeat_length; lia|lia].
  cbn [bind firstn app]. rewrite skipn_repeat.
  rewrite upd_ok by (rewrite app_length, repeat_length; lia).
  rewrite set_nth_app_r by (auto; rewrite repeat_length; lia).
  rewrite skipn_repeat. reflexivity.
Qed.

Lemma bit_pad_panics n p : (n <= length p)%nat -> bit_pad n p = Panic PExplicit.
Proof. intros H. unfold bit_pad. now rewrite (proj2 (Nat.leb_le _ _)) by lia. Qed.

Lemma rposition_unique {A} (p : A -> bool) l i d :
  (i < length l)%nat -> p (nth i l d) = true ->
  (forall j, (i < j < length l)%nat -> p (nth j l d) = false) ->
  rposition p l = Some i.
Proof.
  intros Hi Hp Hj. destruct (rposition p l) as [k|] eqn:E.
  - apply rposition_some in E as (K1 & K2 & K3).
    destruct (lt_eq_lt_dec i k) as [[L|L]|L]; [|congruence|].
    + specialize (K2 d). rewrite Hj in K2 by lia. discriminate.
    + rewrite (K3 i d) in Hp by lia. discriminate.
  - apply rposition_none in E. rewrite Forall_forall in E.
    rewrite E in Hp; [discriminate|]. now apply nth_In.
Qed.

Lemma bit_unpad_eq n b i : (i < length b)%nat -> nth i b 0 = 128 ->
  (forall j, (i < j < length b)%nat -> nth j b 0 <> 128) ->
  bit_unpad n b = Ok (firstn i b ++ repeat 0 (length b - i), i).
Proof.
  intros Hi H1 H2. unfold bit_unpad.
  rewrite (rposition_unique _ b i 0); auto.
  - cbn [unwrap bind]. rewrite fill_range_ok by lia. cbn [bind].
    now rewrite skipn_all, app_nil_r.
  - rewrite H1. reflexivity.
  - intros j Hj. apply N.eqb_neq. auto.
Qed.

Lemma bit_unpad_panics n b :
  ((exists r, bit_unpad n b = Panic r) <-> ~ In 128 b) /\
  (forall r, bit_unpad n b = Panic r -> r = PUnwrap).
Proof.
  unfold bit_unpad. destruct (rposition _ b) as [i|] eqn:E.
  - apply rposition_some in E as (K1 & K2 & K3). cbn [unwrap bind].
    rewrite fill_range_ok by lia. cbn [bind]. split; [|discriminate].
    split; [intros [r [=]]|]. intros Hn. exfalso. apply Hn. specialize (K2 0). apply N.eqb_eq in K2.
    rewrite <- K2. now apply nth_In.
  - apply rposition_none in E. cbn [unwrap bind]. split; [|congruence]. split; [|eauto].
    intros _ Hin. rewrite Forall_forall in E. specialize (E _ Hin). discriminate.
Qed.

Lemma bit_roundtrip n p : (length p < n)%nat ->
  exists b, bit_pad n p = Ok b /\ length b = n /\
    bit_unpad n b = Ok (p ++ repeat 0 (n - length p), length p).
Proof.
  intros H. exists (bit_padded n p). split; [now apply bit_pad_eq|].
  assert (Hl : length (bit_padded n p) = n).
  { unfold bit_padded. rewrite app_length. cbn [length]. rewrite repeat_length. lia. }
  split; auto. rewrite (bit_unpad_eq n _ (length p)).
  - rewrite Hl. unfold bit_padded. now rewrite firstn_app_exact.
  - lia.
  - unfold bit_padded. rewrite app_nth2, Nat.sub_diag by lia. reflexivity.
  - intros j Hj. unfold bit_padded. rewrite app_nth2 by lia.
    destruct (j - length p)%nat eqn:E; [lia|]. cbn [nth].
    rewrite nth_repeat. discriminate.
Qed.

Lemma bit_pad_exact n p :
  ((length p < n)%nat -> bit_pad n p = Ok (bit_padded n p)) /\
  ((n <= length p)%nat -> bit_pad n p = Panic PExplicit).
Proof.
  split; [apply bit_pad_eq|]. intros. now apply bit_pad_panics.
Qed.

Lemma pkcs_roundtrip_iff n p : (length p < n)%nat ->
  ((exists b, pkcs_pad n p = Ok b /\ pkcs_unpad n b = Ok (length p)) <->
   (n - length p <= 255)%nat).
Proof.
  intros H. destruct (pkcs_roundtrip_gen n p H) as (b & H1 & H2 & H3 & H4). split.
  - intros (b' & H1' & H4'). rewrite H1 in H1'. injection H1' as <-.
    rewrite H4 in H4'. apply Ok_inj in H4'.
    pose proof (Nat.mod_upper_bound (n - length p) 256 ltac:(lia)). lia.
  - intros Hle. exists b. split; auto. rewrite H4. f_equal. rewrite Nat.mod_small; lia.
Qed.
