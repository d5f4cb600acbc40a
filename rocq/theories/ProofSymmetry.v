(** * AES and turned columns *)
From Coq Require Import ZifyBool ZifyNat.
From Verif Require Import Base BaseLemmas ModelAes SpecEndian SpecAes SpecSymmetry ProofEndian ProofAesField ProofAes ProofAesKey ProofKeys.
Local Open Scope N_scope.

Lemma turn_wf s : wf16 s -> wf16 (turn s).
Proof.
  intros [L B]. split.
  - unfold turn. rewrite app_length, skipn_length, firstn_length. lia.
  - unfold turn. apply Forall_app. split; [now apply Forall_skipn|now apply Forall_firstn].
Qed.

Lemma turn_explicit a0 a1 a2 a3 a4 a5 a6 a7 a8 a9 a10 a11 a12 a13 a14 a15 :
  turn [a0; a1; a2; a3; a4; a5; a6; a7; a8; a9; a10; a11; a12; a13; a14; a15] =
  [a4; a5; a6; a7; a8; a9; a10; a11; a12; a13; a14; a15; a0; a1; a2; a3].
Proof. reflexivity. Qed.

Lemma turn_sub s : sub_bytes (turn s) = turn (sub_bytes s).
Proof. unfold turn, sub_bytes. now rewrite map_app, skipn_map, firstn_map. Qed.
Lemma turn_inv_sub s : inv_sub_bytes (turn s) = turn (inv_sub_bytes s).
Proof. unfold turn, inv_sub_bytes. now rewrite map_app, skipn_map, firstn_map. Qed.
Lemma turn_shift s : length s = 16%nat -> shift_rows (turn s) = turn (shift_rows s).
Proof. intros L. des16 s L. reflexivity. Qed.
Lemma turn_inv_shift s : length s = 16%nat -> inv_shift_rows (turn s) = turn (inv_shift_rows s).
Proof. intros L. des16 s L. reflexivity. Qed.
Lemma turn_mix m0 m1 m2 m3 s : length s = 16%nat -> mix_with m0 m1 m2 m3 (turn s) = turn (mix_with m0 m1 m2 m3 s).
Proof.
  intros L. des16 s L. rewrite turn_explicit, !mix_with_explicit. cbv zeta. now rewrite turn_explicit.
Qed.
Lemma turn_add k s : length k = 16%nat -> length s = 16%nat -> add_round_key (turn k) (turn s) = turn (add_round_key k s).
Proof. intros Lk L. des16 k Lk. des16 s L. reflexivity. Qed.

(** Words for given round keys. *)
Definition words_of (keys : list (list N)) : list (list N) := concat (map (groups 4) keys).

Lemma groups4_length (k : list N) : length k = 16%nat -> length (groups 4 k) = 4%nat.
Proof. intros L. now rewrite groups_length, L. Qed.

Lemma words_of_key keys r : Forall wf16 keys -> (r < length keys)%nat -> round_key (words_of keys) r = nth r keys [].
Proof.
  intros F. revert r. induction F as [|k keys [L B] F IH]; intros r Hr; cbn [length] in Hr; [lia|].
  unfold round_key, words_of in *. cbn [map concat]. pose proof (groups4_length k L) as G. destruct r as [|r].
  - change (4 * 0)%nat with 0%nat. cbn [skipn nth]. rewrite firstn_app, G, Nat.sub_diag, firstn_O, app_nil_r.
    rewrite firstn_all2 by lia. apply (concat_groups 4 4); [lia|]. now rewrite L.
  - replace (4 * S r)%nat with (length (groups 4 k) + 4 * r)%nat by lia. rewrite skipn_app, skipn_all2 by lia.
    replace (length (groups 4 k) + 4 * r - length (groups 4 k))%nat with (4 * r)%nat by lia. cbn [app nth]. apply IH. lia.
Qed.

Lemma keys_ok_words nr keys : Forall wf16 keys -> (nr < length keys)%nat -> keys_ok nr (words_of keys) keys.
Proof.
  intros F H r Hr. rewrite words_of_key by (auto; lia). split.
  - now apply idx_nth; lia.
  - rewrite Forall_forall in F. apply F, nth_In. lia.
Qed.

Lemma fold_turn {B} (f g : list N -> B -> list N) (P : list N -> Prop) l s :
  (forall s a, In a l -> P s -> P (f s a) /\ g (turn s) a = turn (f s a)) -> P s ->
  fold_left g l (turn s) = turn (fold_left f l s) /\ P (fold_left f l s).
Proof.
  revert s. induction l as [|a l IH]; intros s H Hs; cbn [fold_left]; auto.
  destruct (H s a (or_introl eq_refl) Hs) as (H1 & H2). rewrite H2. apply IH; auto. intros. apply H; auto. now right.
Qed.

Section Turned.
  Context (nr : nat) (w w' : list (list N)) (Hnr : (1 <= nr)%nat).
  Context (Hk : forall r, (r <= nr)%nat -> wf16 (round_key w r) /\ round_key w' r = turn (round_key w r)).

  Lemma turn_cipher b : wf16 b -> fips_cipher nr w' (turn b) = turn (fips_cipher nr w b).
  Proof using Hnr Hk.
    intros Hb. unfold fips_cipher.
    destruct (Hk 0%nat ltac:(lia)) as (W0 & E0). destruct (Hk nr ltac:(lia)) as (Wn & En).
    rewrite E0, En, turn_add by (apply W0 || apply Hb).
    set (s := add_round_key (round_key w 0) b).
    assert (Ws : wf16 s) by (apply add_round_key_wf; [apply W0|apply Hb]).
    destruct (fold_turn
      (fun s r => add_round_key (round_key w r) (mix_columns (shift_rows (sub_bytes s))))
      (fun s r => add_round_key (round_key w' r) (mix_columns (shift_rows (sub_bytes s)))) wf16 (seq 1 (nr - 1)) s) as (E & W); auto.
    - intros t r Hr Wt. apply in_seq in Hr. destruct (Hk r ltac:(lia)) as (Wr & Er).
      assert (W1 : wf16 (sub_bytes t)) by now apply sub_bytes_wf.
      assert (W2 : wf16 (shift_rows (sub_bytes t))) by now apply shift_rows_wf.
      assert (W3 : wf16 (mix_columns (shift_rows (sub_bytes t)))) by now apply mix_columns_wf.
      split; [apply add_round_key_wf; [apply Wr|apply W3]|].
      rewrite Er, turn_sub, turn_shift by apply W1. unfold mix_columns at 1. rewrite turn_mix by apply W2.
      fold mix_columns. apply turn_add; [apply Wr|apply W3].
    - rewrite E. rewrite turn_sub, turn_shift by now apply sub_bytes_wf. apply turn_add; [apply Wn|].
      now apply shift_rows_wf, sub_bytes_wf.
  Qed.

  Lemma turn_inv_cipher b : wf16 b -> fips_inv_cipher nr w' (turn b) = turn (fips_inv_cipher nr w b).
  Proof using Hnr Hk.
    intros Hb. unfold fips_inv_cipher.
    destruct (Hk 0%nat ltac:(lia)) as (W0 & E0). destruct (Hk nr ltac:(lia)) as (Wn & En).
    rewrite E0, En, turn_add by (apply Wn || apply Hb).
    set (s := add_round_key (round_key w nr) b).
    assert (Ws : wf16 s) by (apply add_round_key_wf; [apply Wn|apply Hb]).
    destruct (fold_turn
      (fun s r => inv_mix_columns (add_round_key (round_key w r) (inv_sub_bytes (inv_shift_rows s))))
      (fun s r => inv_mix_columns (add_round_key (round_key w' r) (inv_sub_bytes (inv_shift_rows s)))) wf16
      (rev (seq 1 (nr - 1))) s) as (E & W); auto.
    - intros t r Hr Wt. apply in_rev, in_seq in Hr. destruct (Hk r ltac:(lia)) as (Wr & Er).
      assert (W1 : wf16 (inv_shift_rows t)) by now apply inv_shift_rows_wf.
      assert (W2 : wf16 (inv_sub_bytes (inv_shift_rows t))) by now apply inv_sub_bytes_wf.
      assert (W3 : wf16 (add_round_key (round_key w r) (inv_sub_bytes (inv_shift_rows t))))
        by (apply add_round_key_wf; [apply Wr|apply W2]).
      split; [now apply inv_mix_columns_wf|].
      rewrite Er, turn_inv_shift, turn_inv_sub, turn_add by (apply Wt || apply Wr || apply W2).
      unfold inv_mix_columns. apply turn_mix. apply W3.
    - rewrite E. rewrite turn_inv_shift, turn_inv_sub by apply W. apply turn_add; [apply W0|].
      now apply inv_sub_bytes_wf, inv_shift_rows_wf.
  Qed.
End Turned.

Lemma aes_turned nr keys b : (1 <= nr)%nat -> (nr < length keys)%nat ->
  Forall (fun k => length k = 16%nat /\ bytes k) keys -> length b = 16%nat -> bytes b ->
  let c := {| aes_keys := keys; aes_rounds := nr |} in
  let c' := {| aes_keys := map turn keys; aes_rounds := nr |} in
  (exists e, aes_encrypt c b = Ok e /\ aes_encrypt c' (turn b) = Ok (turn e)) /\
  (exists d, aes_decrypt c b = Ok d /\ aes_decrypt c' (turn b) = Ok (turn d)).
Proof.
  intros Hnr Hlen F L B c c'. change (Forall wf16 keys) in F.
  assert (Wb : wf16 b) by now split.
  assert (F' : Forall wf16 (map turn keys)).
  { rewrite Forall_forall in F |- *. intros k Hk. apply in_map_iff in Hk as (x & <- & Hx). apply turn_wf. auto. }
  assert (H1 : keys_ok nr (words_of keys) keys) by now apply keys_ok_words.
  assert (H2 : keys_ok nr (words_of (map turn keys)) (map turn keys)) by (apply keys_ok_words; [exact F'|now rewrite map_length]).
  assert (Hk : forall r, (r <= nr)%nat -> wf16 (round_key (words_of keys) r) /\
      round_key (words_of (map turn keys)) r = turn (round_key (words_of keys) r)).
  { intros r Hr. split; [apply H1, Hr|]. rewrite !words_of_key by (auto; rewrite ?map_length; lia).
    change (@nil N) with (turn []) at 1. apply map_nth. }
  pose proof (turn_wf b Wb) as Wt. split.
  - destruct (aes_encrypt_eq nr (words_of keys) keys b Hnr H1 Wb) as (E & _).
    destruct (aes_encrypt_eq nr _ _ (turn b) Hnr H2 Wt) as (E' & _).
    eexists. split; [exact E|]. unfold c'. rewrite E'. f_equal. now apply turn_cipher.
  - destruct (aes_decrypt_eq nr (words_of keys) keys b Hnr H1 Wb) as (E & _).
    destruct (aes_decrypt_eq nr _ _ (turn b) Hnr H2 Wt) as (E' & _).
    eexists. split; [exact E|]. unfold c'. rewrite E'. f_equal. now apply turn_inv_cipher.
Qed.

Lemma aes_symmetric nr keys b : (1 <= nr)%nat -> (nr < length keys)%nat ->
  Forall (fun k => length k = 16%nat /\ bytes k /\ symmetric k) keys -> length b = 16%nat -> bytes b -> symmetric b ->
  exists e, aes_encrypt {| aes_keys := keys; aes_rounds := nr |} b = Ok e /\ symmetric e.
Proof.
  intros Hnr Hlen F L B S.
  assert (F1 : Forall (fun k => length k = 16%nat /\ bytes k) keys) by (revert F; apply Forall_impl; tauto).
  assert (T : map turn keys = keys).
  { clear - F. induction F as [|k keys (_ & _ & H) F IH]; cbn [map]; [reflexivity|]. now rewrite IH, H. }
  destruct (aes_turned nr keys b Hnr Hlen F1 L B) as ((e & E & E') & _). rewrite T in E'.
  replace (turn b) with b in E' by (symmetry; exact S). rewrite E in E'. apply Ok_inj in E'.
  exists e. split; [exact E|]. symmetry. exact E'.
Qed.

(** ** No key has only symmetric round keys *)

Lemma sym_words w r : (4 * r + 4 <= length w)%nat -> Forall wf4 w -> symmetric (round_key w r) ->
  forall i, (i < 4)%nat -> nth (4 * r + i) w [] = nth (4 * r) w [].
Proof.
  intros H F S i Hi. unfold symmetric, round_key in S. destruct (list4_firstn w r H) as (a & b & c & d & E).
  assert (X : Forall wf4 [a; b; c; d]) by (rewrite <- E; now apply Forall_firstn, Forall_skipn).
  rewrite !Forall_cons_iff in X. destruct X as ((La & _) & (Lb & _) & (Lc & _) & (Ld & _) & _).
  assert (G : forall j, (j < 4)%nat -> nth (4 * r + j) w [] = nth j [a; b; c; d] []).
  { intros j Hj. rewrite <- E, nth_firstn', nth_skipn' by exact Hj. reflexivity. }
  rewrite E in S. cbn [concat] in S. rewrite app_nil_r in S. unfold turn in S.
  rewrite skipn_app, La, Nat.sub_diag, skipn_all2, skipn_O in S by lia.
  rewrite firstn_app, La, Nat.sub_diag, firstn_all2, firstn_O, app_nil_r in S by lia. cbn [app] in S.
  rewrite <- !app_assoc in S.
  apply app_inv_front in S as [-> S]; [|congruence]. apply app_inv_front in S as [-> S]; [|congruence].
  apply app_inv_front in S as [-> _]; [|congruence].
  rewrite (G i Hi). replace (nth (4 * r) w []) with a by (rewrite <- (Nat.add_0_r (4 * r)), G by lia; reflexivity).
  destruct i as [|[|[|[|i]]]]; try reflexivity. lia.
Qed.

Lemma xor_word_same a b : length a = 4%nat -> length b = 4%nat -> b = xor_word a b -> a = [0; 0; 0; 0].
Proof.
  intros La Lb E. apply (xor_word_cancel a [0; 0; 0; 0] b La eq_refl). rewrite <- E. des4 b Lb. reflexivity.
Qed.

Section Schedule.
  Context (w : nat -> list N) (n : nat) (L : forall i, (i < n)%nat -> length (w i) = 4%nat).

  Lemma no_symmetric_4 : (12 <= n)%nat ->
    (forall i, (4 <= i < n)%nat -> w i = xor_word (w (i - 4)%nat) (next_temp 4 i (w (i - 1)%nat))) ->
    (forall r i, (r < 3)%nat -> (i < 4)%nat -> w (4 * r + i)%nat = w (4 * r)%nat) -> False.
  Proof using L.
    intros Hn St Sy.
    pose proof (St 5%nat ltac:(lia)) as E5. pose proof (St 4%nat ltac:(lia)) as E4. pose proof (St 9%nat ltac:(lia)) as E9.
    pose proof (Sy 1%nat 1%nat ltac:(lia) ltac:(lia)) as S5. pose proof (Sy 2%nat 1%nat ltac:(lia) ltac:(lia)) as S9.
    pose proof (Sy 0%nat 1%nat ltac:(lia) ltac:(lia)) as S1. pose proof (Sy 0%nat 3%nat ltac:(lia) ltac:(lia)) as S3.
    cbn [Nat.mul Nat.add] in S5, S9, S1, S3.
    change (5 - 4)%nat with 1%nat in E5. change (next_temp 4 5 (w (5 - 1)%nat)) with (w 4%nat) in E5.
    change (4 - 4)%nat with 0%nat in E4. change (4 - 1)%nat with 3%nat in E4.
    change (9 - 4)%nat with 5%nat in E9. change (next_temp 4 9 (w (9 - 1)%nat)) with (w 8%nat) in E9.
    rewrite S5 in E5. apply xor_word_same in E5; [|apply L; lia|apply L; lia].
    rewrite S9 in E9. apply xor_word_same in E9; [|apply L; lia|apply L; lia].
    rewrite S5 in E9. rewrite S3, <- S1, E5 in E4. rewrite E9 in E4. vm_compute in E4. discriminate E4.
  Qed.

  Lemma no_symmetric_6 : (12 <= n)%nat ->
    (forall i, (6 <= i < n)%nat -> w i = xor_word (w (i - 6)%nat) (next_temp 6 i (w (i - 1)%nat))) ->
    (forall r i, (r < 3)%nat -> (i < 4)%nat -> w (4 * r + i)%nat = w (4 * r)%nat) -> False.
  Proof using L.
    intros Hn St Sy.
    pose proof (St 6%nat ltac:(lia)) as E6. pose proof (St 7%nat ltac:(lia)) as E7. pose proof (St 8%nat ltac:(lia)) as E8.
    pose proof (St 11%nat ltac:(lia)) as E11.
    pose proof (Sy 1%nat 1%nat ltac:(lia) ltac:(lia)) as S5. pose proof (Sy 1%nat 2%nat ltac:(lia) ltac:(lia)) as S6.
    pose proof (Sy 1%nat 3%nat ltac:(lia) ltac:(lia)) as S7.
    pose proof (Sy 0%nat 1%nat ltac:(lia) ltac:(lia)) as S1.
    pose proof (Sy 2%nat 2%nat ltac:(lia) ltac:(lia)) as S10. pose proof (Sy 2%nat 3%nat ltac:(lia) ltac:(lia)) as S11.
    cbn [Nat.mul Nat.add] in S5, S6, S7, S1, S10, S11.
    change (6 - 6)%nat with 0%nat in E6. change (6 - 1)%nat with 5%nat in E6.
    change (7 - 6)%nat with 1%nat in E7. change (next_temp 6 7 (w (7 - 1)%nat)) with (w 6%nat) in E7.
    change (11 - 6)%nat with 5%nat in E11. change (next_temp 6 11 (w (11 - 1)%nat)) with (w 10%nat) in E11.
    rewrite S7, S6 in E7. apply xor_word_same in E7; [|apply L; lia|apply L; lia].
    rewrite S11, S10 in E11. apply xor_word_same in E11; [|apply L; lia|apply L; lia].
    rewrite E11, <- S1, E7, S6, <- S5, E11 in E6. vm_compute in E6. discriminate E6.
  Qed.

  Lemma no_symmetric_8 : (20 <= n)%nat ->
    (forall i, (8 <= i < n)%nat -> w i = xor_word (w (i - 8)%nat) (next_temp 8 i (w (i - 1)%nat))) ->
    (forall r i, (r < 5)%nat -> (i < 4)%nat -> w (4 * r + i)%nat = w (4 * r)%nat) -> False.
  Proof using L.
    intros Hn St Sy.
    pose proof (St 8%nat ltac:(lia)) as E8. pose proof (St 9%nat ltac:(lia)) as E9. pose proof (St 13%nat ltac:(lia)) as E13.
    pose proof (St 17%nat ltac:(lia)) as E17.
    pose proof (Sy 0%nat 1%nat ltac:(lia) ltac:(lia)) as S1. pose proof (Sy 1%nat 1%nat ltac:(lia) ltac:(lia)) as S5.
    pose proof (Sy 1%nat 3%nat ltac:(lia) ltac:(lia)) as S7. pose proof (Sy 2%nat 1%nat ltac:(lia) ltac:(lia)) as S9.
    pose proof (Sy 3%nat 1%nat ltac:(lia) ltac:(lia)) as S13. pose proof (Sy 4%nat 1%nat ltac:(lia) ltac:(lia)) as S17.
    cbn [Nat.mul Nat.add] in S1, S5, S7, S9, S13, S17.
    change (8 - 8)%nat with 0%nat in E8. change (8 - 1)%nat with 7%nat in E8.
    change (9 - 8)%nat with 1%nat in E9. change (next_temp 8 9 (w (9 - 1)%nat)) with (w 8%nat) in E9.
    change (13 - 8)%nat with 5%nat in E13. change (next_temp 8 13 (w (13 - 1)%nat)) with (w 12%nat) in E13.
    change (17 - 8)%nat with 9%nat in E17. change (next_temp 8 17 (w (17 - 1)%nat)) with (w 16%nat) in E17.
    rewrite S9 in E9. apply xor_word_same in E9; [|apply L; lia|apply L; lia].
    rewrite S13 in E13. apply xor_word_same in E13; [|apply L; lia|apply L; lia].
    rewrite S17 in E17. apply xor_word_same in E17; [|apply L; lia|apply L; lia].
    rewrite S9 in E17. rewrite E17, <- S1, E9, S7, <- S5, E13 in E8. vm_compute in E8. discriminate E8.
  Qed.
End Schedule.

Lemma some_round_key nk key c : nk = 4%nat \/ nk = 6%nat \/ nk = 8%nat -> length key = (4 * nk)%nat -> bytes key ->
  aes_make nk key = Ok c -> exists r, (r < 5)%nat /\ ~ symmetric (nth r (aes_keys c) []).
Proof.
  intros Hnk Lk Bk M. destruct (aes_expanded nk key Hnk Lk Bk) as (c' & M' & _ & K). rewrite M in M'.
  apply Ok_inj in M'. subst c'.
  set (n := (4 * (nk + 7))%nat) in K. set (w := key_words nk key n) in K.
  assert (Lw : length w = n) by apply key_words_length.
  assert (F : Forall wf4 w) by (apply key_words_wf; auto; lia).
  assert (Kr : forall r, (r < 5)%nat -> nth r (aes_keys c) [] = round_key w r).
  { intros r Hr. rewrite K. rewrite (nth_indep _ [] (round_key w 0)) by (rewrite map_length, seq_length; lia).
    rewrite map_nth, seq_nth by lia. reflexivity. }
  assert (D : forall s : list N, symmetric s \/ ~ symmetric s).
  { intros s. unfold symmetric. destruct (list_eq_dec N.eq_dec (turn s) s); auto. }
  assert (D5 : (forall r, (r < 5)%nat -> symmetric (round_key w r)) \/ exists r, (r < 5)%nat /\ ~ symmetric (round_key w r)).
  { generalize 5%nat. clear - D. intros n0. induction n0 as [|m IH]; [left; lia|]. destruct IH as [IH|(r & Hr & N)]; [|right; exists r; split; auto; lia].
    destruct (D (round_key w m)) as [S|S]; [left|right; exists m; split; auto; lia].
    intros r Hr. destruct (Nat.eq_dec r m) as [->|]; auto. apply IH. lia. }
  destruct D5 as [A|(r & Hr & N)]; [|exists r; split; [exact Hr|now rewrite Kr]]. exfalso.
  assert (Sy : forall r i, (r < 5)%nat -> (i < 4)%nat -> nth (4 * r + i) w [] = nth (4 * r) w []).
  { intros r i Hr Hi. apply sym_words; auto. rewrite Lw. unfold n. lia. }
  assert (L4 : forall i, (i < n)%nat -> length (nth i w []) = 4%nat).
  { intros i Hi. apply kw_length4; auto. lia. }
  assert (St : forall i, (nk <= i < n)%nat -> nth i w [] = xor_word (nth (i - nk) w []) (next_temp nk i (nth (i - 1) w []))).
  { intros i Hi. apply key_words_step; lia. }
  destruct Hnk as [-> |[-> | ->]].
  - apply (no_symmetric_4 (fun i => nth i w []) n L4 ltac:(unfold n; lia) St). intros r i Hr Hi. apply Sy; lia.
  - apply (no_symmetric_6 (fun i => nth i w []) n L4 ltac:(unfold n; lia) St). intros r i Hr Hi. apply Sy; lia.
  - apply (no_symmetric_8 (fun i => nth i w []) n L4 ltac:(unfold n; lia) St). intros r i Hr Hi. apply Sy; lia.
Qed.
