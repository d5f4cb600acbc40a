(** * The equivalent inverse cipher and the table form of AES *)
From Coq Require Import ZifyBool ZifyNat.
From Verif Require Import Base BaseLemmas ModelAes SpecAes SpecAesForms ProofAesField ProofAes ProofAesKey.
Local Open Scope N_scope.

Lemma row4_add m0 m1 m2 m3 a b c d a' b' c' d' :
  row4 m0 m1 m2 m3 (N.lxor a a') (N.lxor b b') (N.lxor c c') (N.lxor d d') =
  N.lxor (row4 m0 m1 m2 m3 a b c d) (row4 m0 m1 m2 m3 a' b' c' d').
Proof. unfold row4. rewrite !gmul_linear. symmetry. apply s4_add. Qed.

Lemma add_round_key_explicit a0 a1 a2 a3 a4 a5 a6 a7 a8 a9 a10 a11 a12 a13 a14 a15
    b0 b1 b2 b3 b4 b5 b6 b7 b8 b9 b10 b11 b12 b13 b14 b15 :
  add_round_key [a0; a1; a2; a3; a4; a5; a6; a7; a8; a9; a10; a11; a12; a13; a14; a15]
    [b0; b1; b2; b3; b4; b5; b6; b7; b8; b9; b10; b11; b12; b13; b14; b15] =
  [N.lxor b0 a0; N.lxor b1 a1; N.lxor b2 a2; N.lxor b3 a3; N.lxor b4 a4; N.lxor b5 a5; N.lxor b6 a6; N.lxor b7 a7;
   N.lxor b8 a8; N.lxor b9 a9; N.lxor b10 a10; N.lxor b11 a11; N.lxor b12 a12; N.lxor b13 a13; N.lxor b14 a14; N.lxor b15 a15].
Proof. reflexivity. Qed.

Lemma inv_mix_add k s : length k = 16%nat -> length s = 16%nat ->
  inv_mix_columns (add_round_key k s) = add_round_key (inv_mix_columns k) (inv_mix_columns s).
Proof.
  intros Hk Hs. des16 k Hk. des16 s Hs. unfold inv_mix_columns.
  rewrite add_round_key_explicit, !mix_with_explicit. cbv zeta. rewrite add_round_key_explicit, !row4_add. reflexivity.
Qed.

Lemma inv_sub_shift s : length s = 16%nat -> inv_sub_bytes (inv_shift_rows s) = inv_shift_rows (inv_sub_bytes s).
Proof. intros Hs. des16 s Hs. reflexivity. Qed.

Lemma fold_same {A B} (f g : A -> B -> A) (P : A -> Prop) l s :
  (forall s a, In a l -> P s -> P (f s a) /\ f s a = g s a) -> P s -> fold_left f l s = fold_left g l s /\ P (fold_left f l s).
Proof.
  revert s. induction l as [|a l IH]; intros s H Hs; cbn [fold_left]; auto.
  destruct (H s a (or_introl eq_refl) Hs) as (H1 & H2). rewrite <- H2. apply IH; auto. intros. apply H; auto. now right.
Qed.

Lemma eq_inv_same nr w b : (1 <= nr)%nat -> (forall r, (r <= nr)%nat -> wf16 (round_key w r)) -> wf16 b ->
  eq_inv_cipher nr w b = fips_inv_cipher nr w b.
Proof.
  intros Hnr Hk Hb. unfold eq_inv_cipher, fips_inv_cipher.
  assert (D0 : dec_round_key nr w 0 = round_key w 0) by reflexivity.
  assert (Dn : dec_round_key nr w nr = round_key w nr).
  { unfold dec_round_key. rewrite Nat.eqb_refl, Bool.orb_true_r. reflexivity. }
  rewrite D0, Dn. set (s := add_round_key (round_key w nr) b).
  assert (Ws : wf16 s) by (apply add_round_key_wf; [apply Hk; lia|apply Hb]).
  destruct (fold_same
    (fun s r => inv_mix_columns (add_round_key (round_key w r) (inv_sub_bytes (inv_shift_rows s))))
    (fun s r => add_round_key (dec_round_key nr w r) (inv_mix_columns (inv_shift_rows (inv_sub_bytes s))))
    wf16 (rev (seq 1 (nr - 1))) s) as (E & W); auto.
  - intros t r Hr Wt. apply in_rev, in_seq in Hr.
    assert (Wr : wf16 (round_key w r)) by (apply Hk; lia).
    assert (Wi : wf16 (inv_sub_bytes (inv_shift_rows t))) by now apply inv_sub_bytes_wf, inv_shift_rows_wf.
    split.
    + apply inv_mix_columns_wf, add_round_key_wf; [apply Wr|apply Wi].
    + rewrite inv_mix_add by (apply Wr || apply Wi). rewrite inv_sub_shift by apply Wt.
      unfold dec_round_key. replace (r =? 0)%nat with false by (symmetry; apply Nat.eqb_neq; lia).
      replace (r =? nr)%nat with false by (symmetry; apply Nat.eqb_neq; lia). reflexivity.
  - rewrite <- E. rewrite inv_sub_shift by apply W. reflexivity.
Qed.

Ltac fold_s4 := repeat match goal with |- context [N.lxor (N.lxor (N.lxor ?a ?b) ?c) ?d] =>
  lazymatch a with N.lxor _ _ => fail | _ => change (N.lxor (N.lxor (N.lxor a b) c) d) with (s4 a b c d) end end.

Lemma table_round_same k s : length k = 16%nat -> wf16 s ->
  table_round k s = add_round_key k (mix_columns (shift_rows (sub_bytes s))).
Proof.
  intros Hk [Hs Hb]. des16 k Hk. des16 s Hs. split_bytes Hb.
  match goal with |- _ = add_round_key _ (mix_columns ?x) =>
    let y := eval cbv [sub_bytes shift_rows make_state map seq at_ nth Nat.add Nat.mul Nat.modulo Nat.divmod Nat.div fst snd Nat.sub] in x in
    change x with y end.
  unfold mix_columns. rewrite mix_with_explicit. cbv zeta. rewrite add_round_key_explicit.
  unfold table_round, table_column, table, xor_word, at_.
  cbv [map seq concat app firstn skipn nth Nat.add Nat.mul Nat.modulo Nat.divmod Nat.div fst snd Nat.sub].
  unfold row4. repeat match goal with |- _ :: _ = _ :: _ => f_equal end; fold_s4; f_equal;
    first [reflexivity | rewrite s4_rot; reflexivity | rewrite s4_rot, s4_rot; reflexivity
      | rewrite s4_rot, s4_rot, s4_rot; reflexivity].
Qed.

Lemma table_cipher_same nr w b : (1 <= nr)%nat -> (forall r, (r <= nr)%nat -> wf16 (round_key w r)) -> wf16 b ->
  table_cipher nr w b = fips_cipher nr w b.
Proof.
  intros Hnr Hk Hb. unfold table_cipher, fips_cipher.
  set (s := add_round_key (round_key w 0) b).
  assert (Ws : wf16 s) by (apply add_round_key_wf; [apply Hk; lia|apply Hb]).
  destruct (fold_same
    (fun s r => add_round_key (round_key w r) (mix_columns (shift_rows (sub_bytes s))))
    (fun s r => table_round (round_key w r) s) wf16 (seq 1 (nr - 1)) s) as (E & W); auto.
  - intros t r Hr Wt. apply in_seq in Hr. assert (Wr : wf16 (round_key w r)) by (apply Hk; lia). split.
    + apply add_round_key_wf; [apply Wr|]. now apply mix_columns_wf, shift_rows_wf, sub_bytes_wf.
    + symmetry. apply table_round_same; [apply Wr|exact Wt].
  - now rewrite <- E.
Qed.

Lemma aes_forms nk key block : nk = 4%nat \/ nk = 6%nat \/ nk = 8%nat -> length key = (4 * nk)%nat -> bytes key ->
  length block = 16%nat -> bytes block ->
  let w := key_words nk key (4 * (nk + 7)) in
  exists c, aes_make nk key = Ok c /\ aes_decrypt c block = Ok (eq_inv_cipher (nk + 6) w block) /\
    aes_encrypt c block = Ok (table_cipher (nk + 6) w block).
Proof.
  intros Hnk L B Lb Bb w. destruct (aes_encrypt_conforms nk key block Hnk L B Lb Bb) as (c & M & E & D).
  exists c. split; [exact M|].
  assert (W : forall r, (r <= nk + 6)%nat -> wf16 (round_key w r)).
  { intros r Hr. apply round_key_wf; unfold w; [rewrite key_words_length; lia|]. apply key_words_wf; auto. lia. }
  unfold aes_spec_encrypt in E. unfold aes_spec_decrypt in D.
  replace (4 * (nk + 6 + 1))%nat with (4 * (nk + 7))%nat in E, D by lia. fold w in E, D. split.
  - rewrite eq_inv_same; [exact D|lia|exact W|now split].
  - rewrite table_cipher_same; [exact E|lia|exact W|now split].
Qed.

Lemma bytes_ok l : forallb (fun b => b <? 256) l = true -> bytes l.
Proof. intros H. apply Forall_forall. intros b Hb. rewrite forallb_forall in H. now apply N.ltb_lt, H. Qed.
