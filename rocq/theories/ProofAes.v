From Coq Require Import ZifyBool ZifyNat ZifyN.
From Verif Require Import Base BaseLemmas ModelBlock ModelAes SpecAes SpecBlock ProofAesField.
Ltac Zify.zify_post_hook ::= Z.div_mod_to_equations.

Global Opaque gmul sub_byte inv_sub_byte mul2 mul3 field_mul.

(** ** Explicit lists *)

Lemma list4 {A} (l : list A) : length l = 4%nat ->
  exists a b c d, l = [a; b; c; d].
Proof.
  intros H. do 4 (destruct l as [|? l]; [discriminate H|]).
  destruct l; [|discriminate H]. eauto.
Qed.

Lemma list16 {A} (l : list A) : length l = 16%nat ->
  exists a0 a1 a2 a3 a4 a5 a6 a7 a8 a9 a10 a11 a12 a13 a14 a15,
    l = [a0; a1; a2; a3; a4; a5; a6; a7; a8; a9; a10; a11; a12; a13; a14; a15].
Proof.
  intros H. do 16 (destruct l as [|? l]; [discriminate H|]).
  destruct l; [|discriminate H].
  do 16 eexists. reflexivity.
Qed.

Ltac des16 l H :=
  let a := fresh in
  destruct (list16 l H) as
    (?a0 & ?a1 & ?a2 & ?a3 & ?a4 & ?a5 & ?a6 & ?a7 & ?a8 & ?a9 & ?a10 & ?a11 & ?a12 & ?a13 & ?a14 & ?a15 & a);
  subst l.

(** A well-formed state or round key. *)
Definition wf16 (l : list N) : Prop := length l = 16%nat /\ bytes l.

Ltac split_bytes H :=
  repeat (apply Forall_cons_iff in H; let H1 := fresh "Hb" in destruct H as [H1 H];
          unfold byte in H1).

(** ** The model's steps are the standard's steps *)

Lemma add_key_eq k s : length k = 16%nat -> length s = 16%nat ->
  add_key k s = Ok (add_round_key k s).
Proof. intros Hk Hs. des16 k Hk. des16 s Hs. reflexivity. Qed.

Lemma substitute_forward_eq s : bytes s -> substitute_forward s = Ok (sub_bytes s).
Proof.
  intros H. apply mapM_ok. intros a Ha. unfold bytes in H. rewrite Forall_forall in H.
  apply forward_lookup. now apply H.
Qed.

Lemma substitute_backward_eq s : bytes s -> substitute_backward s = Ok (inv_sub_bytes s).
Proof.
  intros H. apply mapM_ok. intros a Ha. unfold bytes in H. rewrite Forall_forall in H.
  apply backward_lookup. now apply H.
Qed.

Lemma shift_rows_forward_eq s : length s = 16%nat -> shift_rows_forward s = Ok (shift_rows s).
Proof. intros Hs. des16 s Hs. reflexivity. Qed.

Lemma shift_rows_backward_eq s : length s = 16%nat -> shift_rows_backward s = Ok (inv_shift_rows s).
Proof. intros Hs. des16 s Hs. reflexivity. Qed.

Lemma mix_column_eq a b c d : a < 256 -> b < 256 -> c < 256 -> d < 256 ->
  mix_column [a; b; c; d] =
  Ok [row4 2 3 1 1 a b c d; row4 2 3 1 1 b c d a; row4 2 3 1 1 c d a b; row4 2 3 1 1 d a b c].
Proof.
  intros. unfold mix_column. cbn [idx nth_error bind].
  rewrite !mul2_gmul, !mul3_gmul by auto.
  rewrite !upd_ok by (unfold set_nth; cbn; lia). cbn [bind set_nth firstn skipn app].
  unfold row4, s4. rewrite !gmul_1_l by auto. reflexivity.
Qed.

Lemma field_mul_gmul' a b : a < 256 -> b < 256 -> field_mul a b = gmul b a.
Proof. intros. rewrite field_mul_gmul by auto. now apply gmul_comm. Qed.

Lemma unmix_column_eq a b c d : a < 256 -> b < 256 -> c < 256 -> d < 256 ->
  unmix_column [a; b; c; d] =
  Ok [row4 14 11 13 9 a b c d; row4 14 11 13 9 b c d a; row4 14 11 13 9 c d a b; row4 14 11 13 9 d a b c].
Proof.
  intros. unfold unmix_column. cbn [idx nth_error bind].
  rewrite !upd_ok by (unfold set_nth; cbn; lia). cbn [bind set_nth firstn skipn app].
  unfold row4, s4. cbv zeta. unfold xor4.
  rewrite !field_mul_gmul' by (auto; reflexivity). reflexivity.
Qed.


(** The four columns. *)
Lemma for_columns_eq f a0 a1 a2 a3 a4 a5 a6 a7 a8 a9 a10 a11 a12 a13 a14 a15
    b0 b1 b2 b3 b4 b5 b6 b7 b8 b9 b10 b11 b12 b13 b14 b15 :
  f [a0; a1; a2; a3] = Ok [b0; b1; b2; b3] ->
  f [a4; a5; a6; a7] = Ok [b4; b5; b6; b7] ->
  f [a8; a9; a10; a11] = Ok [b8; b9; b10; b11] ->
  f [a12; a13; a14; a15] = Ok [b12; b13; b14; b15] ->
  for_columns f [a0; a1; a2; a3; a4; a5; a6; a7; a8; a9; a10; a11; a12; a13; a14; a15] =
  Ok [b0; b1; b2; b3; b4; b5; b6; b7; b8; b9; b10; b11; b12; b13; b14; b15].
Proof.
  intros H0 H1 H2 H3. unfold for_columns, range. cbn [Nat.sub seq forM].
  rewrite slice_ok by (cbn; lia). cbn [bind Nat.mul Nat.add Nat.sub firstn skipn].
  rewrite H0. cbn [bind]. rewrite copy_range_ok by (cbn; lia).
  cbn [bind Nat.mul Nat.add Nat.sub firstn skipn app].
  rewrite slice_ok by (cbn; lia). cbn [bind Nat.mul Nat.add Nat.sub firstn skipn].
  rewrite H1. cbn [bind]. rewrite copy_range_ok by (cbn; lia).
  cbn [bind Nat.mul Nat.add Nat.sub firstn skipn app].
  rewrite slice_ok by (cbn; lia). cbn [bind Nat.mul Nat.add Nat.sub firstn skipn].
  rewrite H2. cbn [bind]. rewrite copy_range_ok by (cbn; lia).
  cbn [bind Nat.mul Nat.add Nat.sub firstn skipn app].
  rewrite slice_ok by (cbn; lia). cbn [bind Nat.mul Nat.add Nat.sub firstn skipn].
  rewrite H3. cbn [bind]. rewrite copy_range_ok by (cbn; lia).
  reflexivity.
Qed.

Lemma mix_columns_forward_eq s : wf16 s -> mix_columns_forward s = Ok (mix_columns s).
Proof.
  intros [Hl Hb]. des16 s Hl. split_bytes Hb. unfold mix_columns_forward.
  erewrite for_columns_eq by (apply mix_column_eq; assumption).
  reflexivity.
Qed.

Lemma mix_columns_backward_eq s : wf16 s -> mix_columns_backward s = Ok (inv_mix_columns s).
Proof.
  intros [Hl Hb]. des16 s Hl. split_bytes Hb. unfold mix_columns_backward.
  erewrite for_columns_eq by (apply unmix_column_eq; assumption).
  reflexivity.
Qed.

(** ** The standard's steps preserve well-formed states *)

Lemma make_state_wf f : (forall r c, (r < 4)%nat -> (c < 4)%nat -> f r c < 256) -> wf16 (make_state f).
Proof.
  intros H. split; [reflexivity|]. unfold make_state. apply Forall_forall. intros x Hx.
  apply in_map_iff in Hx as (i & <- & Hi). apply in_seq in Hi. apply H; lia.
Qed.

Lemma at_lt s r c : bytes s -> at_ s r c < 256.
Proof.
  intros H. unfold at_. destruct (nth_in_or_default (r + 4 * c) s 0) as [Hin| ->]; [|reflexivity].
  unfold bytes in H. rewrite Forall_forall in H. now apply H.
Qed.

Lemma map_wf (f : N -> N) s : wf16 s -> (forall b, b < 256 -> f b < 256) -> wf16 (map f s).
Proof.
  intros [Hl Hb] H. split; [now rewrite map_length|]. apply Forall_forall. intros x Hx.
  apply in_map_iff in Hx as (y & <- & Hy). apply H. unfold bytes in Hb.
  rewrite Forall_forall in Hb. now apply Hb.
Qed.

Lemma sub_bytes_wf s : wf16 s -> wf16 (sub_bytes s).
Proof. intros. apply map_wf; auto. apply sub_byte_lt. Qed.
Lemma inv_sub_bytes_wf s : wf16 s -> wf16 (inv_sub_bytes s).
Proof. intros. apply map_wf; auto. apply inv_sub_byte_lt. Qed.
Lemma shift_rows_wf s : wf16 s -> wf16 (shift_rows s).
Proof. intros [_ Hb]. apply make_state_wf. intros. now apply at_lt. Qed.
Lemma inv_shift_rows_wf s : wf16 s -> wf16 (inv_shift_rows s).
Proof. intros [_ Hb]. apply make_state_wf. intros. now apply at_lt. Qed.
Lemma mix_with_wf m0 m1 m2 m3 s : m0 < 256 -> m1 < 256 -> m2 < 256 -> m3 < 256 ->
  wf16 s -> wf16 (mix_with m0 m1 m2 m3 s).
Proof.
  intros ? ? ? ? [_ Hb]. apply make_state_wf. intros.
  repeat apply lxor_byte; apply gmul_lt; auto; now apply at_lt.
Qed.
Lemma mix_columns_wf s : wf16 s -> wf16 (mix_columns s).
Proof. now apply mix_with_wf. Qed.
Lemma inv_mix_columns_wf s : wf16 s -> wf16 (inv_mix_columns s).
Proof. now apply mix_with_wf. Qed.
Lemma nth_lt s i : bytes s -> nth i s 0 < 256.
Proof.
  intros H. destruct (nth_in_or_default i s 0) as [Hin| ->]; [|reflexivity].
  unfold bytes in H. rewrite Forall_forall in H. now apply H.
Qed.
Lemma add_round_key_wf k s : bytes k -> bytes s -> wf16 (add_round_key k s).
Proof.
  intros Hk Hs. split; [reflexivity|]. apply Forall_forall. intros x Hx.
  unfold add_round_key in Hx. apply in_map_iff in Hx as (i & <- & _).
  apply lxor_byte; now apply nth_lt.
Qed.

(** ** Each step is invertible *)

Lemma add_round_key_inv k s : length s = 16%nat -> add_round_key k (add_round_key k s) = s.
Proof.
  intros Hs. des16 s Hs. unfold add_round_key. cbn [map seq nth].
  now rewrite !N.lxor_assoc, !N.lxor_nilpotent, !N.lxor_0_r.
Qed.

Lemma map_inv (f g : N -> N) s : bytes s -> (forall b, b < 256 -> g (f b) = b) -> map g (map f s) = s.
Proof.
  intros Hb H. rewrite map_map. rewrite <- (map_id s) at 2. apply map_ext_in.
  intros a Ha. apply H. unfold bytes in Hb. rewrite Forall_forall in Hb. now apply Hb.
Qed.

Lemma sub_inv s : bytes s -> inv_sub_bytes (sub_bytes s) = s.
Proof. intros. apply map_inv; auto. apply inv_sub_sub. Qed.
Lemma inv_sub_inv s : bytes s -> sub_bytes (inv_sub_bytes s) = s.
Proof. intros. apply map_inv; auto. apply sub_inv_sub. Qed.
Lemma shift_inv s : length s = 16%nat -> inv_shift_rows (shift_rows s) = s.
Proof. intros Hs. des16 s Hs. reflexivity. Qed.
Lemma inv_shift_inv s : length s = 16%nat -> shift_rows (inv_shift_rows s) = s.
Proof. intros Hs. des16 s Hs. reflexivity. Qed.

Lemma mix_with_explicit m0 m1 m2 m3 a0 a1 a2 a3 a4 a5 a6 a7 a8 a9 a10 a11 a12 a13 a14 a15 :
  mix_with m0 m1 m2 m3 [a0; a1; a2; a3; a4; a5; a6; a7; a8; a9; a10; a11; a12; a13; a14; a15] =
  let f := row4 m0 m1 m2 m3 in
  [f a0 a1 a2 a3; f a1 a2 a3 a0; f a2 a3 a0 a1; f a3 a0 a1 a2;
   f a4 a5 a6 a7; f a5 a6 a7 a4; f a6 a7 a4 a5; f a7 a4 a5 a6;
   f a8 a9 a10 a11; f a9 a10 a11 a8; f a10 a11 a8 a9; f a11 a8 a9 a10;
   f a12 a13 a14 a15; f a13 a14 a15 a12; f a14 a15 a12 a13; f a15 a12 a13 a14].
Proof. reflexivity. Qed.

Lemma mix_inv s : wf16 s -> inv_mix_columns (mix_columns s) = s.
Proof.
  intros [Hl Hb]. des16 s Hl. split_bytes Hb. unfold mix_columns, inv_mix_columns.
  rewrite mix_with_explicit. cbv zeta. rewrite mix_with_explicit. cbv zeta.
  now rewrite !unmix_mix_row by assumption.
Qed.
Lemma inv_mix_inv s : wf16 s -> mix_columns (inv_mix_columns s) = s.
Proof.
  intros [Hl Hb]. des16 s Hl. split_bytes Hb. unfold mix_columns, inv_mix_columns.
  rewrite mix_with_explicit. cbv zeta. rewrite mix_with_explicit. cbv zeta.
  now rewrite !mix_unmix_row by assumption.
Qed.

(** ** Cipher and inverse cipher *)

(** [keys] holds the round keys [0 .. nr]. *)
Definition keys_ok (nr : nat) (w keys : list (list N)) : Prop :=
  forall r, (r <= nr)%nat -> idx keys r = Ok (round_key w r) /\ wf16 (round_key w r).

Lemma aes_encrypt_eq nr w keys b : (1 <= nr)%nat -> keys_ok nr w keys -> wf16 b ->
  aes_encrypt {| aes_keys := keys; aes_rounds := nr |} b = Ok (fips_cipher nr w b) /\
  wf16 (fips_cipher nr w b).
Proof.
  intros Hnr Hk Hb. unfold aes_encrypt, fips_cipher. cbn [aes_keys aes_rounds].
  destruct (Hk 0%nat) as [E0 W0]; [lia|]. rewrite E0. cbn [bind].
  rewrite add_key_eq by (apply W0 || apply Hb). cbn [bind].
  set (s0 := add_round_key (round_key w 0) b).
  assert (Hs0 : wf16 s0) by (apply add_round_key_wf; [apply W0|apply Hb]).
  destruct (forM_fold (range 1 nr) (fun k state =>
      let* state := substitute_forward state in
      let* state := shift_rows_forward state in
      let* state := mix_columns_forward state in
      let* kk := idx keys k in
      add_key kk state)
    (fun r s => add_round_key (round_key w r) (mix_columns (shift_rows (sub_bytes s))))
    wf16 s0 Hs0) as [E W].
  - intros r s Hr Hs. apply in_range in Hr.
    rewrite substitute_forward_eq by apply Hs. cbn [bind].
    rewrite shift_rows_forward_eq by now apply sub_bytes_wf. cbn [bind].
    rewrite mix_columns_forward_eq by now apply shift_rows_wf, sub_bytes_wf. cbn [bind].
    destruct (Hk r) as [E W]; [lia|]. rewrite E. cbn [bind].
    assert (Hm : wf16 (mix_columns (shift_rows (sub_bytes s))))
      by now apply mix_columns_wf, shift_rows_wf, sub_bytes_wf.
    rewrite add_key_eq by (apply W || apply Hm). split; auto.
    apply add_round_key_wf; [apply W|apply Hm].
  - rewrite E. cbn [bind]. change (range 1 nr) with (seq 1 (nr - 1)) in *.
    set (s1 := fold_left _ _ s0) in *.
    rewrite substitute_forward_eq by apply W. cbn [bind].
    rewrite shift_rows_forward_eq by now apply sub_bytes_wf. cbn [bind].
    destruct (Hk nr) as [En Wn]; [lia|]. rewrite En. cbn [bind].
    assert (Hm : wf16 (shift_rows (sub_bytes s1))) by now apply shift_rows_wf, sub_bytes_wf.
    rewrite add_key_eq by (apply Wn || apply Hm). split; auto.
    apply add_round_key_wf; [apply Wn|apply Hm].
Qed.

Definition inv_step (w : list (list N)) (s : list N) (r : nat) : list N :=
  inv_mix_columns (add_round_key (round_key w r) (inv_sub_bytes (inv_shift_rows s))).

(** The loop of [decrypt] is shifted by one InvShiftRows/InvSubBytes. *)
Lemma shift_gen {A} (D M : A -> A) (K : nat -> A -> A) l s :
  fold_left (fun s r => D (M (K r s))) l (D s) =
  D (fold_left (fun s r => M (K r (D s))) l s).
Proof. revert s; induction l as [|r l IH]; intros s; cbn [fold_left]; [reflexivity|]. apply IH. Qed.

Definition inv_sub_shift (s : list N) : list N := inv_sub_bytes (inv_shift_rows s).

Lemma aes_decrypt_eq nr w keys b : (1 <= nr)%nat -> keys_ok nr w keys -> wf16 b ->
  aes_decrypt {| aes_keys := keys; aes_rounds := nr |} b = Ok (fips_inv_cipher nr w b) /\
  wf16 (fips_inv_cipher nr w b).
Proof.
  intros Hnr Hk Hb. unfold aes_decrypt, fips_inv_cipher. cbn [aes_keys aes_rounds].
  destruct (Hk nr) as [E0 W0]; [lia|]. rewrite E0. cbn [bind].
  rewrite add_key_eq by (apply W0 || apply Hb). cbn [bind].
  set (s0 := add_round_key (round_key w nr) b).
  assert (Hs0 : wf16 s0) by (apply add_round_key_wf; [apply W0|apply Hb]).
  rewrite shift_rows_backward_eq by apply Hs0. cbn [bind].
  rewrite substitute_backward_eq by now apply inv_shift_rows_wf. cbn [bind].
  change (inv_sub_bytes (inv_shift_rows s0)) with (inv_sub_shift s0).
  destruct (forM_fold (rev (range 1 nr)) (fun k state =>
      let* kk := idx keys k in
      let* state := add_key kk state in
      let* state := mix_columns_backward state in
      let* state := shift_rows_backward state in
      substitute_backward state)
    (fun r s => inv_sub_shift (inv_mix_columns (add_round_key (round_key w r) s)))
    wf16 (inv_sub_shift s0)) as [E W].
  - now apply inv_sub_bytes_wf, inv_shift_rows_wf.
  - intros r s Hr Hs. apply in_rev in Hr. apply in_range in Hr.
    destruct (Hk r) as [E W]; [lia|]. rewrite E. cbn [bind].
    rewrite add_key_eq by (apply W || apply Hs). cbn [bind].
    assert (Hm : wf16 (add_round_key (round_key w r) s))
      by (apply add_round_key_wf; [apply W|apply Hs]).
    rewrite mix_columns_backward_eq by auto. cbn [bind].
    rewrite shift_rows_backward_eq by now apply inv_mix_columns_wf. cbn [bind].
    rewrite substitute_backward_eq by now apply inv_shift_rows_wf, inv_mix_columns_wf.
    split; auto. now apply inv_sub_bytes_wf, inv_shift_rows_wf, inv_mix_columns_wf.
  - rewrite E. cbn [bind]. change (range 1 nr) with (seq 1 (nr - 1)) in *.
    rewrite (shift_gen inv_sub_shift inv_mix_columns
              (fun r s => add_round_key (round_key w r) s)) in *.
    unfold inv_sub_shift at 1. unfold inv_sub_shift at 1 in W.
    set (s1 := inv_sub_bytes _) in *.
    destruct (Hk 0%nat) as [En Wn]; [lia|]. rewrite En. cbn [bind].
    rewrite add_key_eq by (apply Wn || apply W). split; auto.
    apply add_round_key_wf; [apply Wn|apply W].
Qed.

Lemma fold_rev_inv {A B} (f g : A -> B -> A) (E : A -> A) (P : A -> Prop) l s :
  (forall s a, In a l -> P s -> P (f s a) /\ g (E (f s a)) a = E s) ->
  P s -> fold_left g (rev l) (E (fold_left f l s)) = E s.
Proof.
  revert s; induction l as [|a l IH]; intros s H Hs; cbn [fold_left rev]; auto.
  destruct (H s a) as [H1 H2]; [left; auto|auto|].
  rewrite fold_left_app. cbn [fold_left]. rewrite IH; auto.
  intros; apply H; auto. now right.
Qed.

Lemma fold_wf {A B} (f : A -> B -> A) (P : A -> Prop) l s :
  (forall s a, In a l -> P s -> P (f s a)) -> P s -> P (fold_left f l s).
Proof.
  revert s; induction l as [|a l IH]; intros s H Hs; cbn [fold_left]; auto.
  apply IH. intros; apply H; auto. now right. apply H; auto. now left.
Qed.

Lemma fips_inv_left nr w b : (1 <= nr)%nat ->
  (forall r, (r <= nr)%nat -> wf16 (round_key w r)) -> wf16 b ->
  fips_inv_cipher nr w (fips_cipher nr w b) = b.
Proof.
  intros Hnr Hk Hb. unfold fips_inv_cipher, fips_cipher.
  set (s0 := add_round_key (round_key w 0) b).
  assert (Hs0 : wf16 s0) by (apply add_round_key_wf; [apply Hk; lia|apply Hb]).
  set (f := fun s r => add_round_key (round_key w r) (mix_columns (shift_rows (sub_bytes s)))).
  assert (Hf : forall s a, In a (seq 1 (nr - 1)) -> wf16 s -> wf16 (f s a)).
  { intros s r Hr Hs. apply in_seq in Hr. apply add_round_key_wf; [apply Hk; lia|].
    now apply mix_columns_wf, shift_rows_wf, sub_bytes_wf. }
  assert (W : wf16 (fold_left f (seq 1 (nr - 1)) s0)) by now apply fold_wf.
  rewrite add_round_key_inv by now apply shift_rows_wf, sub_bytes_wf.
  rewrite (fold_rev_inv f _ (fun s => shift_rows (sub_bytes s)) wf16); auto.
  - rewrite shift_inv by now apply sub_bytes_wf. rewrite sub_inv by apply Hs0.
    apply add_round_key_inv. apply Hb.
  - intros s r Hr Hs. split; [now apply Hf|]. unfold f. apply in_seq in Hr.
    assert (Hm : wf16 (mix_columns (shift_rows (sub_bytes s))))
      by now apply mix_columns_wf, shift_rows_wf, sub_bytes_wf.
    assert (Ha : wf16 (add_round_key (round_key w r) (mix_columns (shift_rows (sub_bytes s)))))
      by (apply add_round_key_wf; [apply Hk; lia|apply Hm]).
    rewrite shift_inv by now apply sub_bytes_wf. rewrite sub_inv by apply Ha.
    rewrite add_round_key_inv by apply Hm. apply mix_inv.
    now apply shift_rows_wf, sub_bytes_wf.
Qed.

Lemma fips_inv_right nr w b : (1 <= nr)%nat ->
  (forall r, (r <= nr)%nat -> wf16 (round_key w r)) -> wf16 b ->
  fips_cipher nr w (fips_inv_cipher nr w b) = b.
Proof.
  intros Hnr Hk Hb. unfold fips_inv_cipher, fips_cipher. fold (inv_step w).
  set (s0 := add_round_key (round_key w nr) b).
  assert (Hs0 : wf16 s0) by (apply add_round_key_wf; [apply Hk; lia|apply Hb]).
  assert (Hf : forall s a, In a (rev (seq 1 (nr - 1))) -> wf16 s -> wf16 (inv_step w s a)).
  { intros s r Hr Hs. apply in_rev in Hr. apply in_seq in Hr. apply inv_mix_columns_wf.
    apply add_round_key_wf; [apply Hk; lia|].
    now apply inv_sub_bytes_wf, inv_shift_rows_wf. }
  assert (W : wf16 (fold_left (inv_step w) (rev (seq 1 (nr - 1))) s0)) by now apply fold_wf.
  rewrite add_round_key_inv by now apply inv_sub_bytes_wf, inv_shift_rows_wf.
  rewrite <- (rev_involutive (seq 1 (nr - 1))) at 1.
  rewrite (fold_rev_inv (inv_step w) _ (fun s => inv_sub_bytes (inv_shift_rows s)) wf16); auto.
  - rewrite inv_sub_inv by now apply inv_shift_rows_wf. rewrite inv_shift_inv by apply Hs0.
    apply add_round_key_inv. apply Hb.
  - intros s r Hr Hs. split; [now apply Hf|]. unfold inv_step. apply in_rev in Hr. apply in_seq in Hr.
    assert (Hm : wf16 (inv_sub_bytes (inv_shift_rows s)))
      by now apply inv_sub_bytes_wf, inv_shift_rows_wf.
    assert (Ha : wf16 (add_round_key (round_key w r) (inv_sub_bytes (inv_shift_rows s))))
      by (apply add_round_key_wf; [apply Hk; lia|apply Hm]).
    assert (Hi : wf16 (inv_mix_columns (add_round_key (round_key w r) (inv_sub_bytes (inv_shift_rows s)))))
      by now apply inv_mix_columns_wf.
    rewrite inv_sub_inv by now apply inv_shift_rows_wf. rewrite inv_shift_inv by apply Hi.
    rewrite inv_mix_inv by auto. apply add_round_key_inv. apply Hm.
Qed.
