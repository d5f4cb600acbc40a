(** * Proofs for C130: inverted bits in the stored round keys of AES *)
From Verif Require Import Base BaseLemmas ModelAes SpecAes SpecKeyFault ProofAesField ProofAes ProofAesKey ProofKeys ProofLookup.
Local Open Scope N_scope.

(** ** Two differences of the S-box determine its input *)

Definition diffs (a : N) : list N := map (fun x => N.lxor (fore (N.lxor x (2 ^ a))) (fore x)) (map N.of_nat (seq 0 256)).

Fixpoint distinct (l : list (N * N)) : bool :=
  match l with
  | [] => true
  | p :: l => forallb (fun q => negb ((fst p =? fst q) && (snd p =? snd q))) l && distinct l
  end.

Lemma distinct_nodup l : distinct l = true -> NoDup l.
Proof.
  induction l as [|p l IH]; cbn [distinct]; [constructor|]. intros H. apply andb_prop in H as [H1 H2].
  constructor; [|auto]. intros Hp. rewrite forallb_forall in H1. specialize (H1 p Hp).
  now rewrite !N.eqb_refl in H1.
Qed.

Lemma diffs_length a : length (diffs a) = 256%nat.
Proof. unfold diffs. now rewrite !map_length, seq_length. Qed.

Lemma diffs_nth a x : x < 256 -> nth (N.to_nat x) (diffs a) 0 = N.lxor (fore (N.lxor x (2 ^ a))) (fore x).
Proof.
  intros H. unfold diffs. rewrite map_map.
  rewrite (nth_indep _ 0 ((fun i => N.lxor (fore (N.lxor (N.of_nat i) (2 ^ a))) (fore (N.of_nat i))) 0%nat))
    by (rewrite map_length, seq_length; lia).
  rewrite (map_nth (fun i => N.lxor (fore (N.lxor (N.of_nat i) (2 ^ a))) (fore (N.of_nat i)))).
  rewrite seq_nth by lia. cbn [Nat.add]. now rewrite N2Nat.id.
Qed.

Definition pairs : list (N * N) :=
  flat_map (fun b => map (fun a => (N.of_nat a, N.of_nat b)) (seq 0 b)) (seq 0 8).

Lemma pairs_distinct : forallb (fun p => distinct (combine (diffs (fst p)) (diffs (snd p)))) pairs = true.
Proof. vm_compute. reflexivity. Qed.

Lemma two_diffs_lt a b x y : a < b -> b < 8 -> x < 256 -> y < 256 ->
  N.lxor (fore (N.lxor x (2 ^ a))) (fore x) = N.lxor (fore (N.lxor y (2 ^ a))) (fore y) ->
  N.lxor (fore (N.lxor x (2 ^ b))) (fore x) = N.lxor (fore (N.lxor y (2 ^ b))) (fore y) -> x = y.
Proof.
  intros Hab Hb Hx Hy E1 E2.
  assert (I : In (a, b) pairs).
  { unfold pairs. apply in_flat_map. exists (N.to_nat b). split; [apply in_seq; lia|].
    apply in_map_iff. exists (N.to_nat a). split; [now rewrite !N2Nat.id|]. apply in_seq. lia. }
  pose proof pairs_distinct as D. rewrite forallb_forall in D. apply D in I. cbn [fst snd] in I.
  apply distinct_nodup in I. rewrite (NoDup_nth _ (0, 0)) in I.
  apply N2Nat.inj. apply I; rewrite ?combine_length, ?diffs_length; try lia.
  rewrite !combine_nth by now rewrite !diffs_length. rewrite !diffs_nth by assumption. congruence.
Qed.

Lemma flip_lt x a : x < 256 -> a < 8 -> N.lxor x (2 ^ a) < 256.
Proof.
  intros Hx Ha. apply lxor_byte; [exact Hx|]. change (2 ^ a < 2 ^ 8). apply N.pow_lt_mono_r; lia.
Qed.

Lemma two_diffs a b x y : a <> b -> a < 8 -> b < 8 -> x < 256 -> y < 256 ->
  N.lxor (sub_byte (N.lxor x (2 ^ a))) (sub_byte x) = N.lxor (sub_byte (N.lxor y (2 ^ a))) (sub_byte y) ->
  N.lxor (sub_byte (N.lxor x (2 ^ b))) (sub_byte x) = N.lxor (sub_byte (N.lxor y (2 ^ b))) (sub_byte y) -> x = y.
Proof.
  intros Hab Ha Hb Hx Hy E1 E2.
  rewrite (sub_byte_fore x Hx), (sub_byte_fore y Hy), (sub_byte_fore _ (flip_lt x a Hx Ha)),
    (sub_byte_fore _ (flip_lt y a Hy Ha)) in E1.
  rewrite (sub_byte_fore x Hx), (sub_byte_fore y Hy), (sub_byte_fore _ (flip_lt x b Hx Hb)),
    (sub_byte_fore _ (flip_lt y b Hy Hb)) in E2.
  destruct (N.lt_total a b) as [L|[E|L]]; [|contradiction|].
  - exact (two_diffs_lt a b x y L Hb Hx Hy E1 E2).
  - exact (two_diffs_lt b a x y L Ha Hx Hy E2 E1).
Qed.

Lemma lxor_mid x k : N.lxor (N.lxor x k) k = x.
Proof. now rewrite N.lxor_assoc, N.lxor_nilpotent, N.lxor_0_r. Qed.

(** ** The byte of the last round key *)

Lemma fits_iff a x k0 k : a < 8 -> x < 256 -> k0 < 256 -> k < 256 ->
  fits a (N.lxor (sub_byte x) k0) (N.lxor (sub_byte (N.lxor x (2 ^ a))) k0) k = true <->
  let y := inv_sub_byte (N.lxor (N.lxor (sub_byte x) k0) k) in
  N.lxor (sub_byte (N.lxor y (2 ^ a))) (sub_byte y) = N.lxor (sub_byte (N.lxor x (2 ^ a))) (sub_byte x).
Proof.
  intros Ha Hx H0 Hk. cbv zeta. unfold fits. rewrite N.eqb_eq.
  rewrite (sub_inv_sub (N.lxor (N.lxor (sub_byte x) k0) k))
    by (repeat apply lxor_byte; auto using sub_byte_lt).
  set (u := sub_byte (N.lxor (inv_sub_byte _) _)). set (v := sub_byte (N.lxor x (2 ^ a))). set (s := sub_byte x).
  clearbody u v s. split; intros E.
  - assert (F : u = N.lxor (N.lxor v k0) k) by (rewrite <- E; symmetry; apply lxor_mid).
    rewrite F. apply N.bits_inj. intros i. rewrite !N.lxor_spec.
    now destruct (N.testbit v i), (N.testbit s i), (N.testbit k i), (N.testbit k0 i).
  - assert (F : u = N.lxor (N.lxor v s) (N.lxor (N.lxor s k0) k)) by (rewrite <- E; symmetry; apply lxor_mid).
    rewrite F. apply N.bits_inj. intros i. rewrite !N.lxor_spec.
    now destruct (N.testbit v i), (N.testbit s i), (N.testbit k i), (N.testbit k0 i).
Qed.

Lemma fitting_eq a b x k : a <> b -> a < 8 -> b < 8 -> x < 256 -> k < 256 ->
  fitting a b (N.lxor (sub_byte x) k) (N.lxor (sub_byte (N.lxor x (2 ^ a))) k)
    (N.lxor (sub_byte (N.lxor x (2 ^ b))) k) = k.
Proof.
  intros Hab Ha Hb Hx Hk. unfold fitting. destruct (find _ _) as [k'|] eqn:F.
  - apply find_some in F as [I F]. apply andb_prop in F as [F1 F2].
    assert (Hk' : k' < 256). { apply in_map_iff in I as (n & <- & I). apply in_seq in I. lia. }
    apply fits_iff in F1; auto. apply fits_iff in F2; auto. cbv zeta in F1, F2.
    assert (By : N.lxor (N.lxor (sub_byte x) k) k' < 256)
      by (repeat apply lxor_byte; auto using sub_byte_lt).
    pose proof (inv_sub_byte_lt _ By) as Ly.
    pose proof (two_diffs a b _ x Hab Ha Hb Ly Hx F1 F2) as E.
    apply (f_equal sub_byte) in E. rewrite sub_inv_sub in E by exact By.
    apply (f_equal (N.lxor (sub_byte x))) in E. rewrite N.lxor_nilpotent in E.
    rewrite <- !N.lxor_assoc, N.lxor_nilpotent, N.lxor_0_l in E. now apply N.lxor_eq in E.
  - exfalso.
    assert (I : In k SpecAes.all_bytes).
    { apply in_map_iff. exists (N.to_nat k). split; [apply N2Nat.id|]. apply in_seq. lia. }
    pose proof (find_none _ _ F k I) as X. cbv beta in X.
    assert (T : forall a, a < 8 -> fits a (N.lxor (sub_byte x) k) (N.lxor (sub_byte (N.lxor x (2 ^ a))) k) k = true).
    { intros a' Ha'. apply fits_iff; auto. cbv zeta. rewrite lxor_mid, inv_sub_sub by exact Hx. reflexivity. }
    now rewrite !T in X by assumption.
Qed.

(** ** The last two rounds *)

Definition before_last (nr : nat) (w : list (list N)) (b : list N) : list N :=
  mix_columns (shift_rows (sub_bytes (fold_left (fun s r =>
    add_round_key (round_key w r) (mix_columns (shift_rows (sub_bytes s))))
    (seq 1 (nr - 2)) (add_round_key (round_key w 0) b)))).

Lemma cipher_last nr w b : (2 <= nr)%nat -> fips_cipher nr w b =
  add_round_key (round_key w nr) (shift_rows (sub_bytes (add_round_key (round_key w (nr - 1)) (before_last nr w b)))).
Proof.
  intros H. unfold fips_cipher, before_last. replace (nr - 1)%nat with (nr - 2 + 1)%nat at 1 by lia.
  rewrite seq_app, fold_left_app. replace (1 + (nr - 2))%nat with (nr - 1)%nat by lia. reflexivity.
Qed.

Lemma fold_same {A} (f g : A -> nat -> A) l s : (forall s r, In r l -> f s r = g s r) ->
  fold_left f l s = fold_left g l s.
Proof.
  revert s. induction l as [|r l IH]; intros s H; [reflexivity|]. cbn [fold_left].
  rewrite H by (left; reflexivity). apply IH. intros. apply H. now right.
Qed.

Lemma before_last_same nr w w' b : (2 <= nr)%nat ->
  (forall r, (r < nr - 1)%nat -> round_key w r = round_key w' r) -> before_last nr w b = before_last nr w' b.
Proof.
  intros Hn H. unfold before_last. rewrite (H 0%nat) by lia.
  apply (f_equal (fun s => mix_columns (shift_rows (sub_bytes s)))).
  apply fold_same. intros s r I. apply in_seq in I. now rewrite H by lia.
Qed.

Lemma before_last_wf nr w b : (2 <= nr)%nat -> (forall r, (r <= nr)%nat -> wf16 (round_key w r)) -> wf16 b ->
  wf16 (before_last nr w b).
Proof.
  intros Hn H Hb. unfold before_last. apply mix_columns_wf, shift_rows_wf, sub_bytes_wf.
  apply (fold_wf _ wf16).
  - intros s r I Hs. apply in_seq in I. apply add_round_key_wf; [apply H; lia|].
    apply mix_columns_wf, shift_rows_wf, sub_bytes_wf, Hs.
  - apply add_round_key_wf; [apply H; lia|apply Hb].
Qed.

Lemma nth_16 (f : nat -> N) i : (i < 16)%nat -> nth i (map f (seq 0 16)) 0 = f i.
Proof.
  intros H. rewrite (nth_indep _ 0 (f 0%nat)) by (rewrite map_length, seq_length; lia).
  rewrite map_nth, seq_nth by lia. reflexivity.
Qed.

Lemma nth_add k s i : (i < 16)%nat -> nth i (add_round_key k s) 0 = N.lxor (nth i s 0) (nth i k 0).
Proof. intros H. unfold add_round_key. now rewrite nth_16. Qed.

Lemma source_lt i : (source i < 16)%nat.
Proof. unfold source. lia. Qed.

Lemma nth_shift s i : (i < 16)%nat -> nth i (shift_rows s) 0 = nth (source i) s 0.
Proof. intros H. unfold shift_rows, make_state. rewrite nth_16 by exact H. reflexivity. Qed.

Lemma nth_sub s i : (i < length s)%nat -> nth i (sub_bytes s) 0 = sub_byte (nth i s 0).
Proof.
  intros H. unfold sub_bytes. rewrite (nth_indep _ 0 (sub_byte 0)) by now rewrite map_length.
  apply map_nth.
Qed.

Lemma cipher_byte nr w b i : (2 <= nr)%nat -> (i < 16)%nat ->
  nth i (fips_cipher nr w b) 0 =
  N.lxor (sub_byte (N.lxor (nth (source i) (before_last nr w b) 0) (nth (source i) (round_key w (nr - 1)) 0)))
         (nth i (round_key w nr) 0).
Proof.
  intros Hn Hi. rewrite cipher_last by exact Hn. rewrite nth_add, nth_shift by exact Hi.
  pose proof (source_lt i) as Hs.
  rewrite nth_sub by (unfold add_round_key; rewrite map_length, seq_length; exact Hs).
  now rewrite nth_add by exact Hs.
Qed.

(** ** Any sixteen-byte lists are the round keys of some words *)

Definition words_of (keys : list (list N)) : list (list N) :=
  flat_map (fun k => map (fun i => firstn 4 (skipn (4 * i) k)) (seq 0 4)) keys.

Lemma words_of_round keys : forall r, Forall (fun k => length k = 16%nat) keys -> (r < length keys)%nat ->
  round_key (words_of keys) r = nth r keys [].
Proof.
  induction keys as [|k keys IH]; intros r H L; [cbn [length] in L; lia|].
  apply Forall_cons_iff in H as [Hk H]. destruct r as [|r].
  - unfold round_key, words_of. cbn [flat_map map seq]. rewrite Nat.mul_0_r.
    des16 k Hk. reflexivity.
  - cbn [nth]. rewrite <- IH by (auto; cbn [length] in L; lia).
    unfold round_key. f_equal. f_equal. replace (4 * S r)%nat with (4 + 4 * r)%nat by lia.
    unfold words_of. cbn [flat_map map seq app]. reflexivity.
Qed.

Lemma invert_length l j a : length (invert_bit l j a) = length l.
Proof. unfold invert_bit. now rewrite map_length, seq_length. Qed.

Lemma invert_nth l j a i : (i < length l)%nat ->
  nth i (invert_bit l j a) 0 = if (i =? j)%nat then N.lxor (nth i l 0) (2 ^ a) else nth i l 0.
Proof.
  intros H. unfold invert_bit.
  set (f := fun i => if (i =? j)%nat then N.lxor (nth i l 0) (2 ^ a) else nth i l 0).
  rewrite (nth_indep _ 0 (f 0%nat)) by (rewrite map_length, seq_length; lia).
  rewrite map_nth, seq_nth by lia. reflexivity.
Qed.

Lemma invert_bytes l j a : a < 8 -> bytes l -> bytes (invert_bit l j a).
Proof.
  intros Ha Hl. apply Forall_forall. intros x Hx. unfold invert_bit in Hx.
  apply in_map_iff in Hx as (i & <- & _). pose proof (nth_lt l i Hl) as L.
  destruct (i =? j)%nat; [now apply flip_lt|exact L].
Qed.

Lemma invert_keys_nth keys r j a i : (i < length keys)%nat ->
  nth i (invert_key_bit keys r j a) [] = if (i =? r)%nat then invert_bit (nth i keys []) j a else nth i keys [].
Proof.
  intros H. unfold invert_key_bit.
  set (f := fun i => if (i =? r)%nat then invert_bit (nth i keys []) j a else nth i keys []).
  rewrite (nth_indep _ [] (f 0%nat)) by (rewrite map_length, seq_length; lia).
  rewrite map_nth, seq_nth by lia. reflexivity.
Qed.

Lemma invert_keys_length keys r j a : length (invert_key_bit keys r j a) = length keys.
Proof. unfold invert_key_bit. now rewrite map_length, seq_length. Qed.

Section Keys.
  Context (nr : nat) (w keys : list (list N)) (Hnr : (2 <= nr)%nat) (K : keys_ok nr w keys)
    (L : length keys = S nr).

  Lemma keys_nth r : (r <= nr)%nat -> nth r keys [] = round_key w r.
  Proof using K L.
    clear Hnr. intros H. destruct (K r H) as [E _]. rewrite (idx_nth _ r []) in E by lia. now injection E.
  Qed.

  Lemma faulty_ok j a : a < 8 ->
    keys_ok nr (words_of (invert_key_bit keys (nr - 1) j a)) (invert_key_bit keys (nr - 1) j a).
  Proof using K L.
    clear Hnr. intros Ha r Hr.
    assert (F : Forall (fun k => length k = 16%nat) (invert_key_bit keys (nr - 1) j a)).
    { apply Forall_nth. intros i d Hi. rewrite invert_keys_length in Hi.
      rewrite (nth_indep _ d []) by now rewrite invert_keys_length.
      rewrite invert_keys_nth, keys_nth by lia. pose proof (K i ltac:(lia)) as [_ [W _]].
      destruct (_ =? _)%nat; [now rewrite invert_length|exact W]. }
    rewrite words_of_round by (auto; rewrite invert_keys_length; lia). split.
    - apply idx_nth. rewrite invert_keys_length. lia.
    - rewrite invert_keys_nth, keys_nth by lia. destruct (K r Hr) as [_ [W1 W2]].
      destruct (_ =? _)%nat; [|now split]. split; [now rewrite invert_length|now apply invert_bytes].
  Qed.

  Lemma faulty_round j a r : a < 8 -> (r <= nr)%nat ->
    round_key (words_of (invert_key_bit keys (nr - 1) j a)) r =
    if (r =? nr - 1)%nat then invert_bit (round_key w r) j a else round_key w r.
  Proof using K L.
    clear Hnr. intros Ha Hr. destruct (faulty_ok j a Ha r Hr) as [E _].
    rewrite (idx_nth _ r []) in E by (rewrite invert_keys_length; lia). injection E as <-.
    now rewrite invert_keys_nth, keys_nth by lia.
  Qed.

  Lemma faulty_byte b j a i c : a < 8 -> wf16 b -> (i < 16)%nat -> source i = j ->
    aes_encrypt {| aes_keys := invert_key_bit keys (nr - 1) j a; aes_rounds := nr |} b = Ok c ->
    nth i c 0 = N.lxor (sub_byte (N.lxor (N.lxor (nth j (before_last nr w b) 0) (nth j (round_key w (nr - 1)) 0)) (2 ^ a)))
      (nth i (round_key w nr) 0).
  Proof using K L Hnr.
    intros Ha Hb Hi Hj E.
    destruct (aes_encrypt_eq nr _ _ b ltac:(lia) (faulty_ok j a Ha) Hb) as [E' _].
    rewrite E' in E. injection E as <-. rewrite cipher_byte by auto.
    rewrite !faulty_round by (auto; lia). rewrite Nat.eqb_refl.
    rewrite (proj2 (Nat.eqb_neq nr (nr - 1))) by lia.
    rewrite (before_last_same nr _ w) by
      (auto; intros r Hr; rewrite faulty_round by (auto; lia); now rewrite (proj2 (Nat.eqb_neq r (nr - 1))) by lia).
    rewrite Hj. destruct (K (nr - 1)%nat ltac:(lia)) as [_ [W _]].
    rewrite invert_nth by (rewrite W, <- Hj; apply source_lt).
    rewrite Nat.eqb_refl, <- N.lxor_assoc. reflexivity.
  Qed.

  Lemma last_key_eq b (a1 a2 : nat -> N) c f g : wf16 b ->
    (forall j, (j < 16)%nat -> a1 j < 8 /\ a2 j < 8 /\ a1 j <> a2 j) ->
    aes_encrypt {| aes_keys := keys; aes_rounds := nr |} b = Ok c ->
    (forall j, (j < 16)%nat ->
      aes_encrypt {| aes_keys := invert_key_bit keys (nr - 1) j (a1 j); aes_rounds := nr |} b = Ok (f j) /\
      aes_encrypt {| aes_keys := invert_key_bit keys (nr - 1) j (a2 j); aes_rounds := nr |} b = Ok (g j)) ->
    last_key a1 a2 c f g = round_key w nr.
  Proof using K L Hnr.
    intros Hb Ha E F. destruct (K nr ltac:(lia)) as [_ [W W']].
    apply (list_ext 0); [unfold last_key; rewrite map_length, seq_length; congruence|].
    intros i Hi. unfold last_key in *. rewrite map_length, seq_length in Hi.
    rewrite nth_16 by exact Hi. cbv zeta.
    pose proof (source_lt i) as Hs. destruct (Ha _ Hs) as (A1 & A2 & A). destruct (F _ Hs) as [F1 F2].
    rewrite (faulty_byte b _ _ i _ A1 Hb Hi eq_refl F1), (faulty_byte b _ _ i _ A2 Hb Hi eq_refl F2).
    destruct (aes_encrypt_eq nr w keys b ltac:(lia) K Hb) as [E' _]. rewrite E' in E. injection E as <-.
    rewrite cipher_byte by auto. apply fitting_eq; auto.
    - destruct (K (nr - 1)%nat ltac:(lia)) as [_ [_ B]].
      assert (BL : wf16 (before_last nr w b)) by (apply before_last_wf; auto; intros r Hr; apply K, Hr).
      apply lxor_byte; apply nth_lt; [apply BL|exact B].
    - apply nth_lt, W'.
  Qed.
End Keys.

(** ** Back to the key of AES-128 *)

Lemma nth4 (l : list (list N)) r i : (i < 4)%nat -> nth i (firstn 4 (skipn (4 * r) l)) [] = nth (4 * r + i) l [].
Proof. intros H. now rewrite nth_firstn', nth_skipn' by lia. Qed.

Lemma round_key_4 w r : (4 * r + 4 <= length w)%nat ->
  round_key w r = nth (4 * r) w [] ++ nth (4 * r + 1) w [] ++ nth (4 * r + 2) w [] ++ nth (4 * r + 3) w [].
Proof.
  intros H. unfold round_key. destruct (list4_firstn w r H) as (a & b & c & d & E).
  rewrite <- (Nat.add_0_r (4 * r)) at 2. rewrite <- !nth4, E by lia. cbn [concat nth]. now rewrite app_nil_r.
Qed.

Lemma xor_word_undo a t : length a = 4%nat -> xor_word (xor_word a t) t = a.
Proof.
  intros L. des4 a L. unfold xor_word. cbn [map seq nth]. now rewrite !lxor_mid.
Qed.

Lemma key_before_eq a b c d a' b' c' d' r : length a = 4%nat -> length b = 4%nat -> length c = 4%nat -> length d = 4%nat ->
  a' = xor_word a (xor_word (sub_word (rot_word d)) (rcon r)) -> b' = xor_word b a' -> c' = xor_word c b' -> d' = xor_word d c' ->
  key_before r (a' ++ b' ++ c' ++ d') = a ++ b ++ c ++ d.
Proof.
  intros La Lb Lc Ld Ea Eb Ec Ed.
  assert (X : forall x y, length (xor_word x y) = 4%nat) by reflexivity.
  assert (La' : length a' = 4%nat) by (subst a'; apply X).
  assert (Lb' : length b' = 4%nat) by (subst b'; apply X).
  assert (Lc' : length c' = 4%nat) by (subst c'; apply X).
  assert (Ld' : length d' = 4%nat) by (subst d'; apply X).
  unfold key_before. cbv zeta.
  assert (W0 : firstn 4 (skipn (4 * 0) (a' ++ b' ++ c' ++ d')) = a').
  { clear - La'. des4 a' La'. reflexivity. }
  assert (W1 : firstn 4 (skipn (4 * 1) (a' ++ b' ++ c' ++ d')) = b').
  { clear - La' Lb'. des4 a' La'. des4 b' Lb'. reflexivity. }
  assert (W2 : firstn 4 (skipn (4 * 2) (a' ++ b' ++ c' ++ d')) = c').
  { clear - La' Lb' Lc'. des4 a' La'. des4 b' Lb'. des4 c' Lc'. reflexivity. }
  assert (W3 : firstn 4 (skipn (4 * 3) (a' ++ b' ++ c' ++ d')) = d').
  { clear - La' Lb' Lc' Ld'. des4 a' La'. des4 b' Lb'. des4 c' Lc'. des4 d' Ld'. reflexivity. }
  rewrite W0, W1, W2, W3. clear W0 W1 W2 W3.
  assert (V3 : xor_word d' c' = d) by (rewrite Ed; now apply xor_word_undo).
  assert (V2 : xor_word c' b' = c) by (rewrite Ec; now apply xor_word_undo).
  assert (V1 : xor_word b' a' = b) by (rewrite Eb; now apply xor_word_undo).
  rewrite V3, V2, V1. f_equal. rewrite Ea. now apply xor_word_undo.
Qed.

Section Back.
  Context (key : list N) (n : nat) (L : length key = 16%nat) (B : bytes key).

  Lemma key_before_round r : (4 * r + 8 <= n)%nat ->
    key_before (S r) (round_key (key_words 4 key n) (S r)) = round_key (key_words 4 key n) r.
  Proof using L B.
    intros H. rewrite !round_key_4 by (rewrite key_words_length; lia).
    assert (M : forall i, (i < n)%nat -> length (nth i (key_words 4 key n) []) = 4%nat)
      by (intros i Hi; apply kw_length4; auto; lia).
    pose proof (key_words_step 4 key n) as S4.
    apply key_before_eq; try (apply M; lia).
    - rewrite (S4 (4 * S r)%nat) by lia. unfold next_temp.
      replace ((4 * S r) mod 4)%nat with 0%nat by lia. cbn [Nat.eqb].
      replace (4 * S r / 4)%nat with (S r) by lia.
      replace (4 * S r - 4)%nat with (4 * r)%nat by lia.
      replace (4 * S r - 1)%nat with (4 * r + 3)%nat by lia. reflexivity.
    - rewrite (S4 (4 * S r + 1)%nat) by lia. unfold next_temp.
      replace ((4 * S r + 1) mod 4)%nat with 1%nat by lia. cbn [Nat.eqb Nat.ltb Nat.leb andb].
      replace (4 * S r + 1 - 4)%nat with (4 * r + 1)%nat by lia.
      replace (4 * S r + 1 - 1)%nat with (4 * S r)%nat by lia. reflexivity.
    - rewrite (S4 (4 * S r + 2)%nat) by lia. unfold next_temp.
      replace ((4 * S r + 2) mod 4)%nat with 2%nat by lia. cbn [Nat.eqb Nat.ltb Nat.leb andb].
      replace (4 * S r + 2 - 4)%nat with (4 * r + 2)%nat by lia.
      replace (4 * S r + 2 - 1)%nat with (4 * S r + 1)%nat by lia. reflexivity.
    - rewrite (S4 (4 * S r + 3)%nat) by lia. unfold next_temp.
      replace ((4 * S r + 3) mod 4)%nat with 3%nat by lia. cbn [Nat.eqb Nat.ltb Nat.leb andb].
      replace (4 * S r + 3 - 4)%nat with (4 * r + 3)%nat by lia.
      replace (4 * S r + 3 - 1)%nat with (4 * S r + 2)%nat by lia. reflexivity.
  Qed.

  Lemma first_key_round r : (4 * r + 4 <= n)%nat ->
    first_key r (round_key (key_words 4 key n) r) = key.
  Proof using L B.
    induction r as [|r IH]; intros H; cbn [first_key].
    - unfold round_key. rewrite Nat.mul_0_r, skipn_O. apply (key_words_front 4); auto; lia.
    - rewrite key_before_round by lia. apply IH. lia.
  Qed.
End Back.

(** ** The three key sizes *)

Lemma fault_last_key nk key block cipher (a b : nat -> N) c f g :
  nk = 4%nat \/ nk = 6%nat \/ nk = 8%nat -> length key = (4 * nk)%nat -> bytes key ->
  length block = 16%nat -> bytes block ->
  (forall j, (j < 16)%nat -> a j < 8 /\ b j < 8 /\ a j <> b j) ->
  aes_make nk key = Ok cipher -> aes_encrypt cipher block = Ok c ->
  (forall j, (j < 16)%nat ->
    aes_encrypt {| aes_keys := invert_key_bit (aes_keys cipher) (nk + 5) j (a j); aes_rounds := aes_rounds cipher |} block = Ok (f j) /\
    aes_encrypt {| aes_keys := invert_key_bit (aes_keys cipher) (nk + 5) j (b j); aes_rounds := aes_rounds cipher |} block = Ok (g j)) ->
  last_key a b c f g = nth (nk + 6) (aes_keys cipher) [] /\
  nth (nk + 6) (aes_keys cipher) [] = round_key (key_words nk key (4 * (nk + 7))) (nk + 6).
Proof.
  intros Hnk Lk Bk Lb Bb Hab M E F.
  destruct (aes_make_ok nk key Hnk Lk Bk) as (keys & M' & LK & K). rewrite M' in M. injection M as <-.
  cbn [aes_keys aes_rounds] in *.
  rewrite (keys_nth (nk + 6) (key_words nk key (4 * (nk + 7))) keys K) by lia. split; [|reflexivity].
  apply (last_key_eq (nk + 6) _ keys ltac:(lia) K ltac:(lia) block); auto; [now split|].
  replace (nk + 6 - 1)%nat with (nk + 5)%nat by lia. exact F.
Qed.

Lemma fault_key key block cipher (a b : nat -> N) c f g :
  length key = 16%nat -> bytes key -> length block = 16%nat -> bytes block ->
  (forall j, (j < 16)%nat -> a j < 8 /\ b j < 8 /\ a j <> b j) ->
  with_128_bit_key key = Ok cipher -> aes_encrypt cipher block = Ok c ->
  (forall j, (j < 16)%nat ->
    aes_encrypt {| aes_keys := invert_key_bit (aes_keys cipher) 9 j (a j); aes_rounds := aes_rounds cipher |} block = Ok (f j) /\
    aes_encrypt {| aes_keys := invert_key_bit (aes_keys cipher) 9 j (b j); aes_rounds := aes_rounds cipher |} block = Ok (g j)) ->
  first_key 10 (last_key a b c f g) = key.
Proof.
  intros Lk Bk Lb Bb Hab M E F.
  destruct (fault_last_key 4 key block cipher a b c f g ltac:(auto) Lk Bk Lb Bb Hab M E F) as [-> ->].
  now apply first_key_round.
Qed.

(** One inverted bit leaves another candidate. *)
Lemma one_fault a x k : a < 8 -> x < 256 -> k < 256 -> exists k', k' < 256 /\ k' <> k /\
  fits a (N.lxor (sub_byte x) k) (N.lxor (sub_byte (N.lxor x (2 ^ a))) k) k = true /\
  fits a (N.lxor (sub_byte x) k) (N.lxor (sub_byte (N.lxor x (2 ^ a))) k) k' = true.
Proof.
  intros Ha Hx Hk. pose proof (flip_lt x a Hx Ha) as Hf.
  pose proof (sub_byte_lt x Hx) as S1. pose proof (sub_byte_lt _ Hf) as S2.
  set (k' := N.lxor (N.lxor (sub_byte x) k) (sub_byte (N.lxor x (2 ^ a)))).
  assert (L : k' < 256) by (repeat apply lxor_byte; assumption).
  assert (Y : N.lxor (N.lxor (sub_byte x) k) k' = sub_byte (N.lxor x (2 ^ a))).
  { unfold k'. now rewrite <- N.lxor_assoc, N.lxor_nilpotent, N.lxor_0_l. }
  exists k'. split; [exact L|]. split; [|split].
  - intros E. rewrite E, lxor_mid in Y. apply (f_equal inv_sub_byte) in Y.
    rewrite (inv_sub_sub x Hx), (inv_sub_sub _ Hf) in Y.
    apply (f_equal (N.lxor x)) in Y. rewrite N.lxor_nilpotent, <- N.lxor_assoc, N.lxor_nilpotent, N.lxor_0_l in Y.
    pose proof (N.pow_nonzero 2 a ltac:(discriminate)). congruence.
  - apply fits_iff; auto. cbv zeta. now rewrite lxor_mid, (inv_sub_sub x Hx).
  - apply fits_iff; auto. cbv zeta. rewrite Y, (inv_sub_sub _ Hf), lxor_mid. apply N.lxor_comm.
Qed.
