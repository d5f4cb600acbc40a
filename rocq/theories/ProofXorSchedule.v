(** * The message schedule of SHA-1 is linear *)
From Verif Require Import Base BaseLemmas SpecWord SpecEndian SpecBlock SpecSha SpecSchedule ModelSha ProofEndian ProofSha ProofBlock ProofMsg ProofSchedule ProofBase64.
From Coq Require Import ZifyBool ZifyNat ZifyN.
Ltac Zify.zify_post_hook ::= idtac.
Local Open Scope N_scope.

Lemma shift_add v x k : x < 2 ^ k -> v * 2 ^ k + x = N.lxor (N.shiftl v k) x.
Proof.
  intros H. rewrite N.shiftl_mul_pow2. apply N.add_nocarry_lxor.
  apply N.bits_inj. intros i. rewrite N.land_spec, N.bits_0.
  destruct (N.lt_ge_cases i k) as [L|L].
  - now rewrite N.mul_pow2_bits_low.
  - rewrite Bool.andb_comm. replace (N.testbit x i) with false; [reflexivity|]. symmetry.
    destruct (N.eq_0_gt_0_cases x) as [->|Hx]; [apply N.bits_0|].
    apply N.bits_above_log2. apply N.log2_lt_pow2; [exact Hx|]. apply N.lt_le_trans with (2 ^ k); [exact H|]. apply N.pow_le_mono_r; [discriminate|exact L].
Qed.

Lemma lxor_small a b k : a < 2 ^ k -> b < 2 ^ k -> N.lxor a b < 2 ^ k.
Proof.
  intros Ha Hb. rewrite <- (N.mod_small a (2 ^ k) Ha), <- (N.mod_small b (2 ^ k) Hb). rewrite <- !N.land_ones.
  replace (N.lxor (N.land a (N.ones k)) (N.land b (N.ones k))) with (N.land (N.lxor a b) (N.ones k)).
  - rewrite N.land_ones. apply N.mod_lt. now apply N.pow_nonzero.
  - apply N.bits_inj. intros i. rewrite N.land_spec, !N.lxor_spec, !N.land_spec.
    destruct (N.testbit a i), (N.testbit b i), (N.testbit (N.ones k) i); reflexivity.
Qed.

Lemma be_num_lxor l : forall l' v v', length l = length l' -> bytes l -> bytes l' ->
  fold_left (fun acc b => acc * 256 + b) (xor_bytes l l') (N.lxor v v') =
  N.lxor (fold_left (fun acc b => acc * 256 + b) l v) (fold_left (fun acc b => acc * 256 + b) l' v').
Proof.
  induction l as [|x l IH]; intros [|x' l'] v v' L B B'; try discriminate L; [reflexivity|].
  inversion B as [|? ? Hx Bl]; inversion B' as [|? ? Hx' Bl']; subst. cbn [xor_bytes fold_left]. rewrite <- IH; auto.
  f_equal. change 256 with (2 ^ 8). unfold byte in *. rewrite !shift_add; [| | |apply lxor_small]; try assumption.
  rewrite N.shiftl_lxor, !N.lxor_assoc. f_equal. rewrite <- !N.lxor_assoc. f_equal. apply N.lxor_comm.
Qed.

Lemma be_num_xor l l' : length l = length l' -> bytes l -> bytes l' ->
  be_num (xor_bytes l l') = N.lxor (be_num l) (be_num l').
Proof. intros L B B'. unfold be_num. rewrite <- be_num_lxor by assumption. now rewrite N.lxor_0_r. Qed.

Lemma xor_bytes_snoc a : forall b x y, length a = length b -> xor_bytes (a ++ [x]) (b ++ [y]) = xor_bytes a b ++ [N.lxor x y].
Proof. induction a as [|u a IH]; intros [|v b] x y L; try discriminate L; [reflexivity|]. cbn [xor_bytes app]. now rewrite IH by (injection L; auto). Qed.

Lemma xor_bytes_app' a : forall b c d, length a = length b -> xor_bytes (a ++ c) (b ++ d) = xor_bytes a b ++ xor_bytes c d.
Proof. induction a as [|u a IH]; intros [|v b] c d L; try discriminate L; [reflexivity|]. cbn [xor_bytes app]. now rewrite IH by (injection L; auto). Qed.

Lemma xor_bytes_nth' a : forall b i, length a = length b -> nth i (xor_bytes a b) 0 = N.lxor (nth i a 0) (nth i b 0).
Proof.
  induction a as [|x a IH]; intros [|y b] [|i] L; try discriminate L; try reflexivity.
  cbn [xor_bytes nth]. apply IH. injection L; auto.
Qed.

(** Blocks of words. *)
Lemma words_xor q k : forall b b', (0 < k)%nat -> length b = (q * k)%nat -> length b' = (q * k)%nat -> bytes b -> bytes b' ->
  map be_num (groups k (xor_bytes b b')) = xor_bytes (map be_num (groups k b)) (map be_num (groups k b')).
Proof.
  induction q as [|q IH]; intros b b' Hk L L' B B'.
  - destruct b, b'; try discriminate. cbn [xor_bytes]. unfold groups. cbn [length]. now rewrite Nat.div_0_l by lia.
  - rewrite <- (firstn_skipn k b), <- (firstn_skipn k b').
    assert (F : length (firstn k b) = k) by (rewrite firstn_length; lia).
    assert (F' : length (firstn k b') = k) by (rewrite firstn_length; lia).
    rewrite xor_bytes_app' by congruence.
    rewrite !groups_cons; auto; [|rewrite xor_bytes_length; congruence].
    cbn [map]. rewrite IH; auto; try (rewrite skipn_length; lia); try now apply Forall_skipn.
    cbn [xor_bytes]. f_equal. apply be_num_xor; [congruence|now apply Forall_firstn|now apply Forall_firstn].
Qed.

Lemma rol_lxor a b : a < 2 ^ 32 -> b < 2 ^ 32 -> rol 32 (N.lxor a b) 1 = N.lxor (rol 32 a 1) (rol 32 b 1).
Proof.
  intros Ha Hb.
  assert (R : forall x, x < 2 ^ 32 -> rol 32 x 1 = N.lxor (N.land (N.shiftl x 1) (N.ones 32)) (N.shiftr x 31)).
  { intros x Hx. unfold rol. change (1 mod 32) with 1. change (32 - 1) with 31.
    rewrite N.land_ones, N.shiftl_mul_pow2, N.shiftr_div_pow2.
    assert (S1 : x / 2 ^ 31 < 2 ^ 1). { apply N.div_lt_upper_bound; [discriminate|]. exact Hx. }
    replace ((x * 2 ^ 1) mod 2 ^ 32) with ((x mod 2 ^ 31) * 2 ^ 1).
    2:{ change (2 ^ 32) with (2 ^ 31 * 2 ^ 1). rewrite N.mul_mod_distr_r by discriminate. reflexivity. }
    rewrite shift_add by exact S1. now rewrite N.shiftl_mul_pow2. }
  rewrite !R by auto using lxor_small. rewrite N.shiftl_lxor, N.shiftr_lxor.
  apply N.bits_inj. intros i. rewrite !N.lxor_spec, !N.land_spec, !N.lxor_spec.
  destruct (N.testbit (N.shiftl a 1) i), (N.testbit (N.shiftl b 1) i), (N.testbit (N.ones 32) i),
    (N.testbit (N.shiftr a 31) i), (N.testbit (N.shiftr b 31) i); reflexivity.
Qed.

Lemma sha1_schedule_words n b : length b = 64%nat -> bytes b ->
  length (sha1_schedule n b) = (16 + n)%nat /\ Forall (fun v => v < 2 ^ 32) (sha1_schedule n b).
Proof.
  intros L B. induction n as [|n (IL & IF)]; cbn [sha1_schedule].
  - exact (block_words_ok 4 b ltac:(lia) L B).
  - split; [rewrite app_length, IL; cbn [length]; lia|]. apply Forall_app. split; [exact IF|]. constructor; [|constructor].
    apply sha1_good; [exact IF|lia].
Qed.

Lemma sha1_linear n b b' : length b = 64%nat -> length b' = 64%nat -> bytes b -> bytes b' ->
  sha1_schedule n (xor_bytes b b') = xor_bytes (sha1_schedule n b) (sha1_schedule n b').
Proof.
  intros L L' B B'. induction n as [|n IH]; cbn [sha1_schedule].
  - apply (words_xor 16 4); auto.
  - destruct (sha1_schedule_words n b L B) as (Ln & F). destruct (sha1_schedule_words n b' L' B') as (Ln' & F').
    rewrite IH, xor_bytes_snoc by congruence. f_equal. f_equal. unfold sha1_expand.
    rewrite (xor_bytes_length (sha1_schedule n b) (sha1_schedule n b')) by congruence. rewrite <- Ln' in Ln. rewrite <- Ln. clear Ln'.
    set (t := length (sha1_schedule n b)). rewrite !xor_bytes_nth' by congruence.
    rewrite <- rol_lxor by (repeat apply lxor_small; now apply nth_word). f_equal.
    apply N.bits_inj. intros i. rewrite !N.lxor_spec.
    repeat match goal with |- context [N.testbit ?x i] => destruct (N.testbit x i) end; reflexivity.
Qed.

(** The difference of two schedules is the schedule of the difference. *)
Lemma sha1_difference n b d : length b = 64%nat -> length d = 64%nat -> bytes b -> bytes d ->
  xor_bytes (sha1_schedule n b) (sha1_schedule n (xor_bytes b d)) = sha1_schedule n d.
Proof.
  intros L L' B B'. rewrite sha1_linear by assumption. apply xor_bytes_involutive.
  destruct (sha1_schedule_words n b L B) as (Ln & _). destruct (sha1_schedule_words n d L' B') as (Ln' & _). congruence.
Qed.

Lemma sha1_difference_count b d : length b = 64%nat -> length d = 64%nat -> bytes b -> bytes d ->
  word_differences 80 (sha1_schedule 64 b) (sha1_schedule 64 (xor_bytes b d)) =
  length (filter (fun t => negb (nth t (sha1_schedule 64 d) 0 =? 0)) (seq 0 80)).
Proof.
  intros L L' B B'. unfold word_differences. f_equal. apply filter_ext. intros t.
  rewrite <- (sha1_difference 64 b d) by assumption.
  assert (Lx : length (xor_bytes b d) = 64%nat) by (rewrite xor_bytes_length; congruence).
  destruct (sha1_schedule_words 64 b L B) as (Ln & _).
  destruct (sha1_schedule_words 64 (xor_bytes b d) Lx (xor_bytes_bytes _ _ B B')) as (Ln' & _).
  rewrite xor_bytes_nth' by congruence.
  destruct (N.eqb_spec (nth t (sha1_schedule 64 b) 0) (nth t (sha1_schedule 64 (xor_bytes b d)) 0)) as [E|E].
  - rewrite E, N.lxor_nilpotent. reflexivity.
  - destruct (N.eqb_spec (N.lxor (nth t (sha1_schedule 64 b) 0) (nth t (sha1_schedule 64 (xor_bytes b d)) 0)) 0) as [Z0|]; [|reflexivity].
    apply N.lxor_eq in Z0. contradiction.
Qed.

Lemma sha1_code_difference h b d : length h = 5%nat -> words 32 h -> length b = 64%nat -> length d = 64%nat -> bytes b -> bytes d ->
  sha1_process_chunk h (xor_bytes b d) = Ok (sha1_from_words (xor_bytes (sha1_schedule 64 b) (sha1_schedule 64 d)) h).
Proof.
  intros Lh Wh L L' B B'. rewrite <- sha1_linear by assumption. apply sha1_chunk_words; auto.
  - rewrite xor_bytes_length; congruence.
  - now apply xor_bytes_bytes.
Qed.
