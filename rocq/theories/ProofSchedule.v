(** * Proofs: sixteen consecutive words of a message schedule determine the block *)
From Verif Require Import Base BaseLemmas SpecWord SpecEndian SpecSha SpecSchedule ModelSha ProofEndian ProofSha ProofSha2 ProofMsg ProofFixed.
From Coq Require Import ZifyBool ZifyNat ZifyN.
Ltac Zify.zify_post_hook ::= idtac.
Local Open Scope N_scope.

Section Schedule.
  Context (P : N -> Prop) (ex : list N -> N).

  (** The word sixteen places back follows from the words in between and the new one. *)
  Context (back : forall w w', length w = length w' -> (16 <= length w)%nat -> Forall P w -> Forall P w' ->
    (forall i, (1 <= i <= 15)%nat -> nth (length w - i) w 0 = nth (length w' - i) w' 0) -> ex w = ex w' ->
    nth (length w - 16) w 0 = nth (length w' - 16) w' 0).
  Context (good : forall w, Forall P w -> (16 <= length w)%nat -> P (ex w)).

  Definition is_schedule (s : nat -> list N) : Prop :=
    length (s O) = 16%nat /\ Forall P (s O) /\ forall n, s (S n) = s n ++ [ex (s n)].

  Lemma sched_ok s n : is_schedule s -> length (s n) = (16 + n)%nat /\ Forall P (s n).
  Proof using good.
    intros (L & F & H). induction n as [|n [IH1 IH2]]; [now rewrite L|]. rewrite H. split.
    - rewrite app_length, IH1. cbn [length]. lia.
    - apply Forall_app. split; [exact IH2|]. constructor; [|constructor]. apply good; [exact IH2|lia].
  Qed.

  Lemma sched_nth s n j i : is_schedule s -> (j <= n)%nat -> (i < 16 + j)%nat -> nth i (s n) 0 = nth i (s j) 0.
  Proof using good.
    intros H Hj Hi. induction n as [|n IH]; [now replace j with 0%nat by lia|].
    destruct (Nat.eq_dec j (S n)) as [->|]; [reflexivity|]. destruct H as (L & F & HS).
    rewrite HS, app_nth1; [apply IH; lia|]. destruct (sched_ok s n (conj L (conj F HS))) as [-> _]. lia.
  Qed.

  Lemma sched_new s n t : is_schedule s -> (16 <= t < 16 + n)%nat -> nth t (s n) 0 = ex (s (t - 16)%nat).
  Proof using good.
    intros H Ht. rewrite (sched_nth s n (S (t - 16))) by (auto; lia). destruct H as (L & F & HS).
    rewrite HS. destruct (sched_ok s (t - 16) (conj L (conj F HS))) as [E _].
    rewrite app_nth2 by lia. rewrite E. now replace (t - (16 + (t - 16)))%nat with 0%nat by lia.
  Qed.

  Lemma agree_back s s' n i : is_schedule s -> is_schedule s' -> (i + 16 <= 16 + n)%nat ->
    (forall t, (i <= t < i + 16)%nat -> nth t (s n) 0 = nth t (s' n) 0) ->
    forall t, (t < i)%nat -> nth t (s n) 0 = nth t (s' n) 0.
  Proof using back good.
    intros H H'. induction i as [|i IH]; intros Hi A t Ht; [lia|].
    assert (E : nth i (s n) 0 = nth i (s' n) 0).
    { pose proof (A (i + 16)%nat ltac:(lia)) as X. rewrite !sched_new in X by (auto; lia).
      replace (i + 16 - 16)%nat with i in X by lia.
      destruct (sched_ok s i H) as [L F]. destruct (sched_ok s' i H') as [L' F'].
      pose proof (back (s i) (s' i) ltac:(lia) ltac:(lia) F F') as B.
      rewrite L, L' in B. replace (16 + i - 16)%nat with i in B by lia.
      rewrite (sched_nth s n i i), (sched_nth s' n i i) by (auto; lia). apply B; [|exact X].
      intros j Hj. rewrite <- (sched_nth s n i), <- (sched_nth s' n i) by (auto; lia). apply A. lia. }
    destruct (Nat.eq_dec t i) as [->|]; [exact E|]. apply IH; [lia| |lia].
    intros u Hu. destruct (Nat.eq_dec u i) as [->|]; [exact E|]. apply A. lia.
  Qed.

  Lemma window_words s s' n i : is_schedule s -> is_schedule s' -> (i <= n)%nat ->
    (forall t, (i <= t < i + 16)%nat -> nth t (s n) 0 = nth t (s' n) 0) -> s O = s' O.
  Proof using back good.
    intros H H' Hi A. pose proof (agree_back s s' n i H H' ltac:(lia) A) as B.
    destruct H as (L & F & HS). destruct H' as (L' & F' & HS').
    apply (nth_ext _ _ 0 0); [congruence|]. intros t Ht. rewrite L in Ht.
    rewrite <- (sched_nth s n 0), <- (sched_nth s' n 0) by (try split; auto; lia).
    destruct (Nat.lt_ge_cases t i); [now apply B|apply A; lia].
  Qed.

  Lemma differ_in_windows s s' n m : is_schedule s -> is_schedule s' -> s O <> s' O -> (16 * m <= 16 + n)%nat ->
    (m <= length (filter (fun t => negb (nth t (s n) 0%N =? nth t (s' n) 0)%N) (seq 0 (16 * m))))%nat.
  Proof using back good.
    intros H H' D. induction m as [|m IH]; intros Hm; [lia|].
    replace (16 * S m)%nat with (16 * m + 16)%nat by lia. rewrite seq_app, filter_app, app_length. cbn [Nat.add].
    specialize (IH ltac:(lia)).
    destruct (filter (fun t => negb (nth t (s n) 0 =? nth t (s' n) 0)) (seq (16 * m) 16)) as [|a l] eqn:E;
      [|cbn [length]; lia].
    exfalso. apply D. apply (window_words s s' n (16 * m) H H'); [lia|].
    intros t Ht. destruct (N.eqb_spec (nth t (s n) 0) (nth t (s' n) 0)) as [X|X]; [exact X|].
    assert (I : In t (filter (fun t => negb (nth t (s n) 0 =? nth t (s' n) 0)) (seq (16 * m) 16))).
    { apply filter_In. split; [apply in_seq; lia|]. apply negb_true_iff. now apply N.eqb_neq. }
    rewrite E in I. destruct I.
  Qed.
End Schedule.

Lemma filter_seq_le f n m : (n <= m)%nat -> (length (filter f (seq 0 n)) <= length (filter f (seq 0 m)))%nat.
Proof. intros H. replace m with (n + (m - n))%nat by lia. rewrite seq_app, filter_app, app_length. lia. Qed.

(** ** Blocks and their words *)

Lemma block_words_inj k b b' : (0 < k)%nat -> length b = (16 * k)%nat -> length b' = (16 * k)%nat -> bytes b -> bytes b' ->
  map be_num (groups k b) = map be_num (groups k b') -> b = b'.
Proof.
  intros Hk L L' B B' E.
  destruct (concat_groups k 16 b Hk L) as (C & _ & F). destruct (concat_groups k 16 b' Hk L') as (C' & _ & F').
  rewrite <- C, <- C'. f_equal. revert E.
  pose proof (groups_bytes k b B) as X. pose proof (groups_bytes k b' B') as X'.
  clear - F F' X X'. revert F' X'. generalize (groups k b') as gs'. revert F X. generalize (groups k b) as gs.
  induction gs as [|g gs IH]; intros F X [|g' gs'] F' X' E; cbn [map] in E; try discriminate; auto.
  injection E as E1 E2.
  inversion_clear F as [|? ? F1 F2]. inversion_clear F' as [|? ? F1' F2'].
  inversion_clear X as [|? ? X1 X2]. inversion_clear X' as [|? ? X1' X2'].
  f_equal; [|now apply IH].
  rewrite <- (ProofSha.be_bytes_num g k), <- (ProofSha.be_bytes_num g' k) by auto. now rewrite E1.
Qed.

Lemma block_words_ok k b : (0 < k)%nat -> length b = (16 * k)%nat -> bytes b ->
  length (map be_num (groups k b)) = 16%nat /\ Forall (fun v => v < 2 ^ (8 * N.of_nat k)) (map be_num (groups k b)).
Proof.
  intros Hk L B. destruct (concat_groups k 16 b Hk L) as (_ & Lg & F). split; [now rewrite map_length|].
  pose proof (groups_bytes k b B) as X. apply Forall_forall. intros v Hv. apply in_map_iff in Hv as (g & <- & Hg).
  rewrite Forall_forall in F, X. rewrite N.pow_mul_r. change (2 ^ 8) with 256. rewrite <- (F g Hg). apply be_num_lt, X, Hg.
Qed.

(** ** SHA-1 *)

Lemma nth_word w i b : Forall (fun v => v < 2 ^ b) w -> nth i w 0 < 2 ^ b.
Proof.
  intros F. destruct (Nat.lt_ge_cases i (length w)) as [L|L].
  - rewrite Forall_forall in F. apply F, nth_In, L.
  - rewrite nth_overflow by lia. pose proof (N.pow_nonzero 2 b). lia.
Qed.

Lemma xor_cancel a b c : N.lxor a b = N.lxor a c -> b = c.
Proof.
  intros H. apply (f_equal (N.lxor a)) in H. now rewrite <- !N.lxor_assoc, N.lxor_nilpotent, !N.lxor_0_l in H.
Qed.

Lemma sha1_good w : Forall (fun v => v < 2 ^ 32) w -> (16 <= length w)%nat -> sha1_expand w < 2 ^ 32.
Proof. intros F _. unfold sha1_expand. apply rol_lt; [reflexivity|]. repeat apply lxor_lt; now apply nth_word. Qed.

Lemma sha1_back w w' : length w = length w' -> (16 <= length w)%nat ->
  Forall (fun v => v < 2 ^ 32) w -> Forall (fun v => v < 2 ^ 32) w' ->
  (forall i, (1 <= i <= 15)%nat -> nth (length w - i) w 0 = nth (length w' - i) w' 0) ->
  sha1_expand w = sha1_expand w' -> nth (length w - 16) w 0 = nth (length w' - 16) w' 0.
Proof.
  intros L _ F F' A E. unfold sha1_expand in E. rewrite !(A 3%nat), !(A 8%nat), !(A 14%nat) in E by lia.
  apply (f_equal (fun x => ror 32 x 1)) in E.
  rewrite !ror_rol in E by (try reflexivity; repeat apply lxor_lt; now apply nth_word).
  now apply xor_cancel in E.
Qed.

Lemma sha1_is_schedule b : length b = 64%nat -> bytes b ->
  is_schedule (fun v => v < 2 ^ 32) sha1_expand (fun n => sha1_schedule n b).
Proof.
  intros L B. destruct (block_words_ok 4 b ltac:(lia) L B) as [L0 F0]. split; [exact L0|]. split; [exact F0|reflexivity].
Qed.

Lemma sha1_window b b' i : length b = 64%nat -> bytes b -> length b' = 64%nat -> bytes b' -> (i <= 64)%nat ->
  (forall t, (i <= t < i + 16)%nat -> nth t (sha1_schedule 64 b) 0 = nth t (sha1_schedule 64 b') 0) -> b = b'.
Proof.
  intros L B L' B' Hi A. apply (block_words_inj 4); auto; try lia.
  exact (window_words _ _ sha1_back sha1_good _ _ 64 i (sha1_is_schedule b L B) (sha1_is_schedule b' L' B') Hi A).
Qed.

Lemma sha1_differences b b' : length b = 64%nat -> bytes b -> length b' = 64%nat -> bytes b' -> b <> b' ->
  (5 <= word_differences 80 (sha1_schedule 64 b) (sha1_schedule 64 b'))%nat.
Proof.
  intros L B L' B' D. unfold word_differences.
  apply (differ_in_windows _ _ sha1_back sha1_good _ _ 64 5 (sha1_is_schedule b L B) (sha1_is_schedule b' L' B')); [|lia].
  intros E. apply D. apply (block_words_inj 4); auto; lia.
Qed.

(** ** SHA-2 *)

Section Sha2.
  Context (k : sha2_kind) (Hk : (0 < s2_word k)%nat).
  Let word v := v < 2 ^ s2_bits k.

  Lemma sha2_good w : Forall word w -> (16 <= length w)%nat -> word (sha2_expand k w).
  Proof using Type. intros _ _. unfold word, sha2_expand. apply N.mod_lt, N.pow_nonzero. discriminate. Qed.

  Lemma sha2_back w w' : length w = length w' -> (16 <= length w)%nat -> Forall word w -> Forall word w' ->
    (forall i, (1 <= i <= 15)%nat -> nth (length w - i) w 0 = nth (length w' - i) w' 0) ->
    sha2_expand k w = sha2_expand k w' -> nth (length w - 16) w 0 = nth (length w' - 16) w' 0.
  Proof using Hk.
    intros L _ F F' A E. unfold sha2_expand in E. rewrite !(A 2%nat), !(A 7%nat), !(A 15%nat) in E by lia.
    apply (nth_word w (length w - 16)) in F. apply (nth_word w' (length w' - 16)) in F'.
    revert E. generalize (sha2_small (s2_bits k) (s2_small1 k) (nth (length w' - 2) w' 0) + nth (length w' - 7) w' 0 +
      sha2_small (s2_bits k) (s2_small0 k) (nth (length w' - 15) w' 0)). intros s E.
    revert F F' E. generalize (nth (length w - 16) w 0) (nth (length w' - 16) w' 0) (2 ^ s2_bits k).
    intros a b m Ha Hb E.
    assert (M : m <> 0) by (clear - Ha; lia).
    apply (f_equal Z.of_N) in E. rewrite !N2Z.inj_mod, !N2Z.inj_add in E.
    assert (Z.of_N a = Z.of_N b); [|clear - H; lia].
    rewrite <- (Z.mod_small (Z.of_N a) (Z.of_N m)), <- (Z.mod_small (Z.of_N b) (Z.of_N m)) by (clear - Ha Hb; lia).
    replace (Z.of_N a) with ((Z.of_N s + Z.of_N a) - Z.of_N s)%Z by ring.
    replace (Z.of_N b) with ((Z.of_N s + Z.of_N b) - Z.of_N s)%Z by ring.
    now rewrite (Zminus_mod (Z.of_N s + Z.of_N a)), (Zminus_mod (Z.of_N s + Z.of_N b)), E.
  Qed.

  Lemma sha2_is_schedule b : length b = (16 * s2_word k)%nat -> bytes b ->
    is_schedule word (sha2_expand k) (fun n => sha2_schedule k n b).
  Proof using Hk.
    intros L B. destruct (block_words_ok (s2_word k) b Hk L B) as [L0 F0].
    split; [exact L0|]. split; [exact F0|reflexivity].
  Qed.

  Lemma sha2_window b b' n i : length b = (16 * s2_word k)%nat -> bytes b -> length b' = (16 * s2_word k)%nat -> bytes b' ->
    (i <= n)%nat ->
    (forall t, (i <= t < i + 16)%nat -> nth t (sha2_schedule k n b) 0 = nth t (sha2_schedule k n b') 0) -> b = b'.
  Proof using Hk.
    intros L B L' B' Hi A. apply (block_words_inj (s2_word k)); auto.
    exact (window_words _ _ sha2_back sha2_good _ _ n i (sha2_is_schedule b L B) (sha2_is_schedule b' L' B') Hi A).
  Qed.

  Lemma sha2_differences b b' n m : length b = (16 * s2_word k)%nat -> bytes b -> length b' = (16 * s2_word k)%nat -> bytes b' ->
    b <> b' -> (16 * m <= 16 + n)%nat ->
    (m <= word_differences (16 * m) (sha2_schedule k n b) (sha2_schedule k n b'))%nat.
  Proof using Hk.
    intros L B L' B' D Hm. unfold word_differences.
    apply (differ_in_windows _ _ sha2_back sha2_good _ _ n m (sha2_is_schedule b L B) (sha2_is_schedule b' L' B')); [|exact Hm].
    intros E. apply D. now apply (block_words_inj (s2_word k)).
  Qed.
End Sha2.

(** ** The chunk functions of the code *)
Lemma sha1_chunk_words h b : length h = 5%nat -> words 32 h -> length b = 64%nat -> bytes b ->
  sha1_process_chunk h b = Ok (sha1_from_words (sha1_schedule 64 b) h).
Proof. intros Lh Wh L B. exact (proj1 (sha1_process_eq h b (conj Lh Wh) L B)). Qed.

Lemma sha256_chunk_words h b : length h = 8%nat -> words 32 h -> length b = 64%nat -> bytes b ->
  sha2_process_chunk h b = Ok (sha2_from_words sha256_kind (sha2_schedule sha256_kind 48 b) h).
Proof.
  intros Lh Wh L B. rewrite process_256, round_constants.
  refine (proj1 (sha2_process_eq sha256_kind (sha2_k sha256_kind) h b _ _ _ (conj Lh Wh) L B)).
  - apply Nat.lt_0_succ.
  - apply Nat.leb_le. vm_compute. reflexivity.
  - vm_compute. reflexivity.
Qed.

Lemma sha512_chunk_words h b : length h = 8%nat -> words 64 h -> length b = 128%nat -> bytes b ->
  sha2_process_big_chunk h b = Ok (sha2_from_words sha512_kind (sha2_schedule sha512_kind 64 b) h).
Proof.
  intros Lh Wh L B. rewrite process_512, round_constants_big.
  refine (proj1 (sha2_process_eq sha512_kind (sha2_k sha512_kind) h b _ _ _ (conj Lh Wh) L B)).
  - apply Nat.lt_0_succ.
  - apply Nat.leb_le. vm_compute. reflexivity.
  - vm_compute. reflexivity.
Qed.
