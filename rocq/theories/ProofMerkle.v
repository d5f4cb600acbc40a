(** * Collisions and extension of Merkle-Damgard hashes *)
From Coq Require Import ZifyBool ZifyNat ZifyN.
From Verif Require Import Base BaseLemmas ModelSha ModelMd SpecEndian SpecWord SpecMd SpecSha SpecMerkle
  ProofEndian ProofWord ProofMd ProofSha ProofSha2 ProofHash.
Ltac Zify.zify_post_hook ::= Z.div_mod_to_equations.

Section Generic.
Context {A : Type} (f : A -> list N -> A).

(** Collisions of a total compression function. *)
Definition coll (h : A) (bs bs' : list (list N)) : Prop :=
  exists i j b b', nth_error bs i = Some b /\ nth_error bs' j = Some b' /\
    (fold_left f (firstn i bs) h, b) <> (fold_left f (firstn j bs') h, b') /\
    f (fold_left f (firstn i bs) h) b = f (fold_left f (firstn j bs') h) b'.

Lemma coll_last h bs bs' b b' :
  (fold_left f bs h, b) <> (fold_left f bs' h, b') ->
  f (fold_left f bs h) b = f (fold_left f bs' h) b' -> coll h (bs ++ [b]) (bs' ++ [b']).
Proof.
  intros Hn E. exists (length bs), (length bs'), b, b'.
  rewrite !nth_error_app2, !Nat.sub_diag by auto. rewrite !firstn_app, !Nat.sub_diag, !firstn_all.
  cbn [firstn nth_error]. rewrite !app_nil_r. auto.
Qed.

Lemma coll_app h bs bs' cs cs' : coll h bs bs' -> coll h (bs ++ cs) (bs' ++ cs').
Proof.
  intros (i & j & b & b' & E1 & E2 & H). exists i, j, b, b'.
  assert (i < length bs)%nat by (apply nth_error_Some; congruence).
  assert (j < length bs')%nat by (apply nth_error_Some; congruence).
  rewrite !nth_error_app1 by auto. rewrite !firstn_app.
  replace (i - length bs)%nat with 0%nat by lia. replace (j - length bs')%nat with 0%nat by lia.
  cbn [firstn]. rewrite !app_nil_r. auto.
Qed.

(** Decidability is not needed: the blocks are compared as lists of numbers. *)
Lemma fold_coll h : forall bs bs', length bs = length bs' -> bs <> bs' ->
  fold_left f bs h = fold_left f bs' h ->
  (forall i, fold_left f (firstn i bs) h = fold_left f (firstn i bs') h \/
             fold_left f (firstn i bs) h <> fold_left f (firstn i bs') h) ->
  coll h bs bs'.
Proof.
  induction bs as [|b bs IH] using rev_ind; intros bs' L Hn E D.
  - destruct bs'; [congruence|discriminate L].
  - destruct bs' as [|b' bs' _] using rev_ind; [rewrite app_length in L; cbn in L; lia|].
    rewrite !app_length in L. cbn [length] in L.
    rewrite !fold_left_app in E. cbn [fold_left] in E.
    pose proof (D (length bs)) as Dl. rewrite firstn_app, Nat.sub_diag, firstn_all in Dl.
    assert (Lb : length bs = length bs') by lia. rewrite Lb in Dl.
    rewrite firstn_app, Nat.sub_diag, firstn_all in Dl. cbn [firstn] in Dl. rewrite !app_nil_r in Dl.
    destruct Dl as [Es|Es].
    + destruct (list_eq_dec N.eq_dec b b') as [->|Nb].
      * apply coll_app. apply IH; auto; [congruence|].
        intros i. destruct (Nat.le_gt_cases i (length bs)) as [Li|Li].
        -- specialize (D i). rewrite !firstn_app in D.
           replace (i - length bs)%nat with 0%nat in D by lia.
           replace (i - length bs')%nat with 0%nat in D by lia.
           cbn [firstn] in D. now rewrite !app_nil_r in D.
        -- left. now rewrite !firstn_all2 by lia.
      * apply coll_last; auto. congruence.
    + apply coll_last; auto. congruence.
Qed.
End Generic.

(** The padded message and its blocks. *)
Definition blocks (n : nat) (tail : nat -> list N) (m : list N) : list (list N) := groups n (m ++ tail (length m)).

Lemma blocks_concat n tail m : (0 < n)%nat -> (forall k, exists q, (k + length (tail k) = q * n)%nat) ->
   concat (blocks n tail m) = m ++ tail (length m) /\
  Forall (fun c => length c = n) (blocks n tail m).
Proof.
  intros Hn Hmul. destruct (Hmul (length m)) as [q Hq].
  destruct (concat_groups n q (m ++ tail (length m))) as (H1 & H2 & H3).
  { lia. } { rewrite app_length. exact Hq. } auto.
Qed.

(** Blocks of an extended message. *)
Lemma blocks_extend n tail m x : (0 < n)%nat -> (forall k, exists q, (k + length (tail k) = q * n)%nat) ->
  blocks n tail (m ++ tail (length m) ++ x) =
  blocks n tail m ++ groups n (x ++ tail (padded_length tail (length m) + length x)%nat).
Proof.
  intros Hn Hmul. unfold blocks, padded_length. destruct (Hmul (length m)) as [q Hq].
  rewrite !app_length, <- !app_assoc, (app_assoc m), Nat.add_assoc.
  apply (groups_app n q).
  - lia.
  - rewrite app_length. exact Hq.
  - destruct (Hmul (length m + length (tail (length m)) + length x)%nat) as [q' Hq'].
    exists (q' - q)%nat. rewrite app_length. nia.
Qed.
Lemma app_inv_len {B} (a a' b b' : list B) : a ++ b = a' ++ b' -> length b = length b' -> a = a' /\ b = b'.
Proof.
  intros E L. assert (La : length a = length a').
  { apply (f_equal (@length _)) in E. rewrite !app_length in E. lia. }
  split.
  - apply (f_equal (firstn (length a))) in E. rewrite firstn_app_exact in E by auto.
    now rewrite La, firstn_app_exact in E by auto.
  - apply (f_equal (skipn (length a))) in E. rewrite skipn_app, skipn_all, Nat.sub_diag in E.
    rewrite La, skipn_app, skipn_all, Nat.sub_diag in E. exact E.
Qed.

Lemma last_suffix (bs : list (list N)) b x y : concat (bs ++ [b]) = x ++ y ->
  (length y <= length b)%nat -> skipn (length b - length y) b = y.
Proof.
  intros E Hk. rewrite concat_app in E. cbn [concat] in E. rewrite app_nil_r in E.
  rewrite <- (firstn_skipn (length b - length y) b), app_assoc in E.
  apply app_inv_len in E; [exact (proj2 E)|]. rewrite skipn_length. lia.
Qed.

(** A length field at the end. *)
Section Pad.
Context {A : Type} (f : A -> list N -> A) (h : A).
Context (Hdec : forall x y : A, x = y \/ x <> y).
Context (n l : nat) (tail : nat -> list N) (zeros : nat -> nat) (field : nat -> list N).
Context (Hl : (l < n)%nat).
Context (Htail : forall k, tail k = 0x80 :: repeat 0 (zeros k) ++ field k).
Context (Hfield : forall k, length (field k) = l).
Context (Hmul : forall k, exists q, (k + length (tail k) = q * n)%nat).

Lemma blocks_collision m m' :
  m <> m' -> (length m <> length m' -> field (length m) <> field (length m')) ->
  fold_left f (blocks n tail m) h = fold_left f (blocks n tail m') h -> coll f h (blocks n tail m) (blocks n tail m').
Proof.
  intros Hn Hf E. destruct (blocks_concat n tail m ltac:(lia) Hmul) as [C F]. destruct (blocks_concat n tail m' ltac:(lia) Hmul) as [C' F'].
  destruct (Nat.eq_dec (length m) (length m')) as [L|L].
  - apply fold_coll; auto.
    + pose proof (concat_length_const _ _ F). pose proof (concat_length_const _ _ F').
      rewrite C in *. rewrite C' in *. rewrite !app_length, L in *. nia.
    + intros Eb. apply Hn. rewrite Eb, C' in C. apply app_inv_len in C; [symmetry; apply C|]. now rewrite L.
  - specialize (Hf L).
    destruct (blocks n tail m) as [|b bs _] using rev_ind.
    { cbn in C. apply (f_equal (@length _)) in C. rewrite Htail, app_length in C. cbn in C. lia. }
    destruct (blocks n tail m') as [|b' bs' _] using rev_ind.
    { cbn in C'. apply (f_equal (@length _)) in C'. rewrite Htail, app_length in C'. cbn in C'. lia. }
    apply Forall_app in F as [_ F]. apply Forall_app in F' as [_ F'].
    inversion_clear F as [|? ? Lb _]. inversion_clear F' as [|? ? Lb' _].
    rewrite !fold_left_app in E. cbn [fold_left] in E.
    apply coll_last; auto. intros X. injection X as _ ->.
    rewrite Htail, app_comm_cons, app_assoc in C, C'.
    apply last_suffix in C; [|rewrite Hfield; lia]. apply last_suffix in C'; [|rewrite Hfield; lia].
    rewrite Hfield in C, C'. congruence.
Qed.

End Pad.

(** Compression functions that may panic. *)
Lemma run_eq {A} (f : A -> list N -> res A) (g : A -> list N -> A) (P : A -> Prop) n :
  (forall s b, P s -> length b = n -> bytes b -> f s b = Ok (g s b) /\ P (g s b)) ->
  forall bs h, P h -> Forall (fun c => length c = n) bs -> Forall bytes bs ->
  run f bs h = Ok (fold_left g bs h) /\ P (fold_left g bs h).
Proof.
  intros Hf bs. induction bs as [|b bs IH] using rev_ind; intros h Ph F B.
  - auto.
  - apply Forall_app in F as [F Fb]. apply Forall_app in B as [B Bb].
    inversion_clear Fb as [|? ? Lb _]. inversion_clear Bb as [|? ? Bb' _].
    destruct (IH h Ph F B) as [E Q]. unfold run in *. rewrite !fold_left_app. cbn [fold_left].
    rewrite E. cbn [bind]. now apply Hf.
Qed.

Lemma coll_step {A} (f : A -> list N -> res A) (g : A -> list N -> A) (P : A -> Prop) n h bs bs' :
  (forall s b, P s -> length b = n -> bytes b -> f s b = Ok (g s b) /\ P (g s b)) -> P h ->
  Forall (fun c => length c = n) bs -> Forall bytes bs ->
  Forall (fun c => length c = n) bs' -> Forall bytes bs' ->
  coll g h bs bs' -> step_collision f h bs bs'.
Proof.
  intros Hf Ph F B F' B' (i & j & b & b' & E1 & E2 & Hn & E).
  destruct (run_eq f g P n Hf (firstn i bs) h Ph (Forall_firstn _ _ _ F) (Forall_firstn _ _ _ B)) as [R1 P1].
  destruct (run_eq f g P n Hf (firstn j bs') h Ph (Forall_firstn _ _ _ F') (Forall_firstn _ _ _ B')) as [R2 P2].
  apply nth_error_In in E1 as I1. apply nth_error_In in E2 as I2. rewrite Forall_forall in F, B, F', B'.
  exists i, j, b, b'. do 3 eexists. do 4 (split; [eassumption|]). split; [exact Hn|].
  rewrite (proj1 (Hf _ b P1 (F b I1) (B b I1))), (proj1 (Hf _ b' P2 (F' b' I2) (B' b' I2))). rewrite E. auto.
Qed.

(** ** The SHA family *)

Lemma sha_blocks n l m : groups n (sha_pad n l m) = blocks n (sha_tail n l) m.
Proof. reflexivity. Qed.

Lemma sha_tail_mul n l : (l < n)%nat -> forall k, exists q, (k + length (sha_tail n l k) = q * n)%nat.
Proof.
  intros Hl k. destruct (sha_pad_length n l (repeat 0 k) Hl) as [q Hq]. exists q. rewrite <- Hq.
  change (sha_pad n l (repeat 0 k)) with (repeat 0 k ++ sha_tail n l (length (repeat 0 k))).
  rewrite app_length, repeat_length. reflexivity.
Qed.

Lemma list_dec (x y : list N) : x = y \/ x <> y.
Proof. destruct (list_eq_dec N.eq_dec x y); auto. Qed.

Lemma sha_collision (g : list N -> list N -> list N) h n l m m' : (l < n)%nat ->
  8 * N.of_nat (length m) < 2 ^ (8 * N.of_nat l) -> 8 * N.of_nat (length m') < 2 ^ (8 * N.of_nat l) ->
  m <> m' ->
  fold_left g (groups n (sha_pad n l m)) h = fold_left g (groups n (sha_pad n l m')) h ->
  coll g h (groups n (sha_pad n l m)) (groups n (sha_pad n l m')).
Proof.
  intros Hl B B' Hn. rewrite !sha_blocks.
  apply (blocks_collision g h list_dec n l (sha_tail n l)
    (fun k => ((2 * n - 1 - l - k mod n) mod n)%nat) (fun k => be_bytes l (8 * N.of_nat k))); auto.
  - intros k. apply be_bytes_length.
  - now apply sha_tail_mul.
  - assert (P : 256 ^ N.of_nat l = 2 ^ (8 * N.of_nat l)) by (rewrite N.pow_mul_r; reflexivity).
    intros L E. apply L. apply (f_equal be_num) in E. rewrite !be_num_bytes in E by (rewrite P; auto). lia.
Qed.

Lemma sha_blocks_wf n l m : (l < n)%nat -> bytes m ->
  Forall (fun c => length c = n) (groups n (sha_pad n l m)) /\ Forall bytes (groups n (sha_pad n l m)).
Proof.
  intros Hl Hb. split; [|apply groups_bytes, sha_pad_bytes, Hb].
  rewrite sha_blocks. apply blocks_concat; [lia|]. now apply sha_tail_mul.
Qed.

Lemma sha_step_collision f (g : list N -> list N -> list N) (P : list N -> Prop) h n l m m' : (l < n)%nat ->
  (forall s b, P s -> length b = n -> bytes b -> f s b = Ok (g s b) /\ P (g s b)) -> P h ->
  bytes m -> bytes m' ->
  8 * N.of_nat (length m) < 2 ^ (8 * N.of_nat l) -> 8 * N.of_nat (length m') < 2 ^ (8 * N.of_nat l) ->
  m <> m' ->
  fold_left g (groups n (sha_pad n l m)) h = fold_left g (groups n (sha_pad n l m')) h ->
  step_collision f h (groups n (sha_pad n l m)) (groups n (sha_pad n l m')).
Proof.
  intros Hl Hf Ph Bm Bm' B B' Hn E.
  destruct (sha_blocks_wf n l m Hl Bm) as [F1 F2]. destruct (sha_blocks_wf n l m' Hl Bm') as [F1' F2'].
  apply (coll_step f g P n); auto. now apply sha_collision.
Qed.

Lemma concat_be_inj k w ws ws' : (0 < k)%nat -> w = 8 * N.of_nat k -> words w ws -> words w ws' ->
  concat (map (be_bytes k) ws) = concat (map (be_bytes k) ws') -> ws = ws'.
Proof.
  intros Hk Ew H H' E. rewrite <- (map_be_num_bytes k w ws), <- (map_be_num_bytes k w ws') by auto.
  now rewrite E.
Qed.

(** SHA-1. *)
Lemma h5_init : h5_ok INITIAL_HASH_SHA1.
Proof. split; [reflexivity|]. repeat (apply Forall_cons; [reflexivity|]). apply Forall_nil. Qed.

Lemma sha1_fold_ok m : bytes m -> h5_ok (fold_left sha1_compress (groups 64 (sha_pad 64 8 m)) sha1_init).
Proof.
  intros Hb. destruct (sha_blocks_wf 64 8 m ltac:(lia) Hb) as [F1 F2].
  exact (proj2 (run_eq _ _ h5_ok 64 (fun s b => sha1_process_eq s b) _ _ h5_init F1 F2)).
Qed.

Lemma sha1_collision m m' : bytes m -> bytes m' ->
  N.of_nat (length m) < 2 ^ 61 -> N.of_nat (length m') < 2 ^ 61 -> m <> m' -> sha1 m = sha1 m' ->
  step_collision sha1_process_chunk INITIAL_HASH_SHA1
    (groups 64 (sha_pad 64 8 m)) (groups 64 (sha_pad 64 8 m')).
Proof.
  intros Bm Bm' L L' Hn E. rewrite !sha1_conforms in E by auto. apply Ok_inj in E.
  apply (sha_step_collision _ sha1_compress h5_ok); auto.
  - lia.
  - exact (fun s b => sha1_process_eq s b).
  - exact h5_init.
  - change (2 ^ (8 * N.of_nat 8)) with (8 * 2 ^ 61). lia.
  - change (2 ^ (8 * N.of_nat 8)) with (8 * 2 ^ 61). lia.
  - apply (concat_be_inj 4 32); [lia|reflexivity|now apply sha1_fold_ok|now apply sha1_fold_ok|exact E].
Qed.

(** SHA-2. *)
Section Sha2.
Context (kind : sha2_kind) (k init : list N).
Context (Hw : (0 < s2_word kind)%nat) (Hr : (16 <= s2_rounds kind)%nat) (Lk : length k = s2_rounds kind)
  (Hi : h8_ok (s2_bits kind) init).
Let n := (16 * s2_word kind)%nat.
Let l := (2 * s2_word kind)%nat.
Let g := sha2_compress kind k.
Let bs (m : list N) := groups n (sha_pad n l m).

Lemma sha2_fold_ok m : bytes m -> run (model_process kind k) (bs m) init = Ok (fold_left g (bs m) init) /\
  h8_ok (s2_bits kind) (fold_left g (bs m) init).
Proof.
  intros Hb. destruct (sha_blocks_wf n l m ltac:(unfold n, l; lia) Hb) as [F1 F2].
  apply (run_eq _ _ (h8_ok (s2_bits kind)) n); auto. intros s b. now apply sha2_process_eq.
Qed.

Lemma sha2_collision m m' : bytes m -> bytes m' ->
  8 * N.of_nat (length m) < 2 ^ (16 * N.of_nat (s2_word kind)) ->
  8 * N.of_nat (length m') < 2 ^ (16 * N.of_nat (s2_word kind)) -> m <> m' ->
  fold_left g (bs m) init = fold_left g (bs m') init ->
  step_collision (model_process kind k) init (bs m) (bs m').
Proof.
  intros Bm Bm' L L' Hn E.
  apply (sha_step_collision _ g (h8_ok (s2_bits kind))); auto.
  - unfold n, l. lia.
  - intros s b. now apply sha2_process_eq.
  - replace (8 * N.of_nat l) with (16 * N.of_nat (s2_word kind)) by (unfold l; lia). exact L.
  - replace (8 * N.of_nat l) with (16 * N.of_nat (s2_word kind)) by (unfold l; lia). exact L'.
Qed.

(** The digest keeps [j] words. *)
Lemma sha2_collision_cut j m m' : bytes m -> bytes m' ->
  8 * N.of_nat (length m) < 2 ^ (16 * N.of_nat (s2_word kind)) ->
  8 * N.of_nat (length m') < 2 ^ (16 * N.of_nat (s2_word kind)) -> m <> m' ->
  concat (map (be_bytes (s2_word kind)) (firstn j (fold_left g (bs m) init))) =
  concat (map (be_bytes (s2_word kind)) (firstn j (fold_left g (bs m') init))) ->
  step_collision (model_process kind k) init (bs m) (bs m') \/
  truncated_collision (model_process kind k) init j (bs m) (bs m').
Proof.
  intros Bm Bm' L L' Hn E.
  destruct (sha2_fold_ok m Bm) as [R O]. destruct (sha2_fold_ok m' Bm') as [R' O'].
  apply (concat_be_inj (s2_word kind) (s2_bits kind)) in E; auto.
  2, 3: apply Forall_firstn; [apply O || apply O'].
  destruct (list_dec (fold_left g (bs m) init) (fold_left g (bs m') init)) as [S|S].
  - left. now apply sha2_collision.
  - right. eexists. eexists. split; [exact R|]. split; [exact R'|]. auto.
Qed.
End Sha2.

Lemma le_eq_8 (h : list N) : length h = 8%nat -> (length h <= 8)%nat.
Proof. lia. Qed.

Lemma sha256_collision m m' : bytes m -> bytes m' ->
  N.of_nat (length m) < 2 ^ 61 -> N.of_nat (length m') < 2 ^ 61 -> m <> m' -> sha256 m = sha256 m' ->
  step_collision sha2_process_chunk INITIAL_HASH_256
    (groups 64 (sha_pad 64 8 m)) (groups 64 (sha_pad 64 8 m')).
Proof.
  intros Bm Bm' L L' Hn E. rewrite !sha256_conforms in E by auto. apply Ok_inj in E.
  unfold sha256_spec, sha2_spec in E. rewrite <- round_constants, <- initial_256 in E.
  rewrite process_256. apply msg_bound_256 in L. apply msg_bound_256 in L'.
  pose proof (sha2_fold_ok sha256_kind ROUND_CONSTANTS INITIAL_HASH_256 wordpos_256 rounds_256 klen_256 init_ok_256)
    as F.
  apply (sha2_collision sha256_kind ROUND_CONSTANTS INITIAL_HASH_256 wordpos_256 rounds_256 klen_256 init_ok_256);
    auto.
  apply (concat_be_inj 4 32); [lia|reflexivity|apply F; auto|apply F; auto|].
  destruct (F m Bm) as [_ [G _]]. destruct (F m' Bm') as [_ [G' _]]. cbv zeta in E.
  rewrite (firstn_all2 _ (le_eq_8 _ G)), (firstn_all2 _ (le_eq_8 _ G')) in E. exact E.
Qed.

Lemma sha512_collision m m' : bytes m -> bytes m' ->
  N.of_nat (length m) < 2 ^ 125 -> N.of_nat (length m') < 2 ^ 125 -> m <> m' -> sha512 m = sha512 m' ->
  step_collision sha2_process_big_chunk INITIAL_HASH_512
    (groups 128 (sha_pad 128 16 m)) (groups 128 (sha_pad 128 16 m')).
Proof.
  intros Bm Bm' L L' Hn E. rewrite !sha512_conforms in E by auto. apply Ok_inj in E.
  unfold sha512_spec, sha2_spec in E. rewrite <- round_constants_big, <- initial_512 in E.
  rewrite process_512. apply msg_bound_512 in L. apply msg_bound_512 in L'.
  pose proof (sha2_fold_ok sha512_kind ROUND_CONSTANTS_BIG INITIAL_HASH_512 wordpos_512 rounds_512 klen_512 init_ok_512)
    as F.
  apply (sha2_collision sha512_kind ROUND_CONSTANTS_BIG INITIAL_HASH_512 wordpos_512 rounds_512 klen_512 init_ok_512);
    auto.
  apply (concat_be_inj 8 64); [lia|reflexivity|apply F; auto|apply F; auto|].
  destruct (F m Bm) as [_ [G _]]. destruct (F m' Bm') as [_ [G' _]]. cbv zeta in E.
  rewrite (firstn_all2 _ (le_eq_8 _ G)), (firstn_all2 _ (le_eq_8 _ G')) in E. exact E.
Qed.

Lemma sha224_collision m m' : bytes m -> bytes m' ->
  N.of_nat (length m) < 2 ^ 61 -> N.of_nat (length m') < 2 ^ 61 -> m <> m' -> sha224 m = sha224 m' ->
  step_collision sha2_process_chunk INITIAL_HASH_224
    (groups 64 (sha_pad 64 8 m)) (groups 64 (sha_pad 64 8 m')) \/
  truncated_collision sha2_process_chunk INITIAL_HASH_224 7
    (groups 64 (sha_pad 64 8 m)) (groups 64 (sha_pad 64 8 m')).
Proof.
  intros Bm Bm' L L' Hn E. rewrite !sha224_conforms in E by auto. apply Ok_inj in E.
  unfold sha224_spec, sha2_spec in E. rewrite <- round_constants, <- initial_224 in E.
  rewrite process_256. apply msg_bound_256 in L. apply msg_bound_256 in L'.
  exact (sha2_collision_cut sha256_kind ROUND_CONSTANTS INITIAL_HASH_224 wordpos_256 rounds_256 klen_256
    init_ok_224 7 m m' Bm Bm' L L' Hn E).
Qed.

Lemma sha384_collision m m' : bytes m -> bytes m' ->
  N.of_nat (length m) < 2 ^ 125 -> N.of_nat (length m') < 2 ^ 125 -> m <> m' -> sha384 m = sha384 m' ->
  step_collision sha2_process_big_chunk INITIAL_HASH_384
    (groups 128 (sha_pad 128 16 m)) (groups 128 (sha_pad 128 16 m')) \/
  truncated_collision sha2_process_big_chunk INITIAL_HASH_384 6
    (groups 128 (sha_pad 128 16 m)) (groups 128 (sha_pad 128 16 m')).
Proof.
  intros Bm Bm' L L' Hn E. rewrite !sha384_conforms in E by auto. apply Ok_inj in E.
  unfold sha384_spec, sha2_spec in E. rewrite <- round_constants_big, <- initial_384 in E.
  rewrite process_512. apply msg_bound_512 in L. apply msg_bound_512 in L'.
  exact (sha2_collision_cut sha512_kind ROUND_CONSTANTS_BIG INITIAL_HASH_384 wordpos_512 rounds_512 klen_512
    init_ok_384 6 m m' Bm Bm' L L' Hn E).
Qed.

(** ** MD4 and MD5 *)

Lemma le_bytes_length8 k v : length (le_bytes k v) = k.
Proof. unfold le_bytes. now rewrite map_length, seq_length. Qed.

Lemma le_num_bytes k v : v < 256 ^ N.of_nat k -> le_num (le_bytes k v) = v.
Proof.
  intros H. rewrite <- from_le_le_num, <- to_le_le_bytes. rewrite from_le_to_le. now apply N.mod_small.
Qed.

Lemma md_tail_mul k : exists q, (k + length (md_tail k) = q * 64)%nat.
Proof.
  destruct (md_pad_length (repeat 0 k)) as [q Hq]. exists q. rewrite <- Hq.
  change (md_pad (repeat 0 k)) with (repeat 0 k ++ md_tail (length (repeat 0 k))).
  now rewrite app_length, repeat_length.
Qed.

Lemma md_blocks m : groups 64 (md_pad m) = blocks 64 md_tail m.
Proof. reflexivity. Qed.

Lemma state4_dec (x y : state4) : x = y \/ x <> y.
Proof.
  destruct x as (((a, b), c), d), y as (((a', b'), c'), d').
  destruct (N.eq_dec a a'), (N.eq_dec b b'), (N.eq_dec c c'), (N.eq_dec d d'); subst; auto;
    right; congruence.
Qed.

Lemma state4_output st : st_lt st -> state4_of (md_output st) = st.
Proof.
  destruct st as (((a, b), c), d). intros (Ha & Hb & Hc & Hd). unfold state4_of, md_output.
  rewrite (groups_unique 4 _ (map (le_bytes 4) [a; b; c; d])); auto.
  - cbn [map]. rewrite !le_num_bytes by assumption. reflexivity.
  - cbn [map]. repeat constructor; apply le_bytes_length8.
Qed.

Lemma md_collision step ops m m' :
  N.of_nat (length m) < 2 ^ 61 -> N.of_nat (length m') < 2 ^ 61 -> m <> m' ->
  md_spec step ops m = md_spec step ops m' ->
  step_collision (fun st b => Ok (md_compress step ops st b)) md_init
    (groups 64 (md_pad m)) (groups 64 (md_pad m')).
Proof.
  intros L L' Hn E. unfold md_spec in E.
  apply (f_equal state4_of) in E.
  rewrite !state4_output in E by apply compress_all_lt.
  rewrite !md_blocks in *.
  assert (C : coll (md_compress step ops) md_init (blocks 64 md_tail m) (blocks 64 md_tail m')).
  { apply (blocks_collision _ _ state4_dec 64 8 md_tail (fun k => ((119 - k mod 64) mod 64)%nat)
      (fun k => le_bytes 8 (8 * N.of_nat k mod 2 ^ 64))); auto.
    - lia.
    - exact md_tail_mul.
    - intros Hl Ef. apply Hl. apply (f_equal le_num) in Ef.
      change (256 ^ N.of_nat 8) with (2 ^ 64) in *.
      rewrite !le_num_bytes in Ef by (apply N.mod_lt; discriminate).
      rewrite !N.mod_small in Ef by lia. lia. }
  destruct C as (i & j & b & b' & E1 & E2 & N1 & E3).
  assert (R : forall bs h, run (fun st b => Ok (md_compress step ops st b)) bs h
     = Ok (fold_left (md_compress step ops) bs h)).
  { intros bs h. induction bs as [|c bs IH] using rev_ind; auto. unfold run in *.
    rewrite !fold_left_app, IH. reflexivity. }
  exists i, j, b, b'. do 3 eexists. do 2 (split; [eassumption|]). split; [apply R|]. split; [apply R|].
  split; [exact N1|]. rewrite E3. auto.
Qed.

Lemma md4_collision m m' :
  N.of_nat (length m) < 2 ^ 61 -> N.of_nat (length m') < 2 ^ 61 -> m <> m' -> md4_hash m = md4_hash m' ->
  step_collision (fun st b => Ok (md_compress md4_step md4_ops st b)) md_init
    (groups 64 (md_pad m)) (groups 64 (md_pad m')).
Proof.
  intros L L' Hn E. rewrite !md4_conforms in E by auto. apply Ok_inj in E. now apply md_collision.
Qed.
Lemma md5_collision m m' :
  N.of_nat (length m) < 2 ^ 61 -> N.of_nat (length m') < 2 ^ 61 -> m <> m' -> md5_hash m = md5_hash m' ->
  step_collision (fun st b => Ok (md_compress md5_step md5_ops st b)) md_init
    (groups 64 (md_pad m)) (groups 64 (md_pad m')).
Proof.
  intros L L' Hn E. rewrite !md5_conforms in E by auto. apply Ok_inj in E. now apply md_collision.
Qed.

(** ** Extension *)

Lemma sha_tail_bytes n l k : bytes (sha_tail n l k).
Proof.
  unfold sha_tail. constructor; [unfold byte; lia|]. apply Forall_app.
  split; [|apply be_bytes_bytes]. apply Forall_repeat. unfold byte. lia.
Qed.

Lemma sha1_extension m x d : bytes m -> bytes x ->
  N.of_nat (length (m ++ sha_tail 64 8 (length m) ++ x)) < 2 ^ 61 -> sha1 m = Ok d ->
  sha1 (m ++ sha_tail 64 8 (length m) ++ x) = Ok (sha1_extend d (length m) x).
Proof.
  intros Bm Bx L E.
  assert (Lm : N.of_nat (length m) < 2 ^ 61) by (rewrite app_length in L; lia).
  rewrite sha1_conforms in E by auto. apply Ok_inj in E. subst d.
  rewrite sha1_conforms; auto.
  2: { apply Forall_app. split; auto. apply Forall_app. split; auto. apply sha_tail_bytes. }
  f_equal. unfold sha1_extend. cbv zeta. unfold sha1_spec at 1.
  rewrite sha_blocks, blocks_extend; [|lia|apply sha_tail_mul; lia].
  rewrite fold_left_app. f_equal. f_equal. f_equal. unfold sha1_spec.
  rewrite (map_be_num_bytes 4 32); auto. now apply sha1_fold_ok.
Qed.

Section Sha2Extension.
Context (kind : sha2_kind) (init : list N).
Context (Hw : (0 < s2_word kind)%nat) (Hr : (16 <= s2_rounds kind)%nat)
  (Lk : length (sha2_k kind) = s2_rounds kind) (Hi : h8_ok (s2_bits kind) init).
Let n := (16 * s2_word kind)%nat.
Let l := (2 * s2_word kind)%nat.

Lemma sha2_extension m x : bytes m ->
  sha2_spec kind init 8 (m ++ sha_tail n l (length m) ++ x) =
  sha2_extend kind (sha2_spec kind init 8 m) (length m) x.
Proof.
  intros Bm. destruct (sha2_fold_ok kind (sha2_k kind) init Hw Hr Lk Hi m Bm) as [_ [F1 F2]].
  unfold sha2_extend, sha2_spec. cbv zeta. fold n l. rewrite !sha_blocks.
  rewrite blocks_extend; [|unfold n; lia|apply sha_tail_mul; unfold n, l; lia].
  rewrite fold_left_app. rewrite (firstn_all2 (fold_left _ (blocks _ _ m) _)).
  2: { fold n l in F1. rewrite sha_blocks in F1. rewrite F1. auto. }
  rewrite firstn_all2.
  2: { fold n l in F1. rewrite sha_blocks in F1. rewrite (fold_inv (fun h => length h = 8%nat)); auto.
       intros. now apply sha2_compress_length. }
  f_equal. f_equal. f_equal. symmetry. apply (map_be_num_bytes _ (s2_bits kind)); auto.
Qed.
End Sha2Extension.

Lemma sha256_extension m x d : bytes m -> bytes x ->
  N.of_nat (length (m ++ sha_tail 64 8 (length m) ++ x)) < 2 ^ 61 -> sha256 m = Ok d ->
  sha256 (m ++ sha_tail 64 8 (length m) ++ x) = Ok (sha2_extend sha256_kind d (length m) x).
Proof.
  intros Bm Bx L E.
  assert (Lm : N.of_nat (length m) < 2 ^ 61) by (rewrite app_length in L; lia).
  rewrite sha256_conforms in E by auto. apply Ok_inj in E. subst d.
  rewrite sha256_conforms; auto.
  2: { apply Forall_app. split; auto. apply Forall_app. split; auto. apply sha_tail_bytes. }
  f_equal. apply (sha2_extension sha256_kind sha256_init wordpos_256 rounds_256);
    [rewrite <- round_constants; exact klen_256| |exact Bm].
  rewrite <- initial_256. exact init_ok_256.
Qed.

Lemma sha512_extension m x d : bytes m -> bytes x ->
  N.of_nat (length (m ++ sha_tail 128 16 (length m) ++ x)) < 2 ^ 125 -> sha512 m = Ok d ->
  sha512 (m ++ sha_tail 128 16 (length m) ++ x) = Ok (sha2_extend sha512_kind d (length m) x).
Proof.
  intros Bm Bx L E.
  assert (Lm : N.of_nat (length m) < 2 ^ 125) by (rewrite app_length in L; lia).
  rewrite sha512_conforms in E by auto. apply Ok_inj in E. subst d.
  rewrite sha512_conforms; auto.
  2: { apply Forall_app. split; auto. apply Forall_app. split; auto. apply sha_tail_bytes. }
  f_equal. apply (sha2_extension sha512_kind sha512_init wordpos_512 rounds_512);
    [rewrite <- round_constants_big; exact klen_512| |exact Bm].
  rewrite <- initial_512. exact init_ok_512.
Qed.

Lemma md_extension step ops m x :
  md_spec step ops (m ++ md_tail (length m) ++ x) = md_extend step ops (md_spec step ops m) (length m) x.
Proof.
  unfold md_extend. cbv zeta. unfold md_spec at 1.
  rewrite md_blocks, blocks_extend; [|lia|exact md_tail_mul].
  rewrite fold_left_app. unfold md_spec. rewrite state4_output by apply compress_all_lt. reflexivity.
Qed.
Lemma md4_extension m x d : N.of_nat (length (m ++ md_tail (length m) ++ x)) < 2 ^ 61 -> md4_hash m = Ok d ->
  md4_hash (m ++ md_tail (length m) ++ x) = Ok (md_extend md4_step md4_ops d (length m) x).
Proof.
  intros L E. rewrite md4_conforms in E by (rewrite app_length in L; lia). apply Ok_inj in E. subst d.
  rewrite md4_conforms by auto. f_equal. apply md_extension.
Qed.
Lemma md5_extension m x d : N.of_nat (length (m ++ md_tail (length m) ++ x)) < 2 ^ 61 -> md5_hash m = Ok d ->
  md5_hash (m ++ md_tail (length m) ++ x) = Ok (md_extend md5_step md5_ops d (length m) x).
Proof.
  intros L E. rewrite md5_conforms in E by (rewrite app_length in L; lia). apply Ok_inj in E. subst d.
  rewrite md5_conforms by auto. f_equal. apply md_extension.
Qed.

(** ** Known collisions *)

Lemma not_injective (f : list N -> res (list N)) (m m' : list N) (d : list N) :
  (forallb (fun v => v <? 256) m && forallb (fun v => v <? 256) m')%bool = true ->
  (length m =? length m')%nat = true -> (be_num m =? be_num m') = false ->
  f m = Ok d -> f m' = Ok d ->
  exists m m' d, bytes m /\ bytes m' /\ length m = length m' /\ m <> m' /\ f m = Ok d /\ f m' = Ok d.
Proof.
  intros B L D E E'. apply andb_prop in B as [B B']. exists m, m', d.
  assert (F : forall l, forallb (fun v => v <? 256) l = true -> bytes l).
  { intros l H. apply Forall_forall. intros v Hv. rewrite forallb_forall in H. apply N.ltb_lt. auto. }
  split; [auto|]. split; [auto|]. split; [now apply Nat.eqb_eq|]. split; [|auto].
  intros ->. rewrite N.eqb_refl in D. discriminate.
Qed.

Lemma md4_not_injective : exists m m' d, bytes m /\ bytes m' /\ length m = length m' /\ m <> m' /\
  md4_hash m = Ok d /\ md4_hash m' = Ok d.
Proof.
  apply (not_injective md4_hash (fst md4_pair) (snd md4_pair) (be_bytes 16 0x4d7e6a1defa93d2dde05b45d864c429b));
    vm_compute; reflexivity.
Qed.
Lemma md5_not_injective : exists m m' d, bytes m /\ bytes m' /\ length m = length m' /\ m <> m' /\
  md5_hash m = Ok d /\ md5_hash m' = Ok d.
Proof.
  apply (not_injective md5_hash (fst md5_pair) (snd md5_pair) (be_bytes 16 0x79054025255fb1a26e4bc422aef54eb4));
    vm_compute; reflexivity.
Qed.
Lemma sha1_not_injective : exists m m' d, bytes m /\ bytes m' /\ length m = length m' /\ m <> m' /\
  sha1 m = Ok d /\ sha1 m' = Ok d.
Proof.
  apply (not_injective sha1 (fst sha1_pair) (snd sha1_pair) (be_bytes 20 0xf92d74e3874587aaf443d1db961d4e26dde13e9c));
    vm_compute; reflexivity.
Qed.

Lemma sha1_collisions_extend m m' x : bytes m -> bytes m' -> bytes x ->
  length m = length m' -> N.of_nat (length (m ++ sha_tail 64 8 (length m) ++ x)) < 2 ^ 61 ->
  sha1 m = sha1 m' ->
  sha1 (m ++ sha_tail 64 8 (length m) ++ x) = sha1 (m' ++ sha_tail 64 8 (length m') ++ x).
Proof.
  intros Bm Bm' Bx L Lx E.
  assert (Em : sha1 m = Ok (sha1_spec m)) by (apply sha1_conforms; auto; rewrite app_length in Lx; lia).
  assert (Em' : sha1 m' = Ok (sha1_spec m)) by congruence.
  rewrite (sha1_extension m x _ Bm Bx Lx Em).
  rewrite (sha1_extension m' x (sha1_spec m)); auto; [now rewrite L|].
  rewrite app_length, <- L. rewrite app_length in Lx. exact Lx.
Qed.
