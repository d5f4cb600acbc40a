(** * RC2 *)
From Coq Require Import ZifyBool ZifyNat ZifyN.
From Verif Require Import Base BaseLemmas ModelBlock ModelRc SpecBlock SpecEndian SpecWord SpecRc
  ProofEndian ProofWord.
Ltac Zify.zify_post_hook ::= Z.div_mod_to_equations.

Lemma PITABLE_eq : PITABLE = pi_table.
Proof. vm_compute. reflexivity. Qed.

Lemma pi_table_length : length pi_table = 256%nat.
Proof. reflexivity. Qed.

Lemma pi_lookup b : b < 256 -> idx PITABLE (ix b) = Ok (pi_at b).
Proof.
  intros H. rewrite PITABLE_eq. unfold pi_at, ix. apply idx_nth. rewrite pi_table_length. lia.
Qed.

Lemma pi_table_bytes : bytes pi_table.
Proof.
  assert (H : forallb (fun b => b <? 256) pi_table = true) by (vm_compute; reflexivity).
  apply Forall_forall. intros x Hx. rewrite forallb_forall in H. apply H in Hx.
  unfold byte. now apply N.ltb_lt.
Qed.

Lemma nth_byte l i : bytes l -> nth i l 0 < 256.
Proof.
  intros H. destruct (Nat.lt_ge_cases i (length l)).
  - now apply (Forall_nth_lt byte).
  - now rewrite nth_overflow.
Qed.

Lemma pi_at_lt b : pi_at b < 256.
Proof. apply nth_byte, pi_table_bytes. Qed.

Lemma PITABLE_perm : NoDup pi_table /\ length pi_table = 256%nat /\ (forall b, b < 256 -> In b pi_table).
Proof.
  split; [|split].
  - assert (H : (fix nodup (l : list N) : bool := match l with [] => true | a :: l' =>
        (negb (existsb (N.eqb a) l') && nodup l')%bool end) pi_table = true)
      by (vm_compute; reflexivity).
    revert H. generalize pi_table. induction l as [|a l IH]; intros H; [constructor|].
    apply andb_true_iff in H as [H1 H2]. constructor; [|auto].
    intros Hin. apply negb_true_iff in H1. rewrite <- not_true_iff_false in H1. apply H1.
    apply existsb_exists. exists a. split; auto. apply N.eqb_refl.
  - reflexivity.
  - intros b Hb.
    assert (H : forallb (fun b => existsb (N.eqb (N.of_nat b)) pi_table) (seq 0 256) = true)
      by (vm_compute; reflexivity).
    rewrite forallb_forall in H. specialize (H (N.to_nat b)).
    rewrite N2Nat.id in H. apply existsb_exists in H as (x & Hx & E); [|apply in_seq; lia].
    apply N.eqb_eq in E. now subst.
Qed.

(** ** Key expansion *)

(** The buffer of [n] bytes after the first loop has filled [i] of them. *)
Lemma extend_length t n l : length (rc2_extend t n l) = (length l + n)%nat.
Proof.
  revert l; induction n; intros l; cbn [rc2_extend]; [lia|]. rewrite IHn, app_length. cbn. lia.
Qed.

Lemma extend_bytes t n l : bytes l -> bytes (rc2_extend t n l).
Proof.
  revert l; induction n; intros l H; cbn [rc2_extend]; auto. apply IHn.
  apply Forall_app. split; auto. constructor; auto. apply pi_at_lt.
Qed.

Lemma extend_S t n l : rc2_extend t (S n) l =
  let m := rc2_extend t n l in
  m ++ [pi_at ((nth (length m - 1) m 0 + nth (length m - t) m 0) mod 256)].
Proof.
  revert l; induction n; intros l; [reflexivity|].
  cbn [rc2_extend]. cbn [rc2_extend] in IHn. rewrite IHn. reflexivity.
Qed.

Definition expand_loop1 t := fun i l =>
      let* i1 := nsub i 1 in
      let* a := idx l i1 in
      let* it := nsub i t in
      let* b := idx l it in
      let* v := idx PITABLE (ix (wadd 8 a b)) in
      upd l i v.

Lemma loop1_eq key : (1 <= length key <= 128)%nat -> bytes key ->
  forM (range (length key) 128) (expand_loop1 (length key)) (key ++ repeat 0 (128 - length key))
  = Ok (rc2_extend (length key) (128 - length key) key).
Proof.
  intros Hl Hb.
  destruct (forM_range_inv (fun i l => l = rc2_extend (length key) (i - length key) key ++ repeat 0 (128 - i))
    (expand_loop1 (length key)) (length key) 128 (key ++ repeat 0 (128 - length key))) as (l & E & P).
  - lia.
  - now rewrite Nat.sub_diag.
  - intros i l Hi ->. eexists. split; [|reflexivity].
    set (m := rc2_extend (length key) (i - length key) key).
    assert (Lm : length m = i) by (unfold m; rewrite extend_length; lia).
    assert (Bm : bytes m) by (now apply extend_bytes).
    unfold expand_loop1. rewrite nsub_ok by lia. cbn [bind].
    rewrite (idx_nth _ _ 0) by (rewrite app_length; lia). cbn [bind].
    rewrite nsub_ok by lia. cbn [bind].
    rewrite (idx_nth _ _ 0) by (rewrite app_length; lia). cbn [bind].
    rewrite !app_nth1 by lia.
    rewrite pi_lookup by apply (wadd_lt 8). cbn [bind].
    rewrite upd_ok by (rewrite app_length, repeat_length; lia).
    rewrite set_nth_app_r by (rewrite ?repeat_length; lia).
    replace (S i - length key)%nat with (S (i - length key)) by lia.
    rewrite extend_S. cbv zeta. fold m. rewrite Lm, <- app_assoc. cbn [app].
    f_equal. f_equal. unfold wadd. f_equal.
    rewrite skipn_repeat. f_equal. lia.
  - rewrite E, P. f_equal. rewrite Nat.sub_diag, app_nil_r. reflexivity.
Qed.

Lemma extend_back_length t8 n l : length (rc2_extend_back t8 n l) = (length l + n)%nat.
Proof. revert l; induction n; intros l; cbn [rc2_extend_back]; [lia|]. rewrite IHn. cbn. lia. Qed.

Lemma extend_back_bytes t8 n l : bytes l -> bytes (rc2_extend_back t8 n l).
Proof.
  revert l; induction n; intros l H; cbn [rc2_extend_back]; auto. apply IHn.
  constructor; auto. apply pi_at_lt.
Qed.

Lemma extend_back_S t8 n l : rc2_extend_back t8 (S n) l =
  let m := rc2_extend_back t8 n l in pi_at (N.lxor (nth 0 m 0) (nth (t8 - 1) m 0)) :: m.
Proof.
  revert l; induction n; intros l; [reflexivity|].
  cbn [rc2_extend_back]. cbn [rc2_extend_back] in IHn. rewrite IHn. reflexivity.
Qed.

Definition expand_loop2 t8 := fun i l =>
      let* a := idx l (i + 1) in
      let* b := idx l (i + t8) in
      let* v := idx PITABLE (ix (N.lxor a b)) in
      upd l i v.

Lemma loop2_eq (t8 : nat) (front back : list N) : (1 <= t8)%nat ->
  length back = t8 -> bytes back ->
  forM (rev (range 0 (length front))) (expand_loop2 t8) (front ++ back)
  = Ok (rc2_extend_back t8 (length front) back).
Proof.
  intros Ht Hlb Hb. set (n := length front).
  destruct (forM_rev_range_inv
    (fun i l => l = firstn i front ++ rc2_extend_back t8 (n - i) back)
    (expand_loop2 t8) 0 n (front ++ back)) as (l & E & P).
  - lia.
  - unfold n. now rewrite firstn_all, Nat.sub_diag.
  - intros i l Hi ->. eexists. split; [|reflexivity].
    set (m := rc2_extend_back t8 (n - S i) back).
    assert (Lm : length m = (t8 + (n - S i))%nat) by (unfold m; rewrite extend_back_length; lia).
    assert (Bm : bytes m) by (now apply extend_back_bytes).
    assert (Lf : length (firstn (S i) front) = S i) by (rewrite firstn_length; unfold n in *; lia).
    unfold expand_loop2.
    rewrite (idx_nth _ _ 0) by (rewrite app_length; lia). cbn [bind].
    rewrite (idx_nth _ _ 0) by (rewrite app_length; lia). cbn [bind].
    rewrite !app_nth2 by lia. rewrite Lf.
    rewrite pi_lookup by (apply lxor_byte; now apply nth_byte). cbn [bind].
    rewrite upd_ok by (rewrite app_length; lia).
    replace (n - i)%nat with (S (n - S i)) by lia. rewrite extend_back_S. cbv zeta. fold m.
    rewrite (firstn_S_nth front i 0) by (unfold n in *; lia). rewrite <- app_assoc.
    rewrite set_nth_app_r by (cbn [length app]; rewrite ?firstn_length; unfold n in *; lia).
    cbn [app skipn]. f_equal. f_equal. f_equal. f_equal. f_equal; f_equal; lia.
  - rewrite E, P. cbn [firstn app]. now rewrite Nat.sub_0_r.
Qed.

Lemma effective_mask t1 : 1 <= t1 <= 1024 ->
  wshr 0xff (N.land (wneg 16 t1) 7) = 255 mod 2 ^ (8 + t1 - 8 * ((t1 + 7) / 8)).
Proof.
  intros H.
  assert (E : N.land (wneg 16 t1) 7 = (8 - t1 mod 8) mod 8).
  { change 7 with (N.ones 3). rewrite N.land_ones. change (2 ^ 3) with 8.
    unfold wneg. change (2 ^ 16) with 65536. lia. }
  assert (F : 8 + t1 - 8 * ((t1 + 7) / 8) = 8 - (8 - t1 mod 8) mod 8) by lia.
  rewrite E, F.
  assert (R : t1 mod 8 < 8) by lia. revert R. generalize (t1 mod 8). intros r R.
  assert (C : r = 0 \/ r = 1 \/ r = 2 \/ r = 3 \/ r = 4 \/ r = 5 \/ r = 6 \/ r = 7) by lia.
  destruct C as [->|[->|[->|[->|[->|[->|[->| ->]]]]]]]; reflexivity.
Qed.

Lemma key_buffer_length key t1 : (1 <= length key <= 128)%nat -> 1 <= t1 <= 1024 ->
  length (rc2_key_buffer key t1) = 128%nat.
Proof.
  intros Hk Ht. unfold rc2_key_buffer. rewrite extend_back_length. cbn [length].
  rewrite skipn_length, extend_length. lia.
Qed.

Lemma key_buffer_bytes key t1 : bytes key -> bytes (rc2_key_buffer key t1).
Proof.
  intros Hb. unfold rc2_key_buffer. apply extend_back_bytes. constructor; [apply pi_at_lt|].
  apply Forall_skipn. now apply extend_bytes.
Qed.

Lemma words_loop l : length l = 128%nat ->
  forM (range 0 64) (fun i k =>
      let* a := idx l (i * 2) in
      let* b := idx l (i * 2 + 1) in
      upd k i (from_le [a; b])) (repeat 0 64) = Ok (map le_num (groups 2 l)).
Proof.
  intros Hl.
  destruct (forM_range_inv (fun i k => k = firstn i (map le_num (groups 2 l)) ++ repeat 0 (64 - i))
    (fun i k => let* a := idx l (i * 2) in let* b := idx l (i * 2 + 1) in upd k i (from_le [a; b]))
    0 64 (repeat 0 64)) as (k & E & P).
  - lia.
  - reflexivity.
  - intros i k Hi ->.
    assert (Lg : length (map le_num (groups 2 l)) = 64%nat)
      by (rewrite map_length, groups_length, Hl; reflexivity).
    eexists. split; [|reflexivity].
    rewrite (idx_nth _ _ 0) by lia. cbn [bind]. rewrite (idx_nth _ _ 0) by lia. cbn [bind].
    rewrite upd_ok by (rewrite app_length, firstn_length, repeat_length; lia).
    rewrite set_nth_app_r by (rewrite ?repeat_length, ?firstn_length; lia).
    rewrite (firstn_S_nth _ i 0) by lia. rewrite <- app_assoc. cbn [app].
    rewrite skipn_repeat. f_equal. f_equal. f_equal; [|f_equal; lia].
    rewrite (map_nth le_num (groups 2 l) [] i : nth i (map le_num (groups 2 l)) 0 = _).
    unfold groups. rewrite (nth_indep _ [] ((fun i => firstn 2 (skipn (2 * i) l)) O))
      by (rewrite map_length, seq_length, Hl; cbn; lia).
    rewrite (map_nth (fun i => firstn 2 (skipn (2 * i) l))), seq_nth by (rewrite Hl; cbn; lia).
    cbn [plus]. rewrite from_le_le_num. f_equal.
    apply (list_ext 0).
    + rewrite firstn_length, skipn_length. cbn [length]. lia.
    + intros j Hj. cbn [length] in Hj. rewrite nth_firstn' by lia. rewrite nth_skipn'.
      destruct j as [|[|j]]; cbn [nth]; [| |lia]; f_equal; lia.
  - rewrite E, P. rewrite firstn_all2 by (rewrite map_length, groups_length, Hl; cbn; lia).
    now rewrite app_nil_r.
Qed.

Lemma rc2_expand_key_eq key t1 :
  (1 <= length key <= 128)%nat -> bytes key -> 1 <= t1 <= 1024 ->
  rc2_from_key key t1 = Ok (rc2_schedule key t1).
Proof.
  intros Hk Hb Ht. unfold rc2_from_key, rc2_expand_key.
  rewrite copy_range_ok by (rewrite ?repeat_length; lia). cbn [bind firstn app].
  rewrite skipn_repeat.
  change (forM (range (length key) 128) _ _) with
    (forM (range (length key) 128) (expand_loop1 (length key)) (key ++ repeat 0 (128 - length key))).
  rewrite loop1_eq by auto. cbn [bind].
  rewrite csub_ok by lia. cbn [bind].
  set (l1 := rc2_extend (length key) (128 - length key) key).
  assert (L1 : length l1 = 128%nat) by (unfold l1; rewrite extend_length; lia).
  assert (B1 : bytes l1) by (now apply extend_bytes).
  set (t8 := (t1 + 7) / 8).
  assert (Hs : ix (128 - t8) = (128 - N.to_nat t8)%nat) by (unfold ix; lia).
  rewrite Hs. set (s := (128 - N.to_nat t8)%nat).
  assert (Hs' : (s < 128)%nat) by (unfold s, t8; lia).
  rewrite (idx_nth _ _ 0) by lia. cbn [bind].
  rewrite effective_mask by auto.
  rewrite pi_lookup
    by (apply (N.le_lt_trans _ (nth s l1 0)); [|now apply nth_byte];
        rewrite N.land_comm; apply N.ldiff_le, N.bits_inj_0; intros i;
        rewrite N.ldiff_spec, N.land_spec; now destruct (N.testbit (nth s l1 0) i), (N.testbit _ i)).
  cbn [bind]. rewrite upd_ok by lia. cbn [bind].
  unfold set_nth.
  assert (Lf : length (firstn s l1) = s) by (rewrite firstn_length; lia).
  change (forM (rev (range 0 s)) _ ?x) with (forM (rev (range 0 s)) (expand_loop2 (ix t8)) x).
  rewrite <- Lf at 1. rewrite loop2_eq.
  - cbn [bind]. rewrite Lf.
    unfold rc2_schedule. rewrite <- words_loop by now apply key_buffer_length.
    reflexivity.
  - unfold ix, t8; lia.
  - cbn [length]. rewrite skipn_length, L1. unfold ix, s, t8. lia.
  - constructor; [apply pi_at_lt|]. now apply Forall_skipn.
Qed.

Lemma rc2_expand_key_panics key t1 : bytes key ->
  ~ ((1 <= length key <= 128)%nat /\ 1 <= t1 <= 1024) ->
  rc2_from_key key t1 =
    Panic (if (128 <? length key)%nat then PIndex
           else if (length key =? 0)%nat then POverflow
           else if t1 =? 0 then PIndex else POverflow).
Proof.
  intros Hb Hn. unfold rc2_from_key, rc2_expand_key.
  destruct (Nat.ltb_spec 128 (length key)) as [Hl|Hl].
  - unfold copy_range. rewrite repeat_length.
    rewrite (proj2 (Nat.leb_gt (length key) 128)) by lia. reflexivity.
  - rewrite copy_range_ok by (rewrite ?repeat_length; lia). cbn [bind firstn app].
    destruct (Nat.eqb_spec (length key) 0) as [H0|H0].
    + rewrite H0. reflexivity.
    + rewrite skipn_repeat.
      change (forM (range (length key) 128) _ _) with
        (forM (range (length key) 128) (expand_loop1 (length key)) (key ++ repeat 0 (128 - length key))).
      rewrite loop1_eq by (auto; lia). cbn [bind].
      set (l1 := rc2_extend (length key) (128 - length key) key).
      assert (L1 : length l1 = 128%nat) by (unfold l1; rewrite extend_length; lia).
      destruct (N.eqb_spec t1 0) as [->|Ht].
      * change ((0 + 7) / 8) with 0. rewrite csub_ok by lia. cbn [bind].
        rewrite idx_panic by (rewrite L1; unfold ix; lia). reflexivity.
      * destruct (N.le_gt_cases t1 1024); [exfalso; apply Hn; lia|].
        rewrite csub_panic by lia. reflexivity.
Qed.

(** ** Encryption and decryption *)

Definition rc2_key_ok (k : list N) : Prop := length k = 64%nat /\ Forall (fun w => w < 2 ^ 16) k.

Lemma key_nth_lt k j : rc2_key_ok k -> nth j k 0 < 2 ^ 16.
Proof.
  intros [Hl H]. destruct (Nat.lt_ge_cases j (length k)).
  - now apply (Forall_nth_lt (fun w => w < 2 ^ 16)).
  - rewrite nth_overflow by auto. reflexivity.
Qed.

Lemma schedule_ok key t1 :
  (1 <= length key <= 128)%nat -> bytes key -> 1 <= t1 <= 1024 -> rc2_key_ok (rc2_schedule key t1).
Proof.
  intros Hk Hb Ht. unfold rc2_schedule.
  pose proof (key_buffer_length key t1 Hk Ht) as L.
  destruct (concat_groups 2 64 (rc2_key_buffer key t1) ltac:(lia) L) as (C & Lg & F).
  split; [now rewrite map_length|].
  apply Forall_forall. intros w Hw. apply in_map_iff in Hw as (g & <- & Hg).
  rewrite <- from_le_le_num. rewrite Forall_forall in F. specialize (F _ Hg).
  change 2 with (N.of_nat 2). change 16 with (8 * 2). rewrite N.pow_mul_r. change (N.of_nat 2 ^ 8) with 256.
  change 2 with (N.of_nat 2). rewrite <- F. apply from_le_lt.
  pose proof (key_buffer_bytes key t1 Hb) as B. rewrite <- C in B.
  apply Forall_forall. intros b Hbg. unfold bytes in B. rewrite Forall_forall in B. apply B.
  apply in_concat. eauto.
Qed.

Definition words4 (st : rc2_state) : list N := let '(r0, r1, r2, r3, _) := st in [r0; r1; r2; r3].
Definition st_ok (st : rc2_state) : Prop :=
  let '(r0, r1, r2, r3, _) := st in r0 < 2 ^ 16 /\ r1 < 2 ^ 16 /\ r2 < 2 ^ 16 /\ r3 < 2 ^ 16.

Lemma mixup_eq k s j r r1 r2 r3 : r1 < 2 ^ 16 ->
  rotl 16 (wadd 16 (wadd 16 (wadd 16 r (nth j k 0)) (N.land r1 r2)) (N.land (wnot 16 r1) r3)) s
  = mixup k s j r r1 r2 r3.
Proof.
  intros H. unfold mixup. rewrite rol_rotl by (try apply wadd_lt; lia).
  rewrite wnot_not by auto. f_equal.
  unfold wadd at 3. rewrite wadd_mod_l. rewrite wadd_mod_l. reflexivity.
Qed.

Lemma mixup_lt k s j r r1 r2 r3 : mixup k s j r r1 r2 r3 < 2 ^ 16.
Proof.
  unfold mixup. rewrite <- rol_rotl by (try apply mod_pow2_lt; lia). apply rotl_lt, mod_pow2_lt.
Qed.

Lemma mash_lt k r r1 : mash k r r1 < 2 ^ 16.
Proof. apply mod_pow2_lt. Qed.

Lemma mix_eq k r0 r1 r2 r3 j : (j + 4 <= length k)%nat -> st_ok (r0, r1, r2, r3, j) ->
  rc2_mix (skipn j k) [r0; r1; r2; r3] = Ok (words4 (mixing_round k (r0, r1, r2, r3, j))) /\
  st_ok (mixing_round k (r0, r1, r2, r3, j)).
Proof.
  intros Hj (H0 & H1 & H2 & H3). split.
  - unfold rc2_mix, rc2_shifts, enumerate.
    cbn [enumerate_from forM idx nth_error bind Nat.modulo Nat.divmod Nat.add Nat.sub fst snd].
    change ((3 mod 4)%nat) with 3%nat.
    rewrite !(idx_nth _ _ 0) by (rewrite skipn_length; lia). cbn [bind].
    rewrite !nth_skipn'.
    unfold upd at 1. cbn [length Nat.ltb Nat.leb firstn skipn app bind idx nth_error].
    rewrite mixup_eq by auto.
    unfold upd at 1. cbn [length Nat.ltb Nat.leb firstn skipn app bind idx nth_error].
    rewrite mixup_eq by apply mixup_lt.
    unfold upd at 1. cbn [length Nat.ltb Nat.leb firstn skipn app bind idx nth_error].
    rewrite mixup_eq by apply mixup_lt.
    unfold upd at 1. cbn [length Nat.ltb Nat.leb firstn skipn app bind idx nth_error].
    rewrite mixup_eq by apply mixup_lt.
    rewrite Nat.add_0_r. reflexivity.
  - repeat split; apply mixup_lt.
Qed.

Lemma mash_eq k r0 r1 r2 r3 j : length k = 64%nat ->
  rc2_mash k [r0; r1; r2; r3] = Ok (words4 (mashing_round k (r0, r1, r2, r3, j))) /\
  st_ok (mashing_round k (r0, r1, r2, r3, j)).
Proof.
  intros Hk. split.
  - assert (L : forall r, idx k (ix (N.land r 63)) = Ok (nth (N.to_nat (N.land r 63)) k 0)).
    { intros r. apply idx_nth. rewrite Hk. change 63 with (N.ones 6). rewrite N.land_ones.
      unfold ix. pose proof (mod_pow2_lt r 6). change (2 ^ 6) with 64 in *. lia. }
    unfold rc2_mash. change (range 0 4) with [0; 1; 2; 3]%nat.
    cbn [forM idx nth_error bind Nat.modulo Nat.divmod Nat.add Nat.sub fst snd].
    rewrite L. cbn [bind].
    unfold upd at 1. cbn [length Nat.ltb Nat.leb firstn skipn app bind idx nth_error].
    rewrite L. cbn [bind].
    unfold upd at 1. cbn [length Nat.ltb Nat.leb firstn skipn app bind idx nth_error].
    rewrite L. cbn [bind].
    unfold upd at 1. cbn [length Nat.ltb Nat.leb firstn skipn app bind idx nth_error].
    rewrite L. cbn [bind].
    unfold upd at 1. cbn [length Nat.ltb Nat.leb firstn skipn app bind idx nth_error].
    reflexivity.
  - repeat split; apply mash_lt.
Qed.

(** The first [n] rounds of the loop. *)
Definition rc2_part (k : list N) (n : nat) (st : rc2_state) : rc2_state :=
  fold_left (fun st i =>
    let st := mixing_round k st in
    if ((i =? 4) || (i =? 10))%nat%bool then mashing_round k st else st) (seq 0 n) st.

Lemma rc2_part_S k n st : rc2_part k (S n) st =
  let st := mixing_round k (rc2_part k n st) in
  if ((n =? 4) || (n =? 10))%nat%bool then mashing_round k st else st.
Proof. unfold rc2_part. rewrite seq_S, fold_left_app. reflexivity. Qed.

Lemma rc2_part_all k st : rc2_part k 16 st = rc2_rounds k st.
Proof. reflexivity. Qed.

Lemma encrypt_block_eq k r0 r1 r2 r3 : length k = 64%nat -> st_ok (r0, r1, r2, r3, O) ->
  rc2_encrypt_block k [r0; r1; r2; r3] = Ok (words4 (rc2_rounds k (r0, r1, r2, r3, O))) /\
  st_ok (rc2_rounds k (r0, r1, r2, r3, O)).
Proof.
  intros Hk H0. unfold rc2_encrypt_block.
  destruct (forM_range_inv (fun i data => data = words4 (rc2_part k i (r0, r1, r2, r3, O)) /\
      st_ok (rc2_part k i (r0, r1, r2, r3, O)) /\
      snd (rc2_part k i (r0, r1, r2, r3, O)) = (4 * i)%nat)
    (fun i data =>
      let* keys := slice_from k (4 * i) in
      let* data := rc2_mix keys data in
      if ((i =? 4) || (i =? 10))%nat%bool then rc2_mash k data else Ok data) 0 16
    [r0; r1; r2; r3]) as (data & E & P & Q & _).
  - lia.
  - split; [reflexivity|]. split; [exact H0|reflexivity].
  - intros i data Hi (-> & Hok & Hj). rewrite rc2_part_S.
    destruct (rc2_part k i (r0, r1, r2, r3, O)) as ((((x0, x1), x2), x3), j).
    cbn [snd] in Hj. subst j.
    rewrite slice_from_ok by lia. cbn [bind].
    destruct (mix_eq k x0 x1 x2 x3 (4 * i) ltac:(lia) Hok) as [M Mok].
    change (words4 (x0, x1, x2, x3, (4 * i)%nat)) with [x0; x1; x2; x3].
    rewrite M. cbn [bind].
    assert (Hj : snd (mixing_round k (x0, x1, x2, x3, (4 * i)%nat)) = (4 * S i)%nat) by (cbn [mixing_round snd]; lia).
    destruct (mixing_round k (x0, x1, x2, x3, (4 * i)%nat)) as ((((y0, y1), y2), y3), j).
    cbn [snd] in Hj. subst j. cbv zeta.
    destruct ((i =? 4) || (i =? 10))%nat%bool.
    + change (words4 (y0, y1, y2, y3, (4 * S i)%nat)) with [y0; y1; y2; y3].
      destruct (mash_eq k y0 y1 y2 y3 (4 * S i) Hk) as [A Aok]. rewrite A.
      eexists. split; [reflexivity|]. split; [reflexivity|]. split; [exact Aok|reflexivity].
    + eexists. split; [reflexivity|]. split; [reflexivity|]. split; [exact Mok|reflexivity].
  - rewrite rc2_part_all in *. rewrite E, P. split; [exact eq_refl|exact Q].
Qed.

(** Loading and storing. *)
Lemma load_eq block : length block = 8%nat ->
  rc2_load block = Ok (map le_num (groups 2 block)).
Proof.
  intros H. do 8 (destruct block as [|? block]; try discriminate H).
  destruct block; [|discriminate H]. reflexivity.
Qed.

Lemma store_eq r0 r1 r2 r3 : rc2_store [r0; r1; r2; r3] = Ok (concat (map (le_bytes 2) [r0; r1; r2; r3])).
Proof.
  unfold rc2_store. change (range 0 4) with [0; 1; 2; 3]%nat.
  cbn [forM idx nth_error bind]. rewrite !to_le_le_bytes. reflexivity.
Qed.

Lemma le_bytes_length k v : length (le_bytes k v) = k.
Proof. unfold le_bytes. now rewrite map_length, seq_length. Qed.

Lemma le_bytes_bytes k v : bytes (le_bytes k v).
Proof. rewrite <- to_le_le_bytes. apply to_le_bytes. Qed.

Lemma le_num_lt l : bytes l -> le_num l < 256 ^ N.of_nat (length l).
Proof. intros. rewrite <- from_le_le_num. now apply from_le_lt. Qed.

Lemma le_bytes_num l k : bytes l -> length l = k -> le_bytes k (le_num l) = l.
Proof. intros H <-. rewrite <- to_le_le_bytes, <- from_le_le_num. now apply to_le_from_le. Qed.

Lemma load_words block : length block = 8%nat -> bytes block ->
  exists r0 r1 r2 r3, map le_num (groups 2 block) = [r0; r1; r2; r3] /\ st_ok (r0, r1, r2, r3, O) /\
    concat (map (le_bytes 2) [r0; r1; r2; r3]) = block.
Proof.
  intros H Hb. do 8 (destruct block as [|? block]; try discriminate H).
  destruct block; [|discriminate H].
  unfold bytes in Hb. rewrite !Forall_cons_iff in Hb. unfold byte in Hb.
  exists (le_num [n; n0]), (le_num [n1; n2]), (le_num [n3; n4]), (le_num [n5; n6]).
  split; [reflexivity|]. split.
  - repeat split; unfold le_num; cbn [fold_right]; change (2 ^ 16) with 65536; lia.
  - cbn [map concat].
    rewrite !le_bytes_num
      by (try reflexivity; repeat (apply Forall_cons; [unfold byte; tauto|]); apply Forall_nil).
    reflexivity.
Qed.

Lemma rc2_encrypt_eq k block : length k = 64%nat -> length block = 8%nat -> bytes block ->
  rc2_encrypt k block = Ok (rc2_spec_encrypt k block).
Proof.
  intros Hk Hl Hb. unfold rc2_encrypt, rc2_spec_encrypt. rewrite load_eq by auto. cbn [bind].
  destruct (load_words block Hl Hb) as (r0 & r1 & r2 & r3 & -> & Hok & _). cbn [nth].
  destruct (encrypt_block_eq k r0 r1 r2 r3 Hk Hok) as [-> _]. cbn [bind].
  destruct (rc2_rounds k (r0, r1, r2, r3, O)) as ((((y0, y1), y2), y3), j). apply store_eq.
Qed.

(** ** Inversion *)

Definition unmix (k : list N) (s : N) (j : nat) (r r1 r2 r3 : N) : N :=
  wsub 16 (wsub 16 (wsub 16 (rotr 16 r s) (nth j k 0)) (N.land r1 r2)) (N.land (wnot 16 r1) r3).

Definition unmixing_round (k : list N) (st : rc2_state) : rc2_state :=
  let '(r0, r1, r2, r3, j) := st in
  let j := (j - 4)%nat in
  let r3 := unmix k 5 (j + 3) r3 r2 r1 r0 in
  let r2 := unmix k 3 (j + 2) r2 r1 r0 r3 in
  let r1 := unmix k 2 (j + 1) r1 r0 r3 r2 in
  let r0 := unmix k 1 j r0 r3 r2 r1 in
  (r0, r1, r2, r3, j).

Definition unmash (k : list N) (r r1 : N) : N := wsub 16 r (nth (N.to_nat (N.land r1 63)) k 0).

Definition unmashing_round (k : list N) (st : rc2_state) : rc2_state :=
  let '(r0, r1, r2, r3, j) := st in
  let r3 := unmash k r3 r2 in
  let r2 := unmash k r2 r1 in
  let r1 := unmash k r1 r0 in
  let r0 := unmash k r0 r3 in
  (r0, r1, r2, r3, j).

Lemma unmix_mixup k s j r r1 r2 r3 : rc2_key_ok k -> r < 2 ^ 16 -> r1 < 2 ^ 16 -> r2 < 2 ^ 16 ->
  r3 < 2 ^ 16 ->
  unmix k s j (mixup k s j r r1 r2 r3) r1 r2 r3 = r.
Proof.
  intros Hk Hr H1 H2 H3. rewrite <- mixup_eq by auto. unfold unmix.
  rewrite rotr_rotl by (try apply wadd_lt; lia).
  pose proof (key_nth_lt k j Hk). pose proof (land_lt_l r1 r2 16 H1).
  pose proof (land_lt_l _ r3 16 (wnot_lt 16 r1 H1)).
  unfold wsub, wadd. change (2 ^ 16) with 65536 in *.
  generalize dependent (nth j k 0). generalize dependent (N.land r1 r2).
  generalize dependent (N.land (wnot 16 r1) r3). intros. lia.
Qed.

Lemma mixup_unmix k s j r r1 r2 r3 : rc2_key_ok k -> r < 2 ^ 16 -> r1 < 2 ^ 16 -> r2 < 2 ^ 16 ->
  r3 < 2 ^ 16 ->
  mixup k s j (unmix k s j r r1 r2 r3) r1 r2 r3 = r.
Proof.
  intros Hk Hr H1 H2 H3. rewrite <- mixup_eq by auto. unfold unmix.
  pose proof (rotr_lt 16 r s Hr) as Hrr.
  rewrite <- (rotl_rotr 16 r s) at 2 by (auto; lia). f_equal.
  pose proof (key_nth_lt k j Hk). pose proof (land_lt_l r1 r2 16 H1).
  pose proof (land_lt_l _ r3 16 (wnot_lt 16 r1 H1)).
  unfold wsub, wadd. change (2 ^ 16) with 65536 in *.
  generalize dependent (nth j k 0). generalize dependent (N.land r1 r2).
  generalize dependent (N.land (wnot 16 r1) r3). generalize dependent (rotr 16 r s). intros. lia.
Qed.

Lemma unmix_lt k s j r r1 r2 r3 : unmix k s j r r1 r2 r3 < 2 ^ 16.
Proof. apply wsub_lt. Qed.
Lemma unmash_lt k r r1 : unmash k r r1 < 2 ^ 16.
Proof. apply wsub_lt. Qed.

Lemma rmix_eq k r0 r1 r2 r3 j : (j + 4 <= length k)%nat ->
  rc2_rmix (skipn j k) [r0; r1; r2; r3]
    = Ok (words4 (unmixing_round k (r0, r1, r2, r3, (j + 4)%nat))).
Proof.
  intros Hj. unfold rc2_rmix, rc2_shifts, enumerate, unmixing_round.
  replace (j + 4 - 4)%nat with j by lia.
  cbn [enumerate_from rev app].
  cbn [forM idx nth_error bind Nat.modulo Nat.divmod Nat.add Nat.sub fst snd].
  rewrite !(idx_nth _ _ 0) by (rewrite skipn_length; lia). cbn [bind].
  rewrite !nth_skipn'. rewrite Nat.add_0_r.
  do 4 (unfold upd at 1; cbn [length Nat.ltb Nat.leb firstn skipn app bind idx nth_error]).
  reflexivity.
Qed.

Lemma rmash_eq k r0 r1 r2 r3 j : length k = 64%nat ->
  rc2_rmash k [r0; r1; r2; r3] = Ok (words4 (unmashing_round k (r0, r1, r2, r3, j))).
Proof.
  intros Hk.
  assert (L : forall r, idx k (ix (N.land r 63)) = Ok (nth (N.to_nat (N.land r 63)) k 0)).
  { intros r. apply idx_nth. rewrite Hk. change 63 with (N.ones 6). rewrite N.land_ones.
    unfold ix. pose proof (mod_pow2_lt r 6). change (2 ^ 6) with 64 in *. lia. }
  unfold rc2_rmash. change (rev (range 0 4)) with [3; 2; 1; 0]%nat.
  cbn [forM idx nth_error bind Nat.modulo Nat.divmod Nat.add Nat.sub fst snd].
  do 4 (rewrite L; cbn [bind]; unfold upd at 1;
        cbn [length Nat.ltb Nat.leb firstn skipn app bind idx nth_error]).
  reflexivity.
Qed.

Lemma unmix_mix_round k r0 r1 r2 r3 j : rc2_key_ok k -> st_ok (r0, r1, r2, r3, j) ->
  unmixing_round k (mixing_round k (r0, r1, r2, r3, j)) = (r0, r1, r2, r3, j).
Proof.
  intros Hk (H0 & H1 & H2 & H3). cbn [mixing_round]. unfold unmixing_round.
  replace (j + 4 - 4)%nat with j by lia.
  rewrite !unmix_mixup by (auto using mixup_lt). reflexivity.
Qed.

Lemma mix_unmix_round k r0 r1 r2 r3 j : rc2_key_ok k -> st_ok (r0, r1, r2, r3, (j + 4)%nat) ->
  mixing_round k (unmixing_round k (r0, r1, r2, r3, (j + 4)%nat)) = (r0, r1, r2, r3, (j + 4)%nat).
Proof.
  intros Hk (H0 & H1 & H2 & H3). cbn [unmixing_round]. unfold mixing_round.
  replace (j + 4 - 4)%nat with j by lia.
  rewrite !mixup_unmix by (auto using unmix_lt). reflexivity.
Qed.

Lemma unmash_mash k r r1 : rc2_key_ok k -> r < 2 ^ 16 -> unmash k (mash k r r1) r1 = r.
Proof. intros. apply wsub_wadd; auto. now apply key_nth_lt. Qed.
Lemma mash_unmash k r r1 : rc2_key_ok k -> r < 2 ^ 16 -> mash k (unmash k r r1) r1 = r.
Proof. intros. apply wadd_wsub; auto. now apply key_nth_lt. Qed.

Lemma unmash_mash_round k st : rc2_key_ok k -> st_ok st ->
  unmashing_round k (mashing_round k st) = st.
Proof.
  destruct st as ((((r0, r1), r2), r3), j). intros Hk (H0 & H1 & H2 & H3).
  cbn [mashing_round unmashing_round].
  rewrite !unmash_mash by (auto using mash_lt). reflexivity.
Qed.

Lemma mash_unmash_round k st : rc2_key_ok k -> st_ok st ->
  mashing_round k (unmashing_round k st) = st.
Proof.
  destruct st as ((((r0, r1), r2), r3), j). intros Hk (H0 & H1 & H2 & H3).
  cbn [mashing_round unmashing_round].
  rewrite !mash_unmash by (auto using unmash_lt). reflexivity.
Qed.

(** The rounds [n-1, ..., 0] undone, in this order. *)
Definition rc2_unpart (k : list N) (n : nat) (st : rc2_state) : rc2_state :=
  fold_left (fun st i =>
    let st := if ((i =? 4) || (i =? 10))%nat%bool then unmashing_round k st else st in
    unmixing_round k st) (rev (seq 0 n)) st.

Lemma rc2_unpart_S k n st : rc2_unpart k (S n) st =
  rc2_unpart k n (unmixing_round k
    (if ((n =? 4) || (n =? 10))%nat%bool then unmashing_round k st else st)).
Proof. unfold rc2_unpart. rewrite seq_S, rev_app_distr. reflexivity. Qed.

Lemma st_ok_any r0 r1 r2 r3 j j' : st_ok (r0, r1, r2, r3, j) -> st_ok (r0, r1, r2, r3, j').
Proof. auto. Qed.

Definition st_at (j : nat) (st : rc2_state) : Prop := st_ok st /\ snd st = j.

Lemma mixing_at k j st : st_at j st -> st_at (j + 4) (mixing_round k st).
Proof.
  destruct st as ((((r0, r1), r2), r3), j'). intros [H E]. cbn [snd] in E. subst.
  split; [|reflexivity]. repeat split; apply mixup_lt.
Qed.
Lemma mashing_at k j st : st_at j st -> st_at j (mashing_round k st).
Proof.
  destruct st as ((((r0, r1), r2), r3), j'). intros [H E]. cbn [snd] in E. subst.
  split; [|reflexivity]. repeat split; apply mash_lt.
Qed.
Lemma unmixing_at k j st : st_at (j + 4) st -> st_at j (unmixing_round k st).
Proof.
  destruct st as ((((r0, r1), r2), r3), j'). intros [H E]. cbn [snd] in E. subst.
  split; [repeat split; apply unmix_lt|]. cbn [unmixing_round snd]. lia.
Qed.
Lemma unmashing_at k j st : st_at j st -> st_at j (unmashing_round k st).
Proof.
  destruct st as ((((r0, r1), r2), r3), j'). intros [H E]. cbn [snd] in E. subst.
  split; [|reflexivity]. repeat split; apply unmash_lt.
Qed.
Lemma part_at k n st : st_at 0 st -> st_at (4 * n) (rc2_part k n st).
Proof.
  intros H. induction n; [exact H|]. rewrite rc2_part_S. cbv zeta.
  replace (4 * S n)%nat with (4 * n + 4)%nat by lia.
  destruct ((n =? 4) || (n =? 10))%nat%bool; [apply mashing_at|]; now apply mixing_at.
Qed.
Lemma unpart_at k n st : st_at (4 * n) st -> st_at 0 (rc2_unpart k n st).
Proof.
  revert st. induction n; intros st H; [exact H|]. rewrite rc2_unpart_S. apply IHn.
  replace (4 * S n)%nat with (4 * n + 4)%nat in H by lia.
  apply unmixing_at. destruct ((n =? 4) || (n =? 10))%nat%bool; [apply unmashing_at|]; auto.
Qed.

Lemma unpart_part k n st : rc2_key_ok k -> st_at 0 st -> rc2_unpart k n (rc2_part k n st) = st.
Proof.
  intros Hk H. induction n; [reflexivity|]. rewrite rc2_part_S, rc2_unpart_S. cbv zeta.
  pose proof (part_at k n st H) as P. pose proof (mixing_at k _ _ P) as M.
  transitivity (rc2_unpart k n (rc2_part k n st)); [f_equal|exact IHn].
  assert (E : unmixing_round k (mixing_round k (rc2_part k n st)) = rc2_part k n st).
  { destruct (rc2_part k n st) as ((((r0, r1), r2), r3), j). apply unmix_mix_round; auto. apply P. }
  destruct ((n =? 4) || (n =? 10))%nat%bool; auto.
  rewrite unmash_mash_round; [exact E|exact Hk|apply M].
Qed.

Lemma part_unpart k n st : rc2_key_ok k -> st_at (4 * n) st -> rc2_part k n (rc2_unpart k n st) = st.
Proof.
  intros Hk. revert st. induction n; intros st H; [reflexivity|].
  rewrite rc2_part_S, rc2_unpart_S. cbv zeta.
  replace (4 * S n)%nat with (4 * n + 4)%nat in H by lia.
  set (st1 := if ((n =? 4) || (n =? 10))%nat%bool then unmashing_round k st else st).
  assert (H1 : st_at (4 * n + 4) st1)
    by (unfold st1; destruct ((n =? 4) || (n =? 10))%nat%bool; [apply unmashing_at|]; auto).
  rewrite IHn by now apply unmixing_at.
  assert (E : mixing_round k (unmixing_round k st1) = st1).
  { destruct st1 as ((((r0, r1), r2), r3), j) eqn:E. destruct H1 as [H1 H2]. cbn [snd] in H2. subst j.
    apply mix_unmix_round; auto. }
  rewrite E. unfold st1. destruct ((n =? 4) || (n =? 10))%nat%bool; auto.
  apply mash_unmash_round; auto. apply H.
Qed.

Lemma decrypt_loop k n st : length k = 64%nat -> (n <= 16)%nat -> st_at (4 * n) st ->
  forM (rev (range 0 n)) (fun i data =>
      let* data := if ((i =? 4) || (i =? 10))%nat%bool
                   then rc2_rmash k data else Ok data in
      let* keys := slice_from k (4 * i) in
      rc2_rmix keys data) (words4 st) = Ok (words4 (rc2_unpart k n st)).
Proof.
  intros Hk. revert st. induction n; intros st Hn H; [reflexivity|].
  rewrite range_snoc, rev_app_distr by lia. cbn [rev app].
  rewrite rc2_unpart_S. cbn [forM].
  replace (4 * S n)%nat with (4 * n + 4)%nat in H by lia.
  set (st1 := if ((n =? 4) || (n =? 10))%nat%bool then unmashing_round k st else st).
  assert (H1 : st_at (4 * n + 4) st1)
    by (unfold st1; destruct ((n =? 4) || (n =? 10))%nat%bool; [apply unmashing_at|]; auto).
  assert (E : (if ((n =? 4) || (n =? 10))%nat%bool then rc2_rmash k (words4 st) else Ok (words4 st))
              = Ok (words4 st1)).
  { unfold st1. destruct ((n =? 4) || (n =? 10))%nat%bool; auto.
    destruct st as ((((r0, r1), r2), r3), j). now apply rmash_eq. }
  rewrite E. cbn [bind]. rewrite slice_from_ok by lia. cbn [bind].
  rewrite <- IHn; [|lia|now apply unmixing_at].
  destruct st1 as ((((r0, r1), r2), r3), j). destruct H1 as [H1 H2]. cbn [snd] in H2. subst j.
  cbn [words4]. rewrite rmix_eq by lia. reflexivity.
Qed.

Opaque rc2_part rc2_unpart rc2_rounds.

Lemma rc2_inverse k block : rc2_key_ok k -> length block = 8%nat -> bytes block ->
  exists e d, rc2_encrypt k block = Ok e /\ length e = 8%nat /\ bytes e /\ rc2_decrypt k e = Ok block /\
              rc2_decrypt k block = Ok d /\ length d = 8%nat /\ bytes d /\ rc2_encrypt k d = Ok block.
Proof.
  intros Hk Hl Hb. pose proof (proj1 Hk) as Lk.
  destruct (load_words block Hl Hb) as (r0 & r1 & r2 & r3 & Hw & Hok & Hc).
  assert (W : forall y0 y1 y2 y3, let b := concat (map (le_bytes 2) [y0; y1; y2; y3]) in
     length b = 8%nat /\ bytes b).
  { intros y0 y1 y2 y3. cbv zeta. split; [reflexivity|]. cbn [map concat].
    repeat (apply Forall_app; split; [apply le_bytes_bytes|]). constructor. }
  assert (R : forall y0 y1 y2 y3, st_ok (y0, y1, y2, y3, O) ->
     rc2_load (concat (map (le_bytes 2) [y0; y1; y2; y3])) = Ok [y0; y1; y2; y3]).
  { intros y0 y1 y2 y3 (A0 & A1 & A2 & A3). rewrite load_eq by apply W.
    rewrite (groups_unique 2 _ (map (le_bytes 2) [y0; y1; y2; y3])); auto.
    - rewrite map_map. f_equal. cbn [map]. rewrite <- !to_le_le_bytes, <- !from_le_le_num.
      rewrite !from_le_to_le, !N.mod_small by auto. reflexivity.
    - apply Forall_forall. intros x Hx. apply in_map_iff in Hx as (v & <- & _). apply le_bytes_length. }
  (* encryption first *)
  destruct (encrypt_block_eq k r0 r1 r2 r3 Lk Hok) as [E Eok].
  rewrite <- rc2_part_all in E, Eok.
  assert (A0 : st_at 0 (r0, r1, r2, r3, O)) by (split; [exact Hok|exact eq_refl]).
  pose proof (part_at k 16 _ A0) as A1.
  pose proof (unpart_part k 16 _ Hk A0) as I1.
  (* decryption first *)
  assert (B0 : st_at (4 * 16) (r0, r1, r2, r3, 64%nat)) by (split; [exact Hok|exact eq_refl]).
  pose proof (unpart_at k 16 _ B0) as B1.
  pose proof (part_unpart k 16 _ Hk B0) as I2.
  destruct (rc2_part k 16 (r0, r1, r2, r3, O)) as ((((y0, y1), y2), y3), j) eqn:Ey.
  destruct (rc2_unpart k 16 (r0, r1, r2, r3, 64%nat)) as ((((z0, z1), z2), z3), j') eqn:Ez.
  pose proof (decrypt_loop k 16 _ Lk ltac:(lia) A1) as D1. rewrite I1 in D1.
  pose proof (decrypt_loop k 16 _ Lk ltac:(lia) B0) as D2. rewrite Ez in D2.
  destruct B1 as [Zok Zj]. cbn [snd] in Zj. subst j'.
  exists (concat (map (le_bytes 2) [y0; y1; y2; y3])), (concat (map (le_bytes 2) [z0; z1; z2; z3])).
  cbn [words4] in *.
  split; [|split; [apply W|split; [apply W|split]]]; [| |split; [|split; [apply W|split; [apply W|]]]].
  - unfold rc2_encrypt. rewrite load_eq by auto. rewrite Hw. cbn [bind]. rewrite E. cbn [bind]. apply store_eq.
  - unfold rc2_decrypt. rewrite R by auto. cbn [bind]. unfold rc2_decrypt_block. rewrite D1. cbn [bind].
    rewrite store_eq. now rewrite Hc.
  - unfold rc2_decrypt. rewrite load_eq by auto. rewrite Hw. cbn [bind].
    unfold rc2_decrypt_block. rewrite D2. cbn [bind]. apply store_eq.
  - unfold rc2_encrypt. rewrite R by auto. cbn [bind].
    destruct (encrypt_block_eq k z0 z1 z2 z3 Lk Zok) as [F _]. rewrite F. cbn [bind].
    rewrite <- rc2_part_all, I2. cbn [words4]. rewrite store_eq. now rewrite Hc.
Qed.

Lemma rc2_valid_inverse key t1 block :
  (1 <= length key <= 128)%nat -> bytes key -> 1 <= t1 <= 1024 -> length block = 8%nat -> bytes block ->
  exists k e d, rc2_from_key key t1 = Ok k /\
    rc2_encrypt k block = Ok e /\ length e = 8%nat /\ bytes e /\ rc2_decrypt k e = Ok block /\
    rc2_decrypt k block = Ok d /\ length d = 8%nat /\ bytes d /\ rc2_encrypt k d = Ok block.
Proof.
  intros Hk Hb Ht Hl Hbb. exists (rc2_schedule key t1).
  destruct (rc2_inverse (rc2_schedule key t1) block) as (e & d & H); auto.
  { now apply schedule_ok. }
  exists e, d. split; [now apply rc2_expand_key_eq|exact H].
Qed.

Lemma rc2_key_encrypt_eq key t1 block :
  (1 <= length key <= 128)%nat -> bytes key -> 1 <= t1 <= 1024 -> length block = 8%nat -> bytes block ->
  (let* k := rc2_from_key key t1 in rc2_encrypt k block)
  = Ok (rc2_spec_encrypt (rc2_schedule key t1) block).
Proof.
  intros. rewrite rc2_expand_key_eq by auto. cbn [bind]. apply rc2_encrypt_eq; auto.
  now apply schedule_ok.
Qed.

Lemma rc2_cipher_inverse key t1 k :
  (1 <= length key <= 128)%nat -> bytes key -> 1 <= t1 <= 1024 -> rc2_from_key key t1 = Ok k ->
  cipher_inverse 8 (rc2_cipher k).
Proof.
  intros Hk Hb Ht E b Hl Hbb.
  destruct (rc2_valid_inverse key t1 b Hk Hb Ht Hl Hbb) as (k' & e & d & E' & H1 & H2 & H3 & H4 & _).
  rewrite E in E'. apply Ok_inj in E'. subst k'. exists e. cbn. auto.
Qed.
