(** * Key spaces and the state of RC4 *)
From Coq Require Import ZifyBool ZifyNat ZifyN Permutation ListDec.
From Verif Require Import Base BaseLemmas ModelAes ModelBlock ModelRc SpecBlock SpecEndian SpecWord SpecRc SpecAes SpecKeys
  ProofEndian ProofAesKey ProofRc2 ProofRc4 ProofRc5.
Ltac Zify.zify_post_hook ::= Z.div_mod_to_equations.
Local Open Scope N_scope.

(** ** RC2 *)

Lemma tm_ones t1 : 1 <= t1 <= 1024 ->
  255 mod 2 ^ (8 + t1 - 8 * ((t1 + 7) / 8)) = N.ones (8 + t1 - 8 * ((t1 + 7) / 8)).
Proof.
  intros H. assert (R : 1 <= 8 + t1 - 8 * ((t1 + 7) / 8) <= 8) by lia. revert R.
  generalize (8 + t1 - 8 * ((t1 + 7) / 8)). intros r R.
  assert (C : r = 8 \/ r = 1 \/ r = 2 \/ r = 3 \/ r = 4 \/ r = 5 \/ r = 6 \/ r = 7) by lia.
  destruct C as [->|[->|[->|[->|[->|[->|[->| ->]]]]]]]; reflexivity.
Qed.

Lemma pow_split t1 : 1 <= t1 <= 1024 ->
  256 ^ N.of_nat (N.to_nat ((t1 + 7) / 8) - 1) * 2 ^ (8 + t1 - 8 * ((t1 + 7) / 8)) = 2 ^ t1.
Proof.
  intros H. change 256 with (2 ^ 8). rewrite <- N.pow_mul_r, <- N.pow_add_r. f_equal. lia.
Qed.

(** The buffer for the number [x]. *)
Definition eff_buffer (t1 x : N) : list N :=
  let t8 := N.to_nat ((t1 + 7) / 8) in
  rc2_extend_back t8 (128 - t8) (pi_at (x / 256 ^ N.of_nat (t8 - 1)) :: le_bytes (t8 - 1) x).

Lemma le_bytes_low k a b : le_bytes k (a + 256 ^ N.of_nat k * b) = le_bytes k a.
Proof.
  rewrite <- !to_le_le_bytes. revert a b. induction k; intros a b; cbn [to_le]; auto.
  replace (256 ^ N.of_nat (S k)) with (256 * 256 ^ N.of_nat k)
    by (rewrite Nat2N.inj_succ, N.pow_succ_r'; reflexivity).
  rewrite <- N.mul_assoc. set (q := 256 ^ N.of_nat k * b).
  replace ((a + 256 * q) mod 256) with (a mod 256) by lia. f_equal.
  replace ((a + 256 * q) / 256) with (a / 256 + q) by lia. apply IHk.
Qed.

Lemma effective_number t8 (b : N) (rest : list N) m : (1 <= t8)%nat ->
  length rest = (t8 - 1)%nat -> bytes rest -> b < 2 ^ m ->
  let x := le_num rest + 256 ^ N.of_nat (t8 - 1) * b in
  x < 256 ^ N.of_nat (t8 - 1) * 2 ^ m /\ x / 256 ^ N.of_nat (t8 - 1) = b /\ le_bytes (t8 - 1) x = rest.
Proof.
  intros Ht L B Hb x. pose proof (le_num_lt rest B) as Hr. rewrite L in Hr.
  assert (P : 0 < 256 ^ N.of_nat (t8 - 1)) by (apply N.neq_0_lt_0, N.pow_nonzero; lia).
  split; [|split].
  - unfold x. clear - Hr Hb P. set (q := 256 ^ _) in *. set (r := 2 ^ m) in *.
    assert (q * b + q <= q * r). { replace (q * b + q) with (q * (b + 1)) by lia. apply N.mul_le_mono_l. lia. }
    lia.
  - unfold x. rewrite N.mul_comm, N.div_add, (N.div_small _ _ Hr); lia.
  - unfold x. rewrite le_bytes_low. now apply le_bytes_num.
Qed.

Lemma buffer_effective key t1 : (1 <= length key <= 128)%nat -> bytes key -> 1 <= t1 <= 1024 ->
  exists x, x < 2 ^ t1 /\ rc2_key_buffer key t1 = eff_buffer t1 x.
Proof.
  intros Hk Hb Ht. unfold rc2_key_buffer.
  set (t8 := (t1 + 7) / 8). set (l := rc2_extend _ _ _). cbv zeta.
  assert (H8 : 1 <= t8 <= 128) by (unfold t8; lia).
  assert (Ll : length l = 128%nat) by (unfold l; rewrite extend_length; lia).
  assert (Bl : bytes l) by (unfold l; now apply extend_bytes).
  set (s := (128 - N.to_nat t8)%nat). set (b := N.land _ _). set (rest := skipn (S s) l).
  destruct (effective_number (N.to_nat t8) b rest (8 + t1 - 8 * t8)) as (H1 & H2 & H3).
  - lia.
  - unfold rest. rewrite skipn_length. lia.
  - now apply Forall_skipn.
  - unfold b, t8. rewrite tm_ones by lia. rewrite N.land_ones. apply N.mod_lt, N.pow_nonzero. lia.
  - eexists. split; [|unfold eff_buffer; fold t8; rewrite H2, H3; reflexivity].
    unfold t8 in H1 at 3. rewrite <- (pow_split t1 Ht). exact H1.
Qed.

Lemma rc2_keys_effective key t1 : (1 <= length key <= 128)%nat -> bytes key -> 1 <= t1 <= 1024 ->
  exists x, x < 2 ^ t1 /\ rc2_from_key key t1 = Ok (rc2_effective t1 x).
Proof.
  intros Hk Hb Ht. destruct (buffer_effective key t1 Hk Hb Ht) as (x & Hx & E). exists x. split; auto.
  rewrite rc2_expand_key_eq by auto. unfold rc2_schedule. rewrite E. reflexivity.
Qed.

Lemma rc2_effective_reached t1 x : 1 <= t1 <= 1024 -> x < 2 ^ t1 ->
  exists key, length key = 128%nat /\ bytes key /\ rc2_from_key key t1 = Ok (rc2_effective t1 x).
Proof.
  intros Ht Hx. set (t8 := N.to_nat ((t1 + 7) / 8)).
  assert (H8 : (1 <= t8 <= 128)%nat) by (unfold t8; lia).
  set (b := x / 256 ^ N.of_nat (t8 - 1)).
  set (m := 8 + t1 - 8 * ((t1 + 7) / 8)).
  assert (Hm : m <= 8) by (unfold m; lia).
  assert (Hb : b < 2 ^ m).
  { unfold b. apply N.div_lt_upper_bound; [apply N.pow_nonzero; lia|].
    unfold t8, m. rewrite pow_split by auto. exact Hx. }
  assert (Hb8 : b < 256).
  { eapply N.lt_le_trans; [exact Hb|]. change 256 with (2 ^ 8). apply N.pow_le_mono_r; lia. }
  set (key := repeat 0 (128 - t8) ++ b :: le_bytes (t8 - 1) x).
  assert (Lk : length key = 128%nat).
  { unfold key. rewrite app_length, repeat_length. cbn [length]. rewrite le_bytes_length. lia. }
  assert (Bk : bytes key).
  { apply Forall_app. split; [apply Forall_forall; intros y Hy; apply repeat_spec in Hy; subst; unfold byte; lia|].
    constructor; [exact Hb8|apply le_bytes_bytes]. }
  exists key. split; auto. split; auto.
  rewrite rc2_expand_key_eq by (auto; lia). unfold rc2_schedule, rc2_effective, rc2_key_buffer.
  fold t8. rewrite Lk. cbv zeta. change (rc2_extend 128 (128 - 128) key) with key.
  change (N.to_nat ((t1 + 7) / 8)) with t8.
  do 3 f_equal. fold m.
  assert (En : nth (128 - t8) key 0 = b).
  { unfold key. rewrite app_nth2; rewrite repeat_length; [|lia]. now rewrite Nat.sub_diag. }
  assert (Es : skipn (S (128 - t8)) key = le_bytes (t8 - 1) x).
  { unfold key. rewrite skipn_app, skipn_all2; rewrite repeat_length; [|lia].
    replace (S (128 - t8) - (128 - t8))%nat with 1%nat by lia. reflexivity. }
  fold b. f_equal. rewrite En, Es. f_equal. f_equal.
  unfold m. rewrite tm_ones by auto. fold m. rewrite N.land_ones. apply N.mod_small. exact Hb.
Qed.

Lemma extend_back_suffix t8 n l l' : length l = length l' ->
  rc2_extend_back t8 n l = rc2_extend_back t8 n l' -> l = l'.
Proof.
  revert l l'. induction n; intros l l' L E; cbn [rc2_extend_back] in E; auto.
  apply IHn in E; [|cbn [length]; lia]. now injection E.
Qed.

Lemma pi_at_inj a b : a < 256 -> b < 256 -> pi_at a = pi_at b -> a = b.
Proof.
  intros Ha Hb E. destruct PITABLE_perm as (ND & L & _). unfold pi_at in E.
  apply (NoDup_nth pi_table 0) in E; auto; lia.
Qed.

Lemma groups_inj l l' n : length l = (2 * n)%nat -> length l' = (2 * n)%nat -> bytes l -> bytes l' ->
  map le_num (groups 2 l) = map le_num (groups 2 l') -> l = l'.
Proof.
  intros L L' B B' E.
  destruct (concat_groups 2 n l ltac:(lia) ltac:(lia)) as (C & Lg & F).
  destruct (concat_groups 2 n l' ltac:(lia) ltac:(lia)) as (C' & Lg' & F').
  rewrite <- C, <- C'. f_equal. revert E.
  assert (X : Forall bytes (groups 2 l)).
  { apply Forall_forall. intros g Hg. rewrite <- C in B. apply Forall_forall. intros y Hy.
    unfold bytes in B. rewrite Forall_forall in B. apply B, in_concat. eauto. }
  assert (X' : Forall bytes (groups 2 l')).
  { apply Forall_forall. intros g Hg. rewrite <- C' in B'. apply Forall_forall. intros y Hy.
    unfold bytes in B'. rewrite Forall_forall in B'. apply B', in_concat. eauto. }
  clear - F F' X X'. revert F' X'. generalize (groups 2 l') as gs'. revert F X. generalize (groups 2 l) as gs.
  induction gs as [|g gs IH]; intros F X [|g' gs'] F' X' E; cbn [map] in E; try discriminate; auto.
  injection E as E1 E2.
  inversion_clear F as [|? ? F1 F2]. inversion_clear F' as [|? ? F1' F2'].
  inversion_clear X as [|? ? X1 X2]. inversion_clear X' as [|? ? X1' X2'].
  f_equal; [|now apply IH].
  rewrite <- (le_bytes_num g 2), <- (le_bytes_num g' 2) by auto. now rewrite E1.
Qed.

Lemma rc2_effective_distinct t1 x y : 1 <= t1 <= 1024 -> x < 2 ^ t1 -> y < 2 ^ t1 ->
  rc2_effective t1 x = rc2_effective t1 y -> x = y.
Proof.
  intros Ht Hx Hy E. unfold rc2_effective in E. cbv zeta in E.
  set (t8 := N.to_nat ((t1 + 7) / 8)) in *.
  assert (H8 : (1 <= t8 <= 128)%nat) by (unfold t8; lia).
  set (q := 256 ^ N.of_nat (t8 - 1)) in *.
  assert (Q : 0 < q) by (apply N.neq_0_lt_0, N.pow_nonzero; lia).
  assert (Hb : forall x, x < 2 ^ t1 -> x / q < 256).
  { intros z Hz. apply N.div_lt_upper_bound; [lia|]. eapply N.lt_le_trans; [exact Hz|].
    rewrite <- (pow_split t1 Ht). fold t8. fold q. apply N.mul_le_mono_l.
    change 256 with (2 ^ 8). apply N.pow_le_mono_r; lia. }
  apply (groups_inj _ _ 64) in E.
  2-3: rewrite extend_back_length; cbn [length]; rewrite le_bytes_length; lia.
  2-3: apply extend_back_bytes; constructor; [apply pi_at_lt|apply le_bytes_bytes].
  apply extend_back_suffix in E; [|cbn [length]; now rewrite !le_bytes_length].
  injection E as E1 E2. apply pi_at_inj in E1; auto.
  rewrite <- !to_le_le_bytes in E2. apply (f_equal from_le) in E2. rewrite !from_le_to_le in E2. fold q in E2.
  rewrite (N.div_mod x q), (N.div_mod y q) by lia. congruence.
Qed.

(** ** RC4 keys *)

Lemma ksa_key_bytes key s : key <> [] ->
  fold_left (ksa_step key) (seq 0 256) s =
  fold_left (fun '(s, j) i => let j := (j + nth i s 0 + nth i (rc4_key_bytes key) 0) mod 256 in
                              (exchange s i (N.to_nat j), j)) (seq 0 256) s.
Proof.
  intros _. assert (H : forall i, In i (seq 0 256) -> (i < 256)%nat) by (intros i Hi; apply in_seq in Hi; lia).
  revert s H. generalize (seq 0 256) as is. induction is as [|i is IH]; intros s H; [reflexivity|].
  cbn [fold_left]. rewrite IH by (intros; apply H; now right). f_equal. destruct s as [s j].
  unfold ksa_step. unfold rc4_key_bytes. assert (Hi : (i < 256)%nat) by (apply H; now left).
  set (g := fun i => nth (i mod length key) key 0).
  assert (G : nth i (map g (seq 0 256)) 0 = g i).
  { rewrite (nth_indep _ 0 (g 0%nat)) by (rewrite map_length, seq_length; exact Hi).
    rewrite map_nth, seq_nth by exact Hi. reflexivity. }
  rewrite G. reflexivity.
Qed.

Lemma rc4_same_key_bytes key key' : key <> [] -> key' <> [] -> bytes key -> bytes key' ->
  rc4_key_bytes key = rc4_key_bytes key' -> rc4_new key = rc4_new key'.
Proof.
  intros N1 N2 B1 B2 E. destruct (rc4_new_eq key N1 B1) as [-> _]. destruct (rc4_new_eq key' N2 B2) as [-> _].
  assert (K : rc4_ksa key = rc4_ksa key') by (rewrite !ksa_eq, !ksa_key_bytes by auto; rewrite E; reflexivity).
  rewrite K. reflexivity.
Qed.

Lemma nth_repeated (key : list N) n i : (0 < length key)%nat -> (i < n * length key)%nat ->
  nth i (concat (repeat key n)) 0 = nth (i mod length key) key 0.
Proof.
  intros L. revert i. induction n; intros i Hi; [lia|]. cbn [repeat concat].
  destruct (Nat.lt_ge_cases i (length key)).
  - rewrite app_nth1 by auto. now rewrite Nat.mod_small.
  - rewrite app_nth2 by auto. rewrite IHn by lia. f_equal.
    replace i with ((i - length key) + 1 * length key)%nat at 2 by lia. now rewrite Nat.mod_add by lia.
Qed.

Lemma rc4_repeated_key key n : key <> [] -> bytes key -> (1 <= n)%nat ->
  rc4_new (concat (repeat key n)) = rc4_new key.
Proof.
  intros Hne Hb Hn. assert (L : (0 < length key)%nat) by (destruct key; cbn; [congruence|lia]).
  assert (Lc : length (concat (repeat key n)) = (n * length key)%nat).
  { clear. induction n; cbn [repeat concat length]; auto. rewrite app_length, IHn. lia. }
  apply rc4_same_key_bytes; auto.
  - intros E. rewrite E in Lc. cbn in Lc. nia.
  - clear - Hb. induction n; cbn [repeat concat]; [constructor|]. apply Forall_app. auto.
  - unfold rc4_key_bytes. rewrite Lc. apply map_ext_in. intros i _.
    rewrite nth_repeated by (auto; apply Nat.mod_upper_bound; nia). f_equal.
    rewrite Nat.mul_comm, Nat.mod_mul_r by lia.
    rewrite (Nat.mul_comm (length key)), Nat.mod_add by lia. apply Nat.mod_mod. lia.
Qed.

Lemma rc4_long_key key rest : length key = 256%nat -> bytes key -> bytes rest ->
  rc4_new (key ++ rest) = rc4_new key.
Proof.
  intros L Hb Hr. apply rc4_same_key_bytes; auto.
  - destruct key; [discriminate L|discriminate].
  - destruct key; [discriminate L|discriminate].
  - now apply Forall_app.
  - unfold rc4_key_bytes. apply map_ext_in. intros i Hi. apply in_seq in Hi.
    rewrite app_length, L. rewrite !Nat.mod_small by lia. rewrite app_nth1; auto. lia.
Qed.

(** ** RC5 keys *)

Lemma rc5_zero_padded key n r : (1 <= length key)%nat -> (length key + n <= 255)%nat ->
  ((length key + n + 3) / 4 = (length key + 3) / 4)%nat ->
  rc5_new (key ++ repeat 0 n) r = rc5_new key r.
Proof.
  intros H1 H2 H3. rewrite !rc5_new_ok by (rewrite ?app_length, ?repeat_length; lia).
  do 2 f_equal. unfold rc5_table.
  assert (E : rc5_words (key ++ repeat 0 n) = rc5_words key).
  { unfold rc5_words. rewrite app_length, repeat_length, H3. apply map_ext. intros j. f_equal.
    apply map_ext. intros k. set (i := (4 * j + k)%nat).
    destruct (Nat.lt_ge_cases i (length key)); [now apply app_nth1|].
    rewrite app_nth2, (nth_overflow key) by auto. apply nth_repeat. }
  now rewrite E.
Qed.

(** ** The state of RC4 *)

Definition st_valid (st : list N * N * N) : Prop :=
  rc4_table_ok (fst (fst st)) /\ snd (fst st) < 256 /\ snd st < 256.

Lemma exchange_involutive s i j : (i < length s)%nat -> (j < length s)%nat ->
  exchange (exchange s i j) i j = s.
Proof.
  intros Hi Hj. apply (list_ext 0); rewrite ?exchange_length; auto. intros k Hk.
  rewrite !nth_exchange by (rewrite ?exchange_length; auto).
  rewrite !Nat.eqb_refl.
  destruct (Nat.eqb_spec k i), (Nat.eqb_spec k j), (Nat.eqb_spec j i); subst; auto; congruence.
Qed.

Lemma prga_valid st : st_valid st -> st_valid (snd (rc4_prga st)).
Proof.
  intros (H1 & H2 & H3). destruct (rc4_next_eq st H1 H2 H3) as (_ & A & B & C & _).
  split; [exact A|]. split; [exact B|exact C].
Qed.

Lemma prga_inj st st' : st_valid st -> st_valid st' -> snd (rc4_prga st) = snd (rc4_prga st') -> st = st'.
Proof.
  destruct st as ((s, i), j), st' as ((s', i'), j'). unfold st_valid. cbn [fst snd].
  intros (T & Hi & Hj) (T' & Hi' & Hj'). unfold rc4_prga. cbn [snd]. intros E.
  set (x := (i + 1) mod 256) in *. set (x' := (i' + 1) mod 256) in *.
  set (y := (j + nth (N.to_nat x) s 0) mod 256) in *. set (y' := (j' + nth (N.to_nat x') s' 0) mod 256) in *.
  assert (X : x < 256) by (unfold x; lia). assert (Y : y < 256) by (unfold y; lia).
  injection E as E1 E2 E3. rewrite <- E2, <- E3 in E1.
  pose proof (table_length s T) as L. pose proof (table_length s' T') as L'.
  assert (S' : s = s').
  { rewrite <- (exchange_involutive s (N.to_nat x) (N.to_nat y)) by lia. rewrite E1.
    apply exchange_involutive; lia. }
  subst s'. assert (i = i') by (unfold x, x' in E2; lia). subst i'.
  pose proof (table_nth s (N.to_nat x) T) as V. fold x in x'. unfold y, y' in E3.
  change x' with x in E3. clear - E3 V Hj Hj'. assert (j = j') by lia. now subst.
Qed.

Lemma repeated {X} (dec : forall x y : X, {x = y} + {x <> y}) (l : list X) : ~ NoDup l ->
  exists a l1 l2 l3, l = l1 ++ a :: l2 ++ a :: l3.
Proof.
  induction l as [|x l IH]; intros H; [destruct H; constructor|].
  destruct (in_dec dec x l) as [I|I].
  - apply in_split in I as (l2 & l3 & ->). exists x, [], l2, l3. reflexivity.
  - destruct IH as (a & l1 & l2 & l3 & ->); [intros N; apply H; now constructor|].
    exists a, (x :: l1), l2, l3. reflexivity.
Qed.

(** An injective map on a finite set: every point is on a cycle. *)
Lemma cycle {X} (dec : forall x y : X, {x = y} + {x <> y}) (P : X -> Prop) (f : X -> X) (all : list X) x :
  (forall y, P y -> In y all) -> (forall y, P y -> P (f y)) ->
  (forall y z, P y -> P z -> f y = f z -> y = z) -> P x ->
  exists n, (0 < n)%nat /\ Nat.iter n f x = x.
Proof.
  intros Hall Hf Hinj Px.
  assert (PI : forall n, P (Nat.iter n f x)) by (induction n; [exact Px|now apply Hf]).
  set (l := map (fun k => Nat.iter k f x) (seq 0 (S (length all)))).
  destruct (NoDup_dec dec l) as [ND|ND].
  { exfalso. assert (I : incl l all).
    { intros y Hy. apply in_map_iff in Hy as (k & <- & _). apply Hall, PI. }
    pose proof (NoDup_incl_length ND I) as H. unfold l in H. rewrite map_length, seq_length in H. lia. }
  assert (exists i j, (i < j)%nat /\ Nat.iter i f x = Nat.iter j f x) as (i & j & Hij & E).
  { destruct (repeated dec l ND) as (a & l1 & l2 & l3 & El).
    exists (length l1), (length l1 + S (length l2))%nat. split; [lia|].
    assert (Ll : length l = (length l1 + S (length l2 + S (length l3)))%nat)
      by (rewrite El, !app_length; cbn [length]; rewrite app_length; cbn [length]; lia).
    assert (Lm : length l = S (length all)) by (unfold l; now rewrite map_length, seq_length).
    assert (G : forall k, (k < length l)%nat -> nth k l x = Nat.iter k f x).
    { intros k Hk. unfold l. change x with (Nat.iter 0 f x) at 2.
      rewrite (map_nth (fun k => Nat.iter k f x)), seq_nth; [reflexivity|lia]. }
    rewrite <- (G (length l1)), <- (G (length l1 + S (length l2))%nat) by lia. rewrite El.
    rewrite (app_nth2 l1) by lia. rewrite Nat.sub_diag. cbn [nth].
    rewrite (app_nth2 l1) by lia. replace (length l1 + S (length l2) - length l1)%nat with (S (length l2)) by lia.
    cbn [nth]. rewrite app_nth2, Nat.sub_diag by lia. reflexivity. }
  exists (j - i)%nat. split; [lia|].
  revert j Hij E. induction i; intros j Hij E.
  - rewrite Nat.sub_0_r. symmetry. exact E.
  - destruct j as [|j]; [lia|]. cbn [Nat.sub]. apply IHi; [lia|]. apply Hinj; auto.
Qed.

Lemma all_bytes n : exists all : list (list N), forall l, length l = n -> bytes l -> In l all.
Proof.
  induction n as [|n [all IH]].
  - exists [[]]. intros [|? ?] L _; [now left|discriminate L].
  - exists (flat_map (fun b => map (cons b) all) (map N.of_nat (seq 0 256))).
    intros [|b l] L B; [discriminate L|]. inversion_clear B as [|? ? B1 B2].
    apply in_flat_map. exists b. split.
    + apply in_map_iff. exists (N.to_nat b). unfold byte in B1. split; [lia|]. apply in_seq. lia.
    + apply in_map. apply IH; auto.
Qed.

Lemma all_states : exists all, forall st, st_valid st -> In st all.
Proof.
  destruct (all_bytes 256) as [ls Hls]. set (bs := map N.of_nat (seq 0 256)).
  assert (Hbs : forall b, b < 256 -> In b bs).
  { intros b Hb. apply in_map_iff. exists (N.to_nat b). split; [lia|]. apply in_seq. lia. }
  exists (list_prod (list_prod ls bs) bs). intros ((s, i), j) (T & Hi & Hj). cbn [fst snd] in *.
  apply in_prod; [apply in_prod|]; auto. apply Hls; [now apply table_length|now apply table_bytes].
Qed.

Lemma run_iter n st : snd (rc4_run n st) = Nat.iter n (fun st => snd (rc4_prga st)) st.
Proof.
  revert st. induction n; intros st; [reflexivity|]. rewrite iter_S_r. cbn [rc4_run].
  destruct (rc4_prga st) as [k st'] eqn:E. cbn [snd]. rewrite <- IHn. now destruct (rc4_run n st').
Qed.

Lemma state_cycle st : st_valid st -> exists n, (0 < n)%nat /\ snd (rc4_run n st) = st.
Proof.
  intros V. destruct all_states as [all Hall].
  assert (dec : forall x y : list N * N * N, {x = y} + {x <> y}).
  { intros x y. decide equality; [apply N.eq_dec|]. decide equality; [apply N.eq_dec|].
    apply (list_eq_dec N.eq_dec). }
  destruct (cycle dec st_valid (fun st => snd (rc4_prga st)) all st Hall prga_valid prga_inj V) as (n & Hn & E).
  exists n. split; auto. now rewrite run_iter.
Qed.

Lemma run_app n m st : rc4_run (n + m) st =
  (fst (rc4_run n st) ++ fst (rc4_run m (snd (rc4_run n st))), snd (rc4_run m (snd (rc4_run n st)))).
Proof.
  revert st. induction n; intros st; cbn [rc4_run Nat.add].
  - cbn [fst snd app]. now destruct (rc4_run m st).
  - destruct (rc4_prga st) as [k st']. rewrite IHn. destruct (rc4_run n st') as [ks st'']. reflexivity.
Qed.

Lemma rc4_stream_periodic key : key <> [] -> bytes key ->
  exists n, (0 < n)%nat /\ forall m, rc4_stream key (n + m) = rc4_stream key n ++ rc4_stream key m.
Proof.
  intros Hne Hb. destruct (rc4_new_eq key Hne Hb) as [_ T].
  destruct (state_cycle (rc4_ksa key, 0, 0)) as (n & Hn & E); [split; [exact T|split; reflexivity]|].
  exists n. split; auto. intros m. unfold rc4_stream. rewrite run_app, E. reflexivity.
Qed.

Lemma to_state ks : ks = of_state (rc4_state ks, rc4_x ks, rc4_y ks).
Proof. now destruct ks. Qed.

Lemma of_state_inj a b : of_state a = of_state b -> a = b.
Proof. destruct a as ((?, ?), ?), b as ((?, ?), ?). unfold of_state. intros E. now injection E as -> -> ->. Qed.

Definition ks_valid (ks : rc4) : Prop :=
  Permutation (map N.of_nat (seq 0 256)) (rc4_state ks) /\ rc4_x ks < 256 /\ rc4_y ks < 256.

Lemma rc4_next_valid ks : ks_valid ks ->
  exists k ks', rc4_next ks = Ok (Some k, ks') /\ k < 256 /\ ks_valid ks'.
Proof.
  intros (T & Hx & Hy). rewrite (to_state ks).
  destruct (rc4_next_eq (rc4_state ks, rc4_x ks, rc4_y ks) T Hx Hy) as (E & A & B & C & D).
  do 2 eexists. split; [exact E|]. split; [exact D|].
  destruct (snd (rc4_prga _)) as ((s, i), j). split; [exact A|split; [exact B|exact C]].
Qed.

Lemma rc4_next_inj ks1 ks2 k1 k2 ks : ks_valid ks1 -> ks_valid ks2 ->
  rc4_next ks1 = Ok (k1, ks) -> rc4_next ks2 = Ok (k2, ks) -> ks1 = ks2 /\ k1 = k2.
Proof.
  intros (T1 & X1 & Y1) (T2 & X2 & Y2) E1 E2.
  rewrite (to_state ks1) in E1. rewrite (to_state ks2) in E2.
  destruct (rc4_next_eq (rc4_state ks1, rc4_x ks1, rc4_y ks1) T1 X1 Y1) as (F1 & _).
  destruct (rc4_next_eq (rc4_state ks2, rc4_x ks2, rc4_y ks2) T2 X2 Y2) as (F2 & _).
  rewrite F1 in E1. rewrite F2 in E2. apply Ok_inj in E1, E2.
  assert (S : of_state (snd (rc4_prga (rc4_state ks1, rc4_x ks1, rc4_y ks1))) =
              of_state (snd (rc4_prga (rc4_state ks2, rc4_x ks2, rc4_y ks2)))).
  { apply (f_equal snd) in E1, E2. cbn [snd] in E1, E2. now rewrite E1, E2. }
  apply of_state_inj, prga_inj in S; [|split; [assumption|split; assumption]..].
  split; [rewrite (to_state ks1), (to_state ks2); now f_equal|].
  apply (f_equal fst) in E1, E2. cbn [fst] in E1, E2. rewrite <- E1, <- E2. now rewrite S.
Qed.

Lemma rc4_cycle ks : ks_valid ks -> exists bs, bs <> [] /\ yields rc4_next ks bs ks.
Proof.
  intros (T & Hx & Hy). destruct (state_cycle (rc4_state ks, rc4_x ks, rc4_y ks)) as (n & Hn & E); [split; [exact T|split; assumption]|].
  destruct (rc4_yields n (rc4_state ks, rc4_x ks, rc4_y ks) T Hx Hy) as (Y & _ & L & _).
  rewrite E in Y. rewrite <- to_state in Y. eexists. split; [|exact Y].
  intros X. rewrite X in L. cbn in L. lia.
Qed.

(** The second byte (Mantin and Shamir, 2001). *)
Lemma rc4_second_byte ks : ks_valid ks -> rc4_x ks = 0 -> rc4_y ks = 0 ->
  nth 2 (rc4_state ks) 0 = 0 -> nth 1 (rc4_state ks) 0 <> 2 ->
  exists k ks', yields rc4_next ks [k; 0] ks'.
Proof.
  intros (T & _) X Y H2 H1.
  destruct (rc4_yields 2 (rc4_state ks, rc4_x ks, rc4_y ks) T) as (Z & _); [cbn [fst snd]; rewrite ?X, ?Y; reflexivity..|].
  rewrite <- to_state in Z. rewrite X, Y in Z.
  set (s := rc4_state ks) in *. pose proof (table_length s T) as L.
  pose proof (table_nth s 1 T) as A. set (a := nth 1 s 0) in *.
  assert (E : exists k, fst (rc4_run 2 (s, 0, 0)) = [k; 0]).
  { cbn [rc4_run]. unfold rc4_prga. cbn [fst snd].
    change ((0 + 1) mod 256) with 1. change (N.to_nat 1) with 1%nat. fold a.
    replace ((0 + a) mod 256) with a by lia.
    set (s1 := exchange s 1 (N.to_nat a)).
    change ((1 + 1) mod 256) with 2. change (N.to_nat 2) with 2%nat.
    assert (L1 : length s1 = 256%nat) by (unfold s1; now rewrite exchange_length).
    assert (S2 : nth 2 s1 0 = 0).
    { unfold s1. rewrite nth_exchange by lia. change (2 =? 1)%nat with false. cbv iota.
      destruct (Nat.eqb_spec 2 (N.to_nat a)); [lia|exact H2]. }
    assert (Sa : nth (N.to_nat a) s1 0 = a).
    { unfold s1. rewrite nth_exchange by lia. rewrite Nat.eqb_refl.
      destruct (Nat.eqb_spec (N.to_nat a) 1) as [->|]; reflexivity. }
    rewrite S2. replace ((a + 0) mod 256) with a by lia.
    set (s2 := exchange s1 2 (N.to_nat a)).
    assert (U2 : nth 2 s2 0 = a).
    { unfold s2. rewrite nth_exchange by lia. change (2 =? 2)%nat with true. exact Sa. }
    assert (Ua : nth (N.to_nat a) s2 0 = 0).
    { unfold s2. rewrite nth_exchange by lia. rewrite Nat.eqb_refl.
      destruct (Nat.eqb_spec (N.to_nat a) 2); [lia|exact S2]. }
    rewrite U2, Ua. replace ((a + 0) mod 256) with a by lia. rewrite Ua. eauto. }
  destruct E as [k E]. rewrite E in Z. eauto.
Qed.

(** ** AES *)

Definition next_temp (nk i : nat) (temp : list N) : list N :=
  if (i mod nk =? 0)%nat then xor_word (sub_word (rot_word temp)) (rcon (i / nk))
  else if ((6 <? nk)%nat && (i mod nk =? 4)%nat)%bool then sub_word temp else temp.

Lemma key_words_nth nk key n m i : (i < n)%nat -> (n <= m)%nat ->
  nth i (key_words nk key m) [] = nth i (key_words nk key n) [].
Proof.
  intros Hi Hm. induction Hm as [|m Hm IH]; auto. cbn [key_words].
  rewrite app_nth1 by (rewrite key_words_length; lia). exact IH.
Qed.

Lemma key_words_last nk key i : nth i (key_words nk key (S i)) [] =
  if (i <? nk)%nat then firstn 4 (skipn (4 * i) key)
  else xor_word (nth (i - nk) (key_words nk key i) []) (next_temp nk i (nth (i - 1) (key_words nk key i) [])).
Proof.
  cbn [key_words]. rewrite app_nth2; rewrite key_words_length; [|lia]. rewrite Nat.sub_diag. reflexivity.
Qed.

Lemma key_words_step nk key n i : (1 <= nk)%nat -> (nk <= i)%nat -> (i < n)%nat ->
  nth i (key_words nk key n) [] =
  xor_word (nth (i - nk) (key_words nk key n) []) (next_temp nk i (nth (i - 1) (key_words nk key n) [])).
Proof.
  intros Hnk H1 H2. rewrite (key_words_nth nk key (S i) n) by lia. rewrite key_words_last.
  rewrite (proj2 (Nat.ltb_ge _ _)) by lia.
  rewrite !(key_words_nth nk key i n) by lia. reflexivity.
Qed.

Lemma xor_word_cancel a b t : length a = 4%nat -> length b = 4%nat -> xor_word a t = xor_word b t -> a = b.
Proof.
  intros La Lb E. des4 a La. des4 b Lb. unfold xor_word in E. cbn [map seq nth] in E.
  injection E as E0 E1 E2 E3.
  assert (C : forall x y z, N.lxor x z = N.lxor y z -> x = y).
  { intros x y z H. rewrite <- (N.lxor_0_r x), <- (N.lxor_nilpotent z), <- N.lxor_assoc, H, N.lxor_assoc,
      N.lxor_nilpotent, N.lxor_0_r. reflexivity. }
  apply C in E0, E1, E2, E3. subst. reflexivity.
Qed.

Lemma kw_length4 nk n k i : (2 <= nk)%nat -> length k = (4 * nk)%nat -> bytes k -> (i < n)%nat ->
  length (nth i (key_words nk k n) []) = 4%nat.
Proof.
  intros Hnk Lk Bk Hi. pose proof (key_words_wf nk k n ltac:(lia) Lk Bk) as W. rewrite Forall_forall in W.
  apply (W (nth i (key_words nk k n) [])). apply nth_In. now rewrite key_words_length.
Qed.

Lemma app_inv_front {A} (a b c d : list A) : a ++ b = c ++ d -> length a = length c -> a = c /\ b = d.
Proof.
  revert c. induction a as [|x a IH]; intros [|y c] E L; try discriminate L; [now split|].
  cbn [app length] in *. injection E as -> E. injection L as L. destruct (IH c E L) as [-> ->]. now split.
Qed.

Section Window.
Context (nk n : nat) (key key' : list N) (Hnk : (2 <= nk)%nat).
Context (L : length key = (4 * nk)%nat) (L' : length key' = (4 * nk)%nat) (B : bytes key) (B' : bytes key').

Lemma window_down j : (j + nk <= n)%nat ->
  (forall i, (j <= i < j + nk)%nat -> nth i (key_words nk key n) [] = nth i (key_words nk key' n) []) ->
  forall i, (i < j + nk)%nat -> nth i (key_words nk key n) [] = nth i (key_words nk key' n) [].
Proof using Hnk L L' B B'.
  induction j as [|j IH]; intros Hj H i Hi; [apply H; lia|].
  destruct (Nat.eq_dec i (j + nk)) as [->|Ne]; [apply H; lia|].
  apply IH; [lia| |lia]. intros k Hk. destruct (Nat.eq_dec k j) as [->|]; [|apply H; lia].
  pose proof (H (j + nk)%nat ltac:(lia)) as E.
  rewrite !(key_words_step nk _ n (j + nk)) in E by lia.
  replace (j + nk - nk)%nat with j in E by lia.
  rewrite <- (H (j + nk - 1)%nat) in E by lia.
  apply xor_word_cancel in E; auto; apply kw_length4; auto; lia.
Qed.

Lemma window_key j : (j + nk <= n)%nat ->
  (forall i, (j <= i < j + nk)%nat -> nth i (key_words nk key n) [] = nth i (key_words nk key' n) []) ->
  key = key'.
Proof using Hnk L L' B B'.
  intros Hj H. pose proof (window_down j Hj H) as D.
  assert (G : forall i, (i < nk)%nat -> firstn 4 (skipn (4 * i) key) = firstn 4 (skipn (4 * i) key')).
  { intros i Hi. pose proof (D i ltac:(lia)) as E.
    rewrite !(key_words_nth nk _ (S i) n), !key_words_last in E by lia.
    rewrite (proj2 (Nat.ltb_lt _ _)) in E by lia. exact E. }
  apply (list_ext 0); [congruence|]. intros k Hk.
  pose proof (G (k / 4)%nat ltac:(lia)) as E. apply (f_equal (fun l => nth (k mod 4) l 0)) in E.
  rewrite !nth_firstn', !nth_skipn' in E by lia.
  replace (4 * (k / 4) + k mod 4)%nat with k in E by lia. exact E.
Qed.
End Window.

Lemma round_key_words w w' r : (4 * r + 4 <= length w)%nat -> (4 * r + 4 <= length w')%nat ->
  Forall wf4 w -> Forall wf4 w' -> round_key w r = round_key w' r ->
  forall i, (4 * r <= i < 4 * r + 4)%nat -> nth i w [] = nth i w' [].
Proof.
  intros H H' W W' E i Hi. unfold round_key in E.
  destruct (list4_firstn w r H) as (a & b & c & d & F). destruct (list4_firstn w' r H') as (a' & b' & c' & d' & F').
  assert (X : Forall wf4 [a; b; c; d]) by (rewrite <- F; now apply Forall_firstn, Forall_skipn).
  assert (X' : Forall wf4 [a'; b'; c'; d']) by (rewrite <- F'; now apply Forall_firstn, Forall_skipn).
  rewrite F, F' in E.
  rewrite !Forall_cons_iff in X, X'. destruct X as ((La & _) & (Lb & _) & (Lc & _) & (Ld & _) & _).
  destruct X' as ((La' & _) & (Lb' & _) & (Lc' & _) & (Ld' & _) & _).
  cbn [concat] in E. rewrite !app_nil_r in E.
  apply app_inv_front in E as [-> E]; [|congruence].
  apply app_inv_front in E as [-> E]; [|congruence].
  apply app_inv_front in E as [-> ->]; [|congruence].
  assert (G : forall v : list (list N), nth i v [] = nth (i - 4 * r) (firstn 4 (skipn (4 * r) v)) []).
  { intros v. rewrite nth_firstn', nth_skipn' by lia. f_equal. lia. }
  rewrite (G w), (G w'), F, F'. reflexivity.
Qed.

Lemma aes_round_keys nk key key' c c' r m : nk = 4%nat \/ nk = 6%nat \/ nk = 8%nat ->
  length key = (4 * nk)%nat -> length key' = (4 * nk)%nat -> bytes key -> bytes key' ->
  aes_make nk key = Ok c -> aes_make nk key' = Ok c' -> (nk <= 4 * m)%nat -> (r + m <= nk + 7)%nat ->
  (forall i, (r <= i < r + m)%nat -> nth i (aes_keys c) [] = nth i (aes_keys c') []) -> key = key'.
Proof.
  intros Hn L L' B B' E E' Hm Hr K.
  destruct (aes_expanded nk key Hn L B) as (d & F & _ & G). rewrite E in F. apply Ok_inj in F. subst d.
  destruct (aes_expanded nk key' Hn L' B') as (d & F & _ & G'). rewrite E' in F. apply Ok_inj in F. subst d.
  rewrite G, G' in K. clear G G' E E'.
  set (n := (4 * (nk + 7))%nat) in *.
  apply (window_key nk n key key' ltac:(lia) L L' B B' (4 * r)); [unfold n; lia|].
  intros i Hi. assert (Hq : (r <= i / 4 < r + m)%nat) by lia.
  pose proof (K (i / 4)%nat Hq) as X.
  assert (Y : forall k, nth (i / 4) (map (round_key (key_words nk k n)) (seq 0 (nk + 7))) [] =
                        round_key (key_words nk k n) (i / 4)).
  { intros k. set (g := round_key (key_words nk k n)).
    rewrite (nth_indep _ [] (g 0%nat)) by (rewrite map_length, seq_length; lia).
    rewrite map_nth, seq_nth by lia. reflexivity. }
  rewrite !Y in X.
  apply (round_key_words _ _ (i / 4)); rewrite ?key_words_length; unfold n; try lia; auto.
  - apply key_words_wf; auto; lia.
  - apply key_words_wf; auto; lia.
Qed.
