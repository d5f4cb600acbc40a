(** * Proofs about MGF1 and OAEP *)
From Verif Require Import Base BaseLemmas ModelSha ModelRsa SpecEndian SpecSha SpecOaep
  ProofEndian ProofSha ProofSha2.
From Coq Require Import ZifyBool ZifyNat ZifyN.
Local Open Scope N_scope.
Local Open Scope list_scope.

Lemma sha256_implements : implements sha256 sha256_spec 32 (2 ^ 61).
Proof.
  intros x B L. split; [now apply sha256_conforms|].
  exact (sha2_spec_wf sha256_kind sha256_init 8 x eq_refl (le_n 8)).
Qed.

Lemma sha1_implements : implements sha1 sha1_spec 20 (2 ^ 61).
Proof.
  intros x B L. split; [now apply sha1_conforms|]. apply sha1_spec_wf.
Qed.

(** ** MGF1 *)

Lemma ceil_div c size hn : (0 < hn)%nat -> (c < (size + hn - 1) / hn <-> c * hn < size)%nat.
Proof.
  intros H. pose proof (Nat.div_mod (size + hn - 1) hn ltac:(lia)) as D.
  pose proof (Nat.mod_upper_bound (size + hn - 1) hn ltac:(lia)) as B.
  set (q := ((size + hn - 1) / hn)%nat) in *. clearbody q.
  set (r := ((size + hn - 1) mod hn)%nat) in *. clearbody r. split; intros L.
  - assert (c + 1 <= q)%nat by lia. nia.
  - destruct (le_lt_dec q c); [|auto]. nia.
Qed.

Section Mgf.
Context (hasher : list N -> res (list N)) (H : list N -> list N) (hn : nat) (limit : N).
Context (Himp : implements hasher H hn limit) (Hhn : (0 < hn)%nat).

Definition mask (seed : list N) (c : nat) : list N :=
  concat (map (fun i => H (seed ++ be_bytes 4 (N.of_nat i))) (seq 0 c)).

Lemma content_hash seed c : bytes seed -> N.of_nat (length seed) + 4 < limit ->
  hasher (seed ++ be_bytes 4 c) = Ok (H (seed ++ be_bytes 4 c)) /\
  length (H (seed ++ be_bytes 4 c)) = hn /\ bytes (H (seed ++ be_bytes 4 c)).
Proof.
  intros B L. apply Himp.
  - apply Forall_app. split; auto. rewrite <- to_be_be_bytes. apply to_be_bytes.
  - rewrite app_length, <- to_be_be_bytes, to_be_length. lia.
Qed.

Lemma mask_snoc seed c : mask seed (S c) = mask seed c ++ H (seed ++ be_bytes 4 (N.of_nat c)).
Proof.
  unfold mask. rewrite seq_S, map_app, concat_app. cbn [map concat plus]. now rewrite app_nil_r.
Qed.

Lemma mask_length seed c : bytes seed -> N.of_nat (length seed) + 4 < limit ->
  length (mask seed c) = (c * hn)%nat.
Proof.
  intros B L. induction c; [reflexivity|]. rewrite mask_snoc, app_length, IHc.
  destruct (content_hash seed (N.of_nat c) B L) as (_ & E & _). rewrite E. lia.
Qed.

Lemma mask_bytes seed c : bytes seed -> N.of_nat (length seed) + 4 < limit -> bytes (mask seed c).
Proof.
  intros B L. induction c; [constructor|]. rewrite mask_snoc. apply Forall_app. split; auto.
  apply content_hash; auto.
Qed.

Lemma mgf1_step fuel seed hc c size : bytes seed -> N.of_nat (length seed) + 4 < limit ->
  firstn (length seed) hc = seed -> length hc = (length seed + 4)%nat -> (c * hn < size)%nat ->
  mgf1_loop (S fuel) hasher (length seed) hc (mask seed c) (N.of_nat c) size =
  (let* counter := cadd 32 (N.of_nat c) 1 in
   mgf1_loop fuel hasher (length seed) (seed ++ be_bytes 4 (N.of_nat c)) (mask seed (S c)) counter size).
Proof.
  intros B L F Lh S1. cbn [mgf1_loop]. rewrite mask_length by auto.
  rewrite (proj2 (Nat.ltb_lt _ _) S1).
  rewrite copy_range_ok by (rewrite ?to_be_length; lia). cbn [bind].
  rewrite F, skipn_all, app_nil_r, to_be_be_bytes.
  destruct (content_hash seed (N.of_nat c) B L) as (E & _ & _). rewrite E. cbn [bind].
  now rewrite mask_snoc.
Qed.

Lemma mgf1_loop_ok fuel seed hc c size nb : bytes seed -> N.of_nat (length seed) + 4 < limit ->
  firstn (length seed) hc = seed -> length hc = (length seed + 4)%nat ->
  nb = ((size + hn - 1) / hn)%nat -> N.of_nat nb < 2 ^ 32 -> (c <= nb)%nat -> (nb <= fuel + c)%nat ->
  mgf1_loop fuel hasher (length seed) hc (mask seed c) (N.of_nat c) size = Ok (mask seed nb).
Proof.
  intros B L F Lh Hnb H32. revert hc c F Lh. induction fuel as [|fuel IH]; intros hc c F Lh C1 C2.
  - cbn [mgf1_loop]. rewrite mask_length by auto. assert (c = nb) as -> by lia.
    destruct (Nat.ltb_spec (nb * hn) size) as [X|X]; [|reflexivity].
    apply ceil_div in X; auto. lia.
  - destruct (Nat.eq_dec c nb) as [->|Hne].
    + cbn [mgf1_loop]. rewrite mask_length by auto.
      destruct (Nat.ltb_spec (nb * hn) size) as [X|X]; [|reflexivity].
      apply ceil_div in X; auto. lia.
    + rewrite mgf1_step by (auto; apply ceil_div; lia). rewrite cadd_ok by lia. cbn [bind].
      replace (N.of_nat c + 1) with (N.of_nat (S c)) by lia.
      apply IH; try lia.
      * now rewrite firstn_app, firstn_all, Nat.sub_diag, app_nil_r.
      * rewrite app_length, <- to_be_be_bytes, to_be_length. lia.
Qed.

Lemma mgf1_ok seed size : bytes seed -> N.of_nat (length seed) + 4 < limit ->
  N.of_nat size <= (2 ^ 32 - 1) * N.of_nat hn ->
  mgf1 hasher seed size = Ok (mgf1_spec H hn seed size).
Proof.
  intros B L S. unfold mgf1. cbv zeta.
  change (@nil N) with (mask seed 0) at 1. change 0 with (N.of_nat 0) at 5.
  rewrite (mgf1_loop_ok size seed _ 0 size ((size + hn - 1) / hn)%nat); auto.
  - now rewrite firstn_app, firstn_all, Nat.sub_diag, app_nil_r.
  - rewrite app_length. reflexivity.
  - change (2 ^ 32) with 4294967296 in *.
    destruct (N.lt_ge_cases (N.of_nat ((size + hn - 1) / hn)) 4294967296) as [|X]; auto.
    set (c := N.to_nat 4294967295). assert (Hc : N.of_nat c = 4294967295) by (unfold c; lia).
    clearbody c. assert (X1 : (c < (size + hn - 1) / hn)%nat) by lia. apply ceil_div in X1; auto. nia.
  - lia.
  - destruct (le_lt_dec ((size + hn - 1) / hn) size) as [|X]; [lia|]. apply ceil_div in X; nia.
Qed.

Lemma mgf1_loop_overflow fuel seed hc c size : bytes seed -> N.of_nat (length seed) + 4 < limit ->
  firstn (length seed) hc = seed -> length hc = (length seed + 4)%nat ->
  (2 ^ 32 - 1) * N.of_nat hn < N.of_nat size -> N.of_nat c <= 2 ^ 32 - 1 ->
  2 ^ 32 <= N.of_nat fuel + N.of_nat c ->
  mgf1_loop fuel hasher (length seed) hc (mask seed c) (N.of_nat c) size = Panic POverflow.
Proof.
  intros B L F Lh S. change (2 ^ 32) with 4294967296 in *. revert hc c F Lh.
  induction fuel as [|fuel IH]; intros hc c F Lh C1 C2; [lia|].
  rewrite mgf1_step by (auto; nia).
  destruct (N.eq_dec (N.of_nat c) 4294967295) as [E|E].
  - rewrite cadd_panic; [reflexivity|]. rewrite E. change (2 ^ 32) with 4294967296. lia.
  - rewrite cadd_ok by (change (2 ^ 32) with 4294967296; lia). cbn [bind].
    replace (N.of_nat c + 1) with (N.of_nat (Datatypes.S c)) by lia.
    apply IH; try lia.
    + now rewrite firstn_app, firstn_all, Nat.sub_diag, app_nil_r.
    + rewrite app_length, <- to_be_be_bytes, to_be_length. lia.
Qed.

Lemma mgf1_overflow seed size : bytes seed -> N.of_nat (length seed) + 4 < limit ->
  (2 ^ 32 - 1) * N.of_nat hn < N.of_nat size ->
  mgf1 hasher seed size = Panic POverflow.
Proof.
  intros B L S. unfold mgf1. cbv zeta.
  change (@nil N) with (mask seed 0) at 1. change 0 with (N.of_nat 0) at 5.
  rewrite (mgf1_loop_overflow size seed _ 0 size); auto.
  - now rewrite firstn_app, firstn_all, Nat.sub_diag, app_nil_r.
  - rewrite app_length. reflexivity.
  - change (2 ^ 32) with 4294967296 in *. lia.
  - change (2 ^ 32) with 4294967296 in *. nia.
Qed.

Lemma mgf1_spec_length seed size : bytes seed -> N.of_nat (length seed) + 4 < limit ->
  length (mgf1_spec H hn seed size) = size.
Proof.
  intros B L. unfold mgf1_spec. fold (mask seed ((size + hn - 1) / hn)).
  rewrite firstn_length, mask_length by auto.
  destruct (le_lt_dec size ((size + hn - 1) / hn * hn)) as [|X]; [lia|].
  apply ceil_div in X; auto. lia.
Qed.

Lemma mgf1_spec_bytes seed size : bytes seed -> N.of_nat (length seed) + 4 < limit ->
  bytes (mgf1_spec H hn seed size).
Proof.
  intros B L. unfold mgf1_spec. fold (mask seed ((size + hn - 1) / hn)).
  apply Forall_firstn. now apply mask_bytes.
Qed.

(** Byte [j] comes from block [j / hn]. *)
Lemma mask_nth seed c j : bytes seed -> N.of_nat (length seed) + 4 < limit -> (j < c * hn)%nat ->
  nth j (mask seed c) 0 = nth (j mod hn) (H (seed ++ be_bytes 4 (N.of_nat (j / hn)))) 0.
Proof.
  intros B L. induction c as [|c IH]; intros Hj; [lia|].
  rewrite mask_snoc. destruct (le_lt_dec (c * hn) j) as [X|X].
  - rewrite app_nth2; rewrite mask_length by auto; [|auto].
    assert (E : (j = hn * c + (j - c * hn))%nat) by lia.
    assert (Lt : (j - c * hn < hn)%nat) by lia.
    rewrite <- (Nat.div_unique j hn c (j - c * hn) Lt E).
    now rewrite <- (Nat.mod_unique j hn c (j - c * hn) Lt E).
  - rewrite app_nth1 by (rewrite mask_length; auto). auto.
Qed.

Lemma nth_firstn_lt {A} (l : list A) k j d : (j < k)%nat -> nth j (firstn k l) d = nth j l d.
Proof.
  revert k j. induction l as [|a l IH]; intros k j Hk.
  - now rewrite firstn_nil.
  - destruct k; [lia|]. destruct j; [reflexivity|]. cbn [firstn nth]. apply IH. lia.
Qed.

Lemma mgf1_spec_nth seed size j : bytes seed -> N.of_nat (length seed) + 4 < limit -> (j < size)%nat ->
  nth j (mgf1_spec H hn seed size) 0 =
  nth (j mod hn) (H (seed ++ be_bytes 4 (N.of_nat (j / hn)))) 0.
Proof.
  intros B L Hj. unfold mgf1_spec. fold (mask seed ((size + hn - 1) / hn)).
  rewrite nth_firstn_lt by auto. apply mask_nth; auto.
  destruct (le_lt_dec size ((size + hn - 1) / hn * hn)) as [|X]; [lia|].
  apply ceil_div in X; auto. lia.
Qed.

Lemma mgf1_spec_prefix seed a b : bytes seed -> N.of_nat (length seed) + 4 < limit -> (a <= b)%nat ->
  firstn a (mgf1_spec H hn seed b) = mgf1_spec H hn seed a.
Proof.
  intros B L Hab. apply (list_ext 0).
  - rewrite firstn_length, !mgf1_spec_length by auto. lia.
  - intros i Hi. rewrite firstn_length, mgf1_spec_length in Hi by auto.
    rewrite nth_firstn_lt, !mgf1_spec_nth by (auto; lia). reflexivity.
Qed.

End Mgf.

(** ** Exclusive or of byte strings *)

Lemma xor_bytes_length a b : length a = length b -> length (xor_bytes a b) = length a.
Proof. intros E. unfold xor_bytes. rewrite map_length, combine_length. lia. Qed.

Lemma xor_bytes_bytes a b : bytes a -> bytes b -> bytes (xor_bytes a b).
Proof.
  intros Ha. revert b. induction Ha as [|x a Hx Ha IH]; intros b Hb; [constructor|].
  destruct Hb as [|y b Hy Hb]; [constructor|]. constructor; [|now apply IH].
  cbn [fst snd]. unfold byte in *. change 256 with (2 ^ 8) in *.
  apply lt_pow2_testbit. intros n Hn. rewrite N.lxor_spec.
  now rewrite (testbit_high x 8 n), (testbit_high y 8 n).
Qed.

Lemma xor_bytes_cancel a b : length a = length b -> xor_bytes (xor_bytes a b) b = a.
Proof.
  revert b. induction a as [|x a IH]; intros [|y b] E; cbn in E; try lia; [reflexivity|].
  unfold xor_bytes in *. cbn [combine map fst snd].
  rewrite N.lxor_assoc, N.lxor_nilpotent, N.lxor_0_r. f_equal. apply IH. lia.
Qed.

Lemma xor_bytes_nth a b i : length a = length b -> (i < length a)%nat ->
  nth i (xor_bytes a b) 0 = N.lxor (nth i a 0) (nth i b 0).
Proof.
  revert b i. induction a as [|x a IH]; intros [|y b] i E Hi; cbn [length] in *; try lia.
  destruct i; [reflexivity|]. cbn [nth xor_bytes combine map]. apply IH; lia.
Qed.

Lemma xor_slices_ok a b : length a = length b -> xor_slices a b = Ok (xor_bytes a b).
Proof.
  intros E. unfold xor_slices. rewrite (proj2 (Nat.eqb_eq _ _) E).
  rewrite (mapM_ok _ (fun i => N.lxor (nth i a 0) (nth i b 0))).
  - f_equal. apply (list_ext 0).
    + rewrite map_length, xor_bytes_length, range_length by auto. lia.
    + rewrite map_length, range_length. intros i Hi.
      rewrite xor_bytes_nth by (auto; lia).
      rewrite nth_indep with (d' := N.lxor (nth 0 a 0) (nth 0 b 0))
        by (rewrite map_length, range_length; lia).
      rewrite (map_nth (fun i => N.lxor (nth i a 0) (nth i b 0))).
      unfold range. rewrite seq_nth by lia. reflexivity.
  - intros i Hi. apply in_range in Hi.
    rewrite !(idx_nth _ _ 0) by lia. reflexivity.
Qed.

Lemma xor_slices_panic a b : length a <> length b -> xor_slices a b = Panic PAssert.
Proof. intros E. unfold xor_slices. now rewrite (proj2 (Nat.eqb_neq _ _) E). Qed.

Lemma xor_bytes_app a a' b b' : length a = length b ->
  xor_bytes (a ++ a') (b ++ b') = xor_bytes a b ++ xor_bytes a' b'.
Proof.
  revert b. induction a as [|x a IH]; intros [|y b] E; cbn in E; try lia; [reflexivity|].
  unfold xor_bytes in *. cbn [app combine map]. f_equal. apply IH. lia.
Qed.

Lemma xor_bytes_same a : xor_bytes a a = repeat 0 (length a).
Proof.
  induction a as [|x a IH]; [reflexivity|]. unfold xor_bytes in *. cbn [combine map length repeat fst snd].
  now rewrite N.lxor_nilpotent, IH.
Qed.

(** Both masked with the same key: the key falls out. *)
Lemma xor_bytes_common a b k : length a = length k -> length b = length k ->
  xor_bytes (xor_bytes a k) (xor_bytes b k) = xor_bytes a b.
Proof.
  revert b k. induction a as [|x a IH]; intros [|y b] [|z k] E E'; cbn in E, E'; try lia; [reflexivity|].
  unfold xor_bytes in *. cbn [combine map fst snd]. f_equal; [|apply IH; lia].
  rewrite (N.lxor_comm y z), N.lxor_assoc, <- (N.lxor_assoc z z), N.lxor_nilpotent, N.lxor_0_l.
  reflexivity.
Qed.

Lemma bytes_eqb_spec a b : bytes_eqb a b = true <-> a = b.
Proof.
  revert b. induction a as [|x a IH]; intros [|y b]; cbn [bytes_eqb]; try (split; [discriminate|discriminate]).
  - split; auto.
  - rewrite andb_true_iff, N.eqb_eq, IH. split; [intros [-> ->]; auto|intros [= -> ->]; auto].
Qed.

(** ** OAEP *)

Section Oaep.
Context (hasher : list N -> res (list N)) (H : list N -> list N) (hn : nat) (limit : N).
Context (Himp : implements hasher H hn limit) (Hhn : (0 < hn)%nat).

Lemma data_block_length label m k : bytes label -> N.of_nat (length label) < limit ->
  oaep_fits hn m k -> length (data_block H hn label m k) = (k - hn - 1)%nat.
Proof.
  unfold oaep_fits. intros B L F. unfold data_block. rewrite !app_length, repeat_length.
  destruct (Himp label B L) as (_ & E & _). rewrite E. cbn [length]. lia.
Qed.

Lemma data_block_bytes label m k : bytes label -> N.of_nat (length label) < limit -> bytes m ->
  bytes (data_block H hn label m k).
Proof.
  intros B L Bm. unfold data_block. destruct (Himp label B L) as (_ & _ & E).
  apply Forall_app. split; auto. apply Forall_app. split.
  - apply Forall_forall. intros x Hx. apply repeat_spec in Hx. subst. reflexivity.
  - apply Forall_app. split; auto. constructor; [reflexivity|constructor].
Qed.

Lemma mgf1_db seed k : length seed = hn -> bytes seed -> N.of_nat k + 4 < limit ->
  N.of_nat k <= 2 ^ 32 * N.of_nat hn + 1 -> (hn + 1 <= k)%nat ->
  mgf1 hasher seed (k - hn - 1) = Ok (mgf1_spec H hn seed (k - hn - 1)) /\
  length (mgf1_spec H hn seed (k - hn - 1)) = (k - hn - 1)%nat /\
  bytes (mgf1_spec H hn seed (k - hn - 1)).
Proof.
  intros Ls Bs L1 L2 L3. change (2 ^ 32) with 4294967296 in *.
  split; [|split].
  - apply (mgf1_ok hasher H hn limit); auto; [lia|]. change (2 ^ 32) with 4294967296. lia.
  - apply (mgf1_spec_length hasher H hn limit); auto. lia.
  - apply (mgf1_spec_bytes hasher H hn limit); auto. lia.
Qed.

Lemma mgf1_seed mdb : bytes mdb -> N.of_nat (length mdb) + 4 < limit ->
  mgf1 hasher mdb hn = Ok (mgf1_spec H hn mdb hn) /\
  length (mgf1_spec H hn mdb hn) = hn /\ bytes (mgf1_spec H hn mdb hn).
Proof.
  intros B L. split; [|split].
  - apply (mgf1_ok hasher H hn limit); auto. change (2 ^ 32) with 4294967296. lia.
  - apply (mgf1_spec_length hasher H hn limit); auto.
  - apply (mgf1_spec_bytes hasher H hn limit); auto.
Qed.

Lemma oaep_encode_ok label m k : bytes label -> bytes m -> oaep_sizes hn limit label k -> oaep_fits hn m k ->
  oaep_encode hn hasher label m k = Ok (oaep_spec H hn (repeat 42 hn) label m k).
Proof.
  intros Bl Bm (L1 & L2 & L3) F. unfold oaep_encode.
  destruct (Himp label Bl L1) as (E & El & Eb). rewrite E. cbn [bind]. cbv zeta.
  unfold oaep_fits in F. rewrite (proj2 (Nat.ltb_ge _ _) F).
  rewrite nsub_ok by lia. cbn [bind]. rewrite nsub_ok by lia. cbn [bind].
  rewrite nsub_ok by lia. cbn [bind].
  assert (Bs : bytes (repeat 42 hn)).
  { apply Forall_forall. intros x Hx. apply repeat_spec in Hx. subst. reflexivity. }
  destruct (mgf1_db (repeat 42 hn) k (repeat_length _ _) Bs L2 L3) as (E1 & E2 & E3); [lia|].
  rewrite E1. cbn [bind].
  replace (H label ++ repeat 0 (k - (length m + 2 * hn + 2)) ++ [1] ++ m)
    with (data_block H hn label m k)
    by (unfold data_block; do 2 f_equal; f_equal; lia).
  rewrite xor_slices_ok by (rewrite data_block_length, E2; auto). cbn [bind].
  set (mdb := xor_bytes (data_block H hn label m k) (mgf1_spec H hn (repeat 42 hn) (k - hn - 1))).
  assert (Lm : length mdb = (k - hn - 1)%nat).
  { unfold mdb. rewrite xor_bytes_length; rewrite data_block_length; auto. }
  assert (Bmdb : bytes mdb) by (apply xor_bytes_bytes; auto using data_block_bytes).
  destruct (mgf1_seed mdb Bmdb) as (E4 & E5 & E6); [lia|].
  rewrite E4. cbn [bind]. rewrite xor_slices_ok by (rewrite repeat_length; auto). reflexivity.
Qed.

Lemma oaep_encode_too_long label m k : bytes label -> N.of_nat (length label) < limit ->
  ~ oaep_fits hn m k -> oaep_encode hn hasher label m k = Panic PExplicit.
Proof.
  intros Bl L1 F. unfold oaep_encode. destruct (Himp label Bl L1) as (E & _). rewrite E. cbn [bind]. cbv zeta.
  unfold oaep_fits in F. destruct (Nat.ltb_spec k (length m + 2 * hn + 2)); [auto|lia].
Qed.

Lemma oaep_encode_overflow label m k : bytes label -> N.of_nat (length label) < limit ->
  N.of_nat hn + 4 < limit -> oaep_fits hn m k -> 2 ^ 32 * N.of_nat hn + 1 < N.of_nat k ->
  oaep_encode hn hasher label m k = Panic POverflow.
Proof.
  intros Bl L1 L2 F L3. unfold oaep_encode. destruct (Himp label Bl L1) as (E & _). rewrite E. cbn [bind]. cbv zeta.
  unfold oaep_fits in F. rewrite (proj2 (Nat.ltb_ge _ _) F).
  rewrite nsub_ok by lia. cbn [bind]. rewrite nsub_ok by lia. cbn [bind].
  rewrite nsub_ok by lia. cbn [bind].
  rewrite (mgf1_overflow hasher H hn limit); auto.
  - apply Forall_forall. intros x Hx. apply repeat_spec in Hx. subst. reflexivity.
  - now rewrite repeat_length.
  - change (2 ^ 32) with 4294967296 in *. lia.
Qed.

Lemma oaep_spec_length seed label m k : length seed = hn -> bytes seed -> bytes label -> bytes m ->
  oaep_sizes hn limit label k -> oaep_fits hn m k -> length (oaep_spec H hn seed label m k) = k.
Proof.
  intros Ls Bs Bl Bm (L1 & L2 & L3) F. unfold oaep_spec. cbv zeta. unfold oaep_fits in F.
  destruct (mgf1_db seed k Ls Bs L2 L3) as (E1 & E2 & E3); [lia|].
  set (mdb := xor_bytes (data_block H hn label m k) (mgf1_spec H hn seed (k - hn - 1))).
  assert (Lm : length mdb = (k - hn - 1)%nat).
  { unfold mdb. rewrite xor_bytes_length; rewrite data_block_length; auto. }
  assert (Bmdb : bytes mdb) by (apply xor_bytes_bytes; auto using data_block_bytes).
  destruct (mgf1_seed mdb Bmdb) as (E4 & E5 & E6); [lia|].
  rewrite !app_length, xor_bytes_length, Lm by lia. cbn [length]. lia.
Qed.

Lemma oaep_spec_bytes seed label m k : length seed = hn -> bytes seed -> bytes label -> bytes m ->
  oaep_sizes hn limit label k -> oaep_fits hn m k -> bytes (oaep_spec H hn seed label m k).
Proof.
  intros Ls Bs Bl Bm (L1 & L2 & L3) F. unfold oaep_spec. cbv zeta. unfold oaep_fits in F.
  destruct (mgf1_db seed k Ls Bs L2 L3) as (E1 & E2 & E3); [lia|].
  set (mdb := xor_bytes (data_block H hn label m k) (mgf1_spec H hn seed (k - hn - 1))).
  assert (Lm : length mdb = (k - hn - 1)%nat).
  { unfold mdb. rewrite xor_bytes_length; rewrite data_block_length; auto. }
  assert (Bmdb : bytes mdb) by (apply xor_bytes_bytes; auto using data_block_bytes).
  destruct (mgf1_seed mdb Bmdb) as (E4 & E5 & E6); [lia|].
  apply Forall_app. split; [constructor; [reflexivity|constructor]|]. apply Forall_app. split; [now apply xor_bytes_bytes|exact Bmdb].
Qed.

(** What [decode] does to a string of the right length. *)
Definition decode_db (label db : list N) : result (list N) oaep_error :=
  if negb (bytes_eqb (firstn hn db) (H label)) then RErr WrongLabel
  else match position (fun b => negb (b =? 0)) (skipn hn db) with
       | None => RErr MissingOne
       | Some i => if negb (nth i (skipn hn db) 0 =? 1) then RErr SeparatorNotOne
                   else ROk (skipn (i + 1) (skipn hn db))
       end.

Lemma position_lt {A} (p : A -> bool) l i : position p l = Some i -> (i < length l)%nat.
Proof.
  intros E. apply position_some in E as (l1 & a & l2 & -> & <- & _ & _).
  rewrite app_length. cbn [length]. lia.
Qed.

Lemma oaep_decode_ok label ms mdb : bytes label -> oaep_sizes hn limit label (hn + 1 + length mdb) ->
  length ms = hn -> bytes ms -> bytes mdb -> (hn <= length mdb)%nat ->
  let seed := xor_bytes ms (mgf1_spec H hn mdb hn) in
  let db := xor_bytes mdb (mgf1_spec H hn seed (length mdb)) in
  length seed = hn /\ bytes seed /\ length db = length mdb /\ bytes db /\
  oaep_decode hn hasher label ([0] ++ ms ++ mdb) (hn + 1 + length mdb) = Ok (decode_db label db).
Proof.
  intros Bl (L1 & L2 & L3) Lms Bms Bmdb Lmdb seed db. unfold oaep_decode.
  cbn [app idx nth_error bind]. change (0 =? 0) with true. cbn [negb].
  destruct (Himp label Bl L1) as (E & El & Eb). rewrite E. cbn [bind].
  rewrite slice_ok by (cbn [length]; rewrite app_length; lia). cbn [bind skipn].
  replace (hn + 1 - 1)%nat with hn by lia.
  rewrite slice_from_ok by (cbn [length]; rewrite app_length; lia). cbn [bind].
  rewrite Nat.add_1_r. cbn [skipn].
  replace (firstn hn (ms ++ mdb)) with ms
    by (rewrite <- Lms, firstn_app, firstn_all, Nat.sub_diag, firstn_O, app_nil_r; auto).
  replace (skipn hn (ms ++ mdb)) with mdb
    by (rewrite <- Lms, skipn_app, skipn_all, Nat.sub_diag; auto).
  destruct (mgf1_seed mdb Bmdb) as (E4 & E5 & E6); [lia|].
  rewrite E4. cbn [bind]. rewrite xor_slices_ok by lia. cbn [bind]. fold seed.
  assert (Ls : length seed = hn) by (unfold seed; rewrite xor_bytes_length; lia).
  assert (Bs : bytes seed) by (apply xor_bytes_bytes; auto).
  rewrite nsub_ok by lia. cbn [bind]. rewrite nsub_ok by lia. cbn [bind].
  destruct (mgf1_db seed (hn + 1 + length mdb) Ls Bs L2 L3) as (E1 & E2 & E3); [lia|].
  replace (S hn + length mdb - hn - 1)%nat with (hn + 1 + length mdb - hn - 1)%nat by lia.
  rewrite E1. cbn [bind].
  assert (El' : (hn + 1 + length mdb - hn - 1 = length mdb)%nat) by lia. rewrite El' in *.
  rewrite xor_slices_ok by lia. cbn [bind]. fold db.
  assert (Ldb : length db = length mdb) by (unfold db; rewrite xor_bytes_length; lia).
  split; [exact Ls|]. split; [exact Bs|]. split; [exact Ldb|]. split; [apply xor_bytes_bytes; auto|].
  rewrite slice_to_ok by lia. cbn [bind]. unfold decode_db.
  destruct (bytes_eqb (firstn hn db) (H label)); cbn [negb]; [|reflexivity].
  rewrite slice_from_ok by lia. cbn [bind].
  destruct (position (fun b => negb (b =? 0)) (skipn hn db)) as [i|] eqn:Ep; [|reflexivity].
  apply position_lt in Ep. rewrite (idx_nth _ _ 0) by auto. cbn [bind].
  destruct (nth i (skipn hn db) 0 =? 1); cbn [negb]; [|reflexivity].
  rewrite slice_from_ok by lia. reflexivity.
Qed.

Lemma decode_db_iff label db m : bytes label -> N.of_nat (length label) < limit -> (hn <= length db)%nat ->
  decode_db label db = ROk m <-> oaep_fits hn m (hn + 1 + length db) /\
    db = data_block H hn label m (hn + 1 + length db).
Proof.
  intros Bl L1 Ldb. destruct (Himp label Bl L1) as (_ & El & _). unfold decode_db, oaep_fits. split.
  - destruct (bytes_eqb (firstn hn db) (H label)) eqn:E1; cbn [negb]; [|discriminate].
    apply bytes_eqb_spec in E1.
    destruct (position (fun b => negb (b =? 0)) (skipn hn db)) as [i|] eqn:Ep; [|discriminate].
    apply position_some in Ep as (l1 & a & l2 & Es & <- & Ha & Hz). rewrite Es.
    rewrite app_nth2, Nat.sub_diag by lia. cbn [nth].
    destruct (N.eqb_spec a 1) as [->|]; cbn [negb]; [|discriminate].
    rewrite skipn_app, skipn_all2 by lia. replace (length l1 + 1 - length l1)%nat with 1%nat by lia.
    cbn [skipn app]. intros [= <-].
    assert (Lt : length db = (hn + length l1 + 1 + length l2)%nat).
    { rewrite <- (firstn_skipn hn db), Es, app_length, app_length, firstn_length. cbn [length]. lia. }
    split; [lia|]. unfold data_block.
    rewrite <- (firstn_skipn hn db) at 1. rewrite E1, Es. f_equal.
    replace (hn + 1 + length db - length l2 - 2 * hn - 2)%nat with (length l1) by lia.
    cbn [app]. f_equal.
    clear - Hz. induction Hz as [|x l Hx Hl IH]; [reflexivity|]. cbn [length repeat]. rewrite <- IH.
    destruct (N.eqb_spec x 0); [now subst|discriminate].
  - intros [F E]. set (z := (hn + 1 + length db - length m - 2 * hn - 2)%nat).
    assert (E1 : firstn hn db = H label).
    { rewrite E. unfold data_block. rewrite <- El, firstn_app, firstn_all, Nat.sub_diag, firstn_O, app_nil_r. auto. }
    assert (E2 : skipn hn db = repeat 0 z ++ 1 :: m).
    { rewrite E at 1. unfold data_block. rewrite <- El at 1. rewrite skipn_app, skipn_all, Nat.sub_diag. reflexivity. }
    rewrite E1, E2. rewrite (proj2 (bytes_eqb_spec (H label) (H label)) eq_refl). cbn [negb].
    assert (Ep : position (fun b => negb (b =? 0)) (repeat 0 z ++ 1 :: m) = Some z).
    { apply position_some. exists (repeat 0 z), 1, m. split; [auto|]. split; [apply repeat_length|].
      split; [auto|]. apply Forall_forall. intros x Hx. apply repeat_spec in Hx. now subst. }
    rewrite Ep. rewrite app_nth2; rewrite repeat_length; [|lia]. rewrite Nat.sub_diag. cbn [nth].
    change (1 =? 1) with true. cbn [negb].
    rewrite skipn_app, skipn_all2 by (rewrite repeat_length; lia). rewrite repeat_length.
    replace (z + 1 - z)%nat with 1%nat by lia. reflexivity.
Qed.

Lemma split_em em : (2 * hn + 1 <= length em)%nat -> hd 1 em = 0 ->
  exists ms mdb, em = [0] ++ ms ++ mdb /\ length ms = hn /\ (hn <= length mdb)%nat.
Proof.
  intros L E. destruct em as [|x em]; [cbn in L; lia|]. cbn [hd] in E. subst x. cbn [length] in L.
  exists (firstn hn em), (skipn hn em). split; [cbn [app]; f_equal; symmetry; apply firstn_skipn|].
  rewrite firstn_length, skipn_length. lia.
Qed.

(** Everything before the data block. *)
Lemma oaep_decode_head label em n_len : bytes label -> bytes em -> N.of_nat (length label) < limit ->
  N.of_nat (length em) + 4 < limit -> hd 1 em = 0 -> (hn + 1 <= length em)%nat ->
  exists seed, length seed = hn /\ bytes seed /\
    oaep_decode hn hasher label em n_len =
    (let* k := nsub n_len hn in
     let* k := nsub k 1 in
     let* db_mask := mgf1 hasher seed k in
     let* db := xor_slices (skipn (hn + 1) em) db_mask in
     let* db0 := slice_to db hn in
     if negb (bytes_eqb db0 (H label)) then Ok (RErr WrongLabel)
     else
       let* rest := slice_from db hn in
       match position (fun b => negb (b =? 0)) rest with
       | None => Ok (RErr MissingOne)
       | Some separator_idx =>
           let* s := idx rest separator_idx in
           if negb (s =? 1) then Ok (RErr SeparatorNotOne)
           else
             let* message := slice_from rest (separator_idx + 1) in
             Ok (ROk message)
       end).
Proof.
  intros Bl Bem L1 L2 Hd L'. unfold oaep_decode.
  destruct em as [|b em'] eqn:Eem; [cbn in L'; lia|]. cbn [hd] in Hd. subst b.
  cbn [idx nth_error bind]. change (0 =? 0) with true. cbn [negb]. rewrite <- Eem in *.
  destruct (Himp label Bl L1) as (E & El & Eb). rewrite E. cbn [bind].
  rewrite slice_ok by lia. cbn [bind]. rewrite slice_from_ok by lia. cbn [bind].
  set (mdb := skipn (hn + 1) em).
  assert (Bmdb : bytes mdb) by (apply Forall_skipn; auto).
  assert (Lm : length mdb = (length em - hn - 1)%nat) by (unfold mdb; rewrite skipn_length; lia).
  destruct (mgf1_seed mdb Bmdb) as (E4 & E5 & E6); [lia|]. rewrite E4. cbn [bind].
  assert (Lf : length (firstn (hn + 1 - 1) (skipn 1 em)) = hn)
    by (rewrite firstn_length, skipn_length; lia).
  rewrite xor_slices_ok by lia. cbn [bind].
  eexists. split; [|split; [|reflexivity]].
  - rewrite xor_bytes_length; lia.
  - apply xor_bytes_bytes; auto. apply Forall_firstn, Forall_skipn; auto.
Qed.

(** Too short: the first byte is the only thing looked at before the panic. *)
Lemma oaep_decode_short label em : bytes label -> bytes em -> oaep_sizes hn limit label (length em) ->
  hd 1 em = 0 -> (length em < 2 * hn + 1)%nat ->
  oaep_decode hn hasher label em (length em) = Panic PIndex.
Proof.
  intros Bl Bem (L1 & L2 & L3) Hd L.
  destruct (le_lt_dec (hn + 1) (length em)) as [L'|L'].
  - destruct (oaep_decode_head label em (length em) Bl Bem L1 L2 Hd L') as (seed & Ls & Bs & E). rewrite E.
    rewrite nsub_ok by lia. cbn [bind]. rewrite nsub_ok by lia. cbn [bind].
    destruct (mgf1_db seed (length em) Ls Bs L2 L3) as (E1 & E2 & E3); [lia|].
    rewrite E1. cbn [bind]. rewrite xor_slices_ok by (rewrite skipn_length; lia). cbn [bind].
    rewrite slice_to_panic; [reflexivity|]. rewrite xor_bytes_length; rewrite skipn_length; lia.
  - unfold oaep_decode. destruct em as [|b em']; [reflexivity|]. cbn [hd] in Hd. subst b.
    cbn [idx nth_error bind]. change (0 =? 0) with true. cbn [negb].
    destruct (Himp label Bl L1) as (E & El & Eb). rewrite E. cbn [bind].
    rewrite slice_panic by lia. reflexivity.
Qed.

Lemma oaep_decode_mismatch label em n_len : bytes label -> bytes em -> N.of_nat (length label) < limit ->
  N.of_nat (length em) + 4 < limit -> hd 1 em = 0 -> n_len <> length em ->
  oaep_decode hn hasher label em n_len =
  Panic (if (length em <? hn + 1)%nat then PIndex
         else if ((hn <? n_len)%nat && (N.of_nat n_len <=? 2 ^ 32 * N.of_nat hn + 1))%bool
         then PAssert else POverflow).
Proof.
  intros Bl Bem L1 L2 Hd Hne. destruct (Nat.ltb_spec (length em) (hn + 1)) as [L'|L'].
  { unfold oaep_decode. destruct em as [|b em']; [reflexivity|]. cbn [hd] in Hd. subst b.
    cbn [idx nth_error bind]. change (0 =? 0) with true. cbn [negb].
    destruct (Himp label Bl L1) as (E & El & Eb). rewrite E. cbn [bind].
    rewrite slice_panic by lia. reflexivity. }
  destruct (oaep_decode_head label em n_len Bl Bem L1 L2 Hd L') as (seed & Ls & Bs & E). rewrite E.
  destruct (Nat.ltb_spec hn n_len) as [L3|L3]; cbn [andb].
  2:{ destruct (Nat.eq_dec hn n_len) as [->|].
      - rewrite nsub_ok by lia. cbn [bind]. rewrite nsub_panic by lia. reflexivity.
      - rewrite nsub_panic by lia. reflexivity. }
  rewrite nsub_ok by lia. cbn [bind]. rewrite nsub_ok by lia. cbn [bind].
  destruct (N.leb_spec (N.of_nat n_len) (2 ^ 32 * N.of_nat hn + 1)) as [L5|L5].
  - rewrite (mgf1_ok hasher H hn limit) by (auto; lia). cbn [bind].
    rewrite xor_slices_panic; [reflexivity|].
    rewrite (mgf1_spec_length hasher H hn limit) by (auto; lia). rewrite skipn_length. lia.
  - rewrite (mgf1_overflow hasher H hn limit) by (auto; lia). reflexivity.
Qed.

Lemma oaep_decode_first_byte label b em k : b <> 0 ->
  oaep_decode hn hasher label (b :: em) k = Ok (RErr FirstByteNotZero).
Proof.
  intros Hb. unfold oaep_decode. cbn [idx nth_error bind]. now rewrite (proj2 (N.eqb_neq _ _) Hb).
Qed.

Lemma oaep_decode_total label em : bytes label -> bytes em -> oaep_sizes hn limit label (length em) ->
  (2 * hn + 1 <= length em)%nat -> exists r, oaep_decode hn hasher label em (length em) = Ok r.
Proof.
  intros Bl Bem Hs L. destruct em as [|b em'] eqn:Eem; [cbn in L; lia|].
  destruct (N.eq_dec b 0) as [->|Hb].
  - rewrite <- Eem in *. destruct (split_em em L) as (ms & mdb & E' & Lms & Lmdb); [now rewrite Eem|].
    clear Eem em'. subst em. rewrite !app_length in *. cbn [length] in *.
    replace (1 + (length ms + length mdb))%nat with (hn + 1 + length mdb)%nat in * by lia.
    apply Forall_app in Bem as [_ Bem]. apply Forall_app in Bem as [Bms Bmdb].
    destruct (oaep_decode_ok label ms mdb Bl Hs Lms Bms Bmdb Lmdb) as (I1 & I2 & I3 & I4 & I5).
    rewrite I5. eexists. reflexivity.
  - rewrite oaep_decode_first_byte by auto. eexists. reflexivity.
Qed.

(** [decode] of a string of the right length, from its data block. *)
Lemma oaep_decode_unmask label em : bytes label -> bytes em -> oaep_sizes hn limit label (length em) ->
  (2 * hn + 1 <= length em)%nat -> hd 1 em = 0 ->
  oaep_decode hn hasher label em (length em) = Ok (decode_db label (oaep_unmask H hn em)).
Proof.
  intros Bl Bem Hs L Hd. destruct (split_em em L Hd) as (ms & mdb & E' & Lms & Lmdb). subst em.
  rewrite !app_length in *. cbn [length] in *.
  replace (1 + (length ms + length mdb))%nat with (hn + 1 + length mdb)%nat in * by lia.
  apply Forall_app in Bem as [_ Bem]. apply Forall_app in Bem as [Bms Bmdb].
  destruct (oaep_decode_ok label ms mdb Bl Hs Lms Bms Bmdb Lmdb) as (I1 & I2 & I3 & I4 & I5).
  rewrite I5. unfold oaep_unmask. cbv zeta. cbn [Nat.add app skipn].
  replace (firstn hn (ms ++ mdb)) with ms
    by (rewrite <- Lms, firstn_app, firstn_all, Nat.sub_diag, firstn_O, app_nil_r; auto).
  replace (skipn hn (ms ++ mdb)) with mdb
    by (rewrite <- Lms, skipn_app, skipn_all, Nat.sub_diag; auto).
  reflexivity.
Qed.

Lemma oaep_unmask_length em : bytes em -> N.of_nat (length em) + 4 < limit ->
  (hn + 1 <= length em)%nat -> length (oaep_unmask H hn em) = (length em - hn - 1)%nat.
Proof.
  intros B L1 L. unfold oaep_unmask. cbv zeta.
  assert (Lm : length (skipn (1 + hn) em) = (length em - hn - 1)%nat) by (rewrite skipn_length; lia).
  assert (Ls : length (firstn hn (skipn 1 em)) = hn) by (rewrite firstn_length, skipn_length; lia).
  destruct (mgf1_seed (skipn (1 + hn) em) (Forall_skipn _ _ _ B)) as (_ & E5 & E6); [lia|].
  rewrite xor_bytes_length; [exact Lm|]. rewrite (mgf1_spec_length hasher H hn limit); auto.
  - apply xor_bytes_bytes; auto. apply Forall_firstn, Forall_skipn; auto.
  - rewrite xor_bytes_length; lia.
Qed.

Lemma oaep_decode_wrong_label label em : bytes label -> bytes em -> oaep_sizes hn limit label (length em) ->
  (2 * hn + 1 <= length em)%nat -> hd 1 em = 0 -> firstn hn (oaep_unmask H hn em) <> H label ->
  oaep_decode hn hasher label em (length em) = Ok (RErr WrongLabel).
Proof.
  intros Bl Bem Hs L Hd N. rewrite oaep_decode_unmask by auto. unfold decode_db.
  destruct (bytes_eqb (firstn hn (oaep_unmask H hn em)) (H label)) eqn:E; [|reflexivity].
  apply bytes_eqb_spec in E. contradiction.
Qed.

Lemma decode_db_label label x : bytes label -> N.of_nat (length label) < limit ->
  decode_db label (H label ++ x) =
  match position (fun b => negb (b =? 0)) x with
  | None => RErr MissingOne
  | Some i => if negb (nth i x 0 =? 1) then RErr SeparatorNotOne else ROk (skipn (i + 1) x)
  end.
Proof.
  intros Bl L1. destruct (Himp label Bl L1) as (_ & El & _). unfold decode_db.
  rewrite <- El at 1. rewrite firstn_app, firstn_all, Nat.sub_diag, firstn_O, app_nil_r.
  rewrite (proj2 (bytes_eqb_spec _ _) eq_refl). cbn [negb].
  replace (skipn hn (H label ++ x)) with x; [reflexivity|].
  rewrite <- El at 1. now rewrite skipn_app, skipn_all, Nat.sub_diag.
Qed.

Lemma position_zeros j : position (fun b => negb (b =? 0)) (repeat 0 j) = None.
Proof. induction j as [|j IH]; cbn; [reflexivity|]. now rewrite IH. Qed.

Lemma position_zeros_cons j b x : b <> 0 ->
  position (fun b => negb (b =? 0)) (repeat 0 j ++ b :: x) = Some j.
Proof.
  intros Hb. induction j as [|j IH]; cbn.
  - now rewrite (proj2 (N.eqb_neq _ _) Hb).
  - now rewrite IH.
Qed.

Lemma oaep_decode_missing label em j : bytes label -> bytes em -> oaep_sizes hn limit label (length em) ->
  (2 * hn + 1 <= length em)%nat -> hd 1 em = 0 -> oaep_unmask H hn em = H label ++ repeat 0 j ->
  oaep_decode hn hasher label em (length em) = Ok (RErr MissingOne).
Proof.
  intros Bl Bem Hs L Hd E. rewrite oaep_decode_unmask, E, decode_db_label by (auto; apply Hs).
  now rewrite position_zeros.
Qed.

Lemma oaep_decode_separator label em j b x : bytes label -> bytes em -> oaep_sizes hn limit label (length em) ->
  (2 * hn + 1 <= length em)%nat -> hd 1 em = 0 ->
  oaep_unmask H hn em = H label ++ repeat 0 j ++ b :: x -> b <> 0 ->
  oaep_decode hn hasher label em (length em) = Ok (if b =? 1 then ROk x else RErr SeparatorNotOne).
Proof.
  intros Bl Bem Hs L Hd E Hb. rewrite oaep_decode_unmask, E, decode_db_label by (auto; apply Hs).
  rewrite position_zeros_cons by auto. rewrite app_nth2, repeat_length, Nat.sub_diag by (rewrite repeat_length; lia).
  cbn [nth]. destruct (b =? 1); cbn [negb]; [|reflexivity].
  rewrite skipn_app, skipn_all2 by (rewrite repeat_length; lia). rewrite repeat_length.
  now replace (j + 1 - j)%nat with 1%nat by lia.
Qed.

Lemma oaep_decode_iff label em m : bytes label -> bytes em -> oaep_sizes hn limit label (length em) ->
  oaep_decode hn hasher label em (length em) = Ok (ROk m) <-> oaep_encodes H hn label m em.
Proof.
  intros Bl Bem Hs. split.
  - intros E. destruct em as [|b em'] eqn:Eem; [discriminate|].
    destruct (N.eq_dec b 0) as [->|Hb].
    2:{ unfold oaep_decode in E. cbn [idx nth_error bind] in E.
        rewrite (proj2 (N.eqb_neq _ _) Hb) in E. discriminate. }
    destruct (le_lt_dec (2 * hn + 1) (length em)) as [L|L].
    + destruct (split_em em L) as (ms & mdb & E' & Lms & Lmdb); [now rewrite Eem|].
      rewrite <- Eem in *. clear Eem em'. subst em. rewrite !app_length in *. cbn [length] in *.
      replace (1 + (length ms + length mdb))%nat with (hn + 1 + length mdb)%nat in * by lia.
      apply Forall_app in Bem as [_ Bem]. apply Forall_app in Bem as [Bms Bmdb].
      destruct (oaep_decode_ok label ms mdb Bl Hs Lms Bms Bmdb Lmdb) as (I1 & I2 & I3 & I4 & I5).
      rewrite I5 in E. apply Ok_inj in E. destruct Hs as (L1 & L2 & L3).
      set (seed := xor_bytes ms (mgf1_spec H hn mdb hn)) in *.
      set (db := xor_bytes mdb (mgf1_spec H hn seed (length mdb))) in *.
      apply decode_db_iff in E as [F Edb]; auto; [|lia].
      rewrite I3 in F, Edb. exists seed. split; [exact I1|]. split; [exact I2|].
      rewrite !app_length. cbn [length].
      replace (1 + (length ms + length mdb))%nat with (hn + 1 + length mdb)%nat by lia.
      split; [exact F|]. unfold oaep_spec. cbv zeta. rewrite <- Edb.
      replace (hn + 1 + length mdb - hn - 1)%nat with (length mdb) by lia.
      destruct (mgf1_db seed (hn + 1 + length mdb) I1 I2 L2 L3) as (_ & E2 & _); [lia|].
      replace (hn + 1 + length mdb - hn - 1)%nat with (length mdb) in E2 by lia.
      unfold db. rewrite xor_bytes_cancel by lia. unfold seed.
      destruct (mgf1_seed mdb Bmdb) as (_ & E5 & _); [lia|].
      rewrite xor_bytes_cancel by lia. reflexivity.
    + rewrite <- Eem in *. rewrite oaep_decode_short in E; auto; [discriminate|now rewrite Eem].
  - intros (seed & Ls & Bs & F & E). destruct Hs as (L1 & L2 & L3).
    unfold oaep_fits in F. set (k := length em) in *.
    unfold oaep_spec in E. cbv zeta in E.
    destruct (mgf1_db seed k Ls Bs L2 L3) as (E1 & E2 & E3); [lia|].
    set (db := data_block H hn label m k) in *.
    assert (Ldb : length db = (k - hn - 1)%nat) by (apply data_block_length; auto).
    set (mdb := xor_bytes db (mgf1_spec H hn seed (k - hn - 1))) in *.
    assert (Lm : length mdb = (k - hn - 1)%nat) by (unfold mdb; rewrite xor_bytes_length; lia).
    set (ms := xor_bytes seed (mgf1_spec H hn mdb hn)) in *.
    rewrite E in Bem. apply Forall_app in Bem as [_ Bem]. apply Forall_app in Bem as [Bms Bmdb].
    destruct (mgf1_seed mdb Bmdb) as (E4 & E5 & E6); [lia|].
    assert (Lms : length ms = hn) by (unfold ms; rewrite xor_bytes_length; lia).
    assert (Ek : k = (hn + 1 + length mdb)%nat) by lia.
    destruct (oaep_decode_ok label ms mdb Bl) as (I1 & I2 & I3 & I4 & I5); auto; try lia.
    { rewrite <- Ek. repeat split; auto. }
    rewrite <- E, <- Ek in I5. rewrite I5. f_equal.
    replace (xor_bytes ms (mgf1_spec H hn mdb hn)) with seed in *
      by (unfold ms; rewrite xor_bytes_cancel; auto; lia).
    rewrite Lm in *.
    replace (xor_bytes mdb (mgf1_spec H hn seed (k - hn - 1))) with db in *
      by (unfold mdb; rewrite xor_bytes_cancel; auto; lia).
    apply decode_db_iff; auto; [lia|]. rewrite Ldb.
    replace (hn + 1 + (k - hn - 1))%nat with k by lia. split; [exact F|reflexivity].
Qed.

Lemma oaep_decode_rejects label em : bytes label -> bytes em -> oaep_sizes hn limit label (length em) ->
  (2 * hn + 1 <= length em)%nat -> (forall m, ~ oaep_encodes H hn label m em) ->
  exists e, oaep_decode hn hasher label em (length em) = Ok (RErr e).
Proof.
  intros Bl Bem Hs L Hn. destruct (oaep_decode_total label em Bl Bem Hs L) as ([m|e] & E).
  - apply oaep_decode_iff in E; auto. now apply Hn in E.
  - eexists. exact E.
Qed.

Lemma oaep_roundtrip label m k : bytes label -> bytes m -> oaep_sizes hn limit label k -> oaep_fits hn m k ->
  exists em, oaep_encode hn hasher label m k = Ok em /\ length em = k /\ hd 1 em = 0 /\ bytes em /\
    oaep_decode hn hasher label em k = Ok (ROk m).
Proof.
  intros Bl Bm Hs F. exists (oaep_spec H hn (repeat 42 hn) label m k).
  assert (Bs : bytes (repeat 42 hn)).
  { apply Forall_forall. intros x Hx. apply repeat_spec in Hx. subst. reflexivity. }
  assert (L : length (oaep_spec H hn (repeat 42 hn) label m k) = k).
  { apply oaep_spec_length; auto. apply repeat_length. }
  assert (B : bytes (oaep_spec H hn (repeat 42 hn) label m k)).
  { apply oaep_spec_bytes; auto. apply repeat_length. }
  split; [apply oaep_encode_ok; auto|]. split; [exact L|]. split; [reflexivity|]. split; [exact B|].
  rewrite <- L at 2. apply oaep_decode_iff; auto; [now rewrite L|].
  exists (repeat 42 hn). split; [apply repeat_length|]. split; [exact Bs|]. rewrite L. auto.
Qed.

(** One encoding, one message. *)
Lemma oaep_encodes_unique label m m' em : bytes label -> bytes em -> oaep_sizes hn limit label (length em) ->
  oaep_encodes H hn label m em -> oaep_encodes H hn label m' em -> m = m'.
Proof.
  intros Bl Bem Hs E1 E2. apply oaep_decode_iff in E1, E2; auto. rewrite E1 in E2.
  apply Ok_inj in E2. now injection E2.
Qed.

(** A fixed seed masks all data blocks with the same string. *)
Lemma oaep_same_mask label m m' k em em' : bytes label -> bytes m -> bytes m' ->
  oaep_sizes hn limit label k -> oaep_fits hn m k -> length m = length m' ->
  oaep_encode hn hasher label m k = Ok em -> oaep_encode hn hasher label m' k = Ok em' ->
  xor_bytes (skipn (hn + 1) em) (skipn (hn + 1) em') =
  repeat 0 (k - hn - 1 - length m) ++ xor_bytes m m'.
Proof.
  intros Bl Bm Bm' Hs F El E E'. assert (F' : oaep_fits hn m' k) by (unfold oaep_fits in *; lia).
  rewrite oaep_encode_ok in E by auto. rewrite oaep_encode_ok in E' by auto.
  apply Ok_inj in E, E'. subst em em'.
  assert (Bs : bytes (repeat 42 hn)).
  { apply Forall_forall. intros x Hx. apply repeat_spec in Hx. subst. reflexivity. }
  destruct Hs as (L1 & L2 & L3). unfold oaep_fits in F.
  destruct (mgf1_db (repeat 42 hn) k (repeat_length _ _) Bs L2 L3) as (_ & E2 & _); [lia|].
  assert (Sk : forall x, bytes x -> length x = length m -> skipn (hn + 1) (oaep_spec H hn (repeat 42 hn) label x k) =
     xor_bytes (data_block H hn label x k) (mgf1_spec H hn (repeat 42 hn) (k - hn - 1))).
  { intros x Bx Lx. unfold oaep_spec. cbv zeta.
    set (mdb := xor_bytes (data_block H hn label x k) (mgf1_spec H hn (repeat 42 hn) (k - hn - 1))).
    assert (Fx : oaep_fits hn x k) by (unfold oaep_fits; lia).
    assert (Lm : length mdb = (k - hn - 1)%nat).
    { unfold mdb. rewrite xor_bytes_length; rewrite data_block_length; auto. }
    assert (Bmdb : bytes mdb) by (apply xor_bytes_bytes; auto using data_block_bytes, mgf1_db; apply mgf1_db; auto; [apply repeat_length|lia]).
    destruct (mgf1_seed mdb Bmdb) as (E4 & E5 & E6); [lia|].
    rewrite Nat.add_1_r. cbn [app skipn].
    assert (Lx' : length (xor_bytes (repeat 42 hn) (mgf1_spec H hn mdb hn)) = hn)
      by (rewrite xor_bytes_length; rewrite repeat_length; auto).
    rewrite <- Lx' at 1. rewrite skipn_app, skipn_all, Nat.sub_diag. reflexivity. }
  rewrite (Sk m), (Sk m') by auto.
  rewrite xor_bytes_common by (rewrite E2; apply data_block_length; auto; unfold oaep_fits; lia).
  unfold data_block. destruct (Himp label Bl L1) as (_ & Eh & _).
  rewrite <- El. rewrite !(app_assoc (H label)), !app_assoc.
  rewrite xor_bytes_app by reflexivity. rewrite xor_bytes_same. f_equal. f_equal.
  rewrite !app_length, repeat_length, Eh. cbn [length]. lia.
Qed.

End Oaep.

(** ** [RsaPadding] *)

Lemma rsa_sizes label k : N.of_nat (length label) < 2 ^ 61 -> N.of_nat k <= 2 ^ 37 + 1 ->
  oaep_sizes 32 (2 ^ 61) label k.
Proof.
  intros L1 L2. split; [exact L1|]. change (N.of_nat 32) with 32.
  change (2 ^ 32 * 32) with (2 ^ 37). split; [|exact L2].
  change (2 ^ 61) with 2305843009213693952. change (2 ^ 37) with 137438953472 in *. lia.
Qed.

Lemma rsa_padding_roundtrip label m k : bytes label -> bytes m ->
  N.of_nat (length label) < 2 ^ 61 -> (length m + 66 <= k)%nat -> N.of_nat k <= 2 ^ 37 + 1 ->
  exists em, ps_encode rsa_padding label m k = Ok em /\ length em = k /\ hd 1 em = 0 /\ bytes em /\
    ps_decode rsa_padding label em k = Ok (ROk m).
Proof.
  intros Bl Bm L1 F L2.
  apply (oaep_roundtrip sha256 sha256_spec 32 (2 ^ 61) sha256_implements); auto using rsa_sizes; [lia|].
  unfold oaep_fits. lia.
Qed.

Lemma rsa_padding_too_short label m k : bytes label -> N.of_nat (length label) < 2 ^ 61 ->
  (k < length m + 66)%nat -> ps_encode rsa_padding label m k = Panic PExplicit.
Proof.
  intros Bl L1 F. apply (oaep_encode_too_long sha256 sha256_spec 32 (2 ^ 61) sha256_implements); auto; try (unfold oaep_fits; lia).
Qed.

Lemma rsa_padding_too_long label m k : bytes label -> N.of_nat (length label) < 2 ^ 61 ->
  (length m + 66 <= k)%nat -> 2 ^ 37 + 1 < N.of_nat k ->
  ps_encode rsa_padding label m k = Panic POverflow.
Proof.
  intros Bl L1 F L2.
  apply (oaep_encode_overflow sha256 sha256_spec 32 (2 ^ 61) sha256_implements); auto; [lia|reflexivity|].
  unfold oaep_fits. lia.
Qed.
