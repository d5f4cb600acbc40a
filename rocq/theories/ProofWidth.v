(** * What depends on the width of [usize] *)
From Coq Require Import ZifyBool ZifyNat ZifyN.
From Verif Require Import Base BaseLemmas ModelMd ModelPem ModelWidth SpecEndian SpecWord SpecMd SpecAsn1 SpecRelease
  SpecWidth ProofEndian ProofWord ProofMd ProofAsn1 ProofRelease.
Ltac Zify.zify_post_hook ::= Z.div_mod_to_equations.
Local Open Scope N_scope.

(** ** With 64 bits it is the model *)

Lemma md_hash_64 P process m : @md_hash_w P 64 process m = @md_hash P process m.
Proof. reflexivity. Qed.

Lemma parse_64 P fuel bytes : @parse_from_bytes_w P 64 fuel bytes = @parse_from_bytes P fuel bytes.
Proof. reflexivity. Qed.

Lemma asn1_64 P bytes : @asn1_try_from_w P 64 bytes = @asn1_try_from P bytes.
Proof. reflexivity. Qed.

(** ** MD4 and MD5 *)

(** The hasher with the low [w] bits of its counter. *)
Definition low (w : N) (h : md_hasher) : md_hasher :=
  {| md_unprocessed_bytes := md_unprocessed_bytes h; md_bytes_consumed := md_bytes_consumed h mod 2 ^ w;
     md_a := md_a h; md_b := md_b h; md_c := md_c h; md_d := md_d h |}.

(** The counter may have [n] added without a panic. *)
Definition fine (P : profile) (w : N) (n : N) : Prop := @overflow_checks P = false \/ n < 2 ^ w.

Lemma cadd_low P w n : fine P w (n + 1) -> 1 <= w -> @cadd P w (n mod 2 ^ w) 1 = Ok ((n + 1) mod 2 ^ w).
Proof.
  intros F Hw. unfold cadd. assert (2 ^ w <> 0) as Z by (apply N.pow_nonzero; discriminate).
  assert (1 < 2 ^ w) as L1 by (apply N.pow_gt_1; lia).
  rewrite <- (N.add_mod_idemp_l n 1) by exact Z.
  destruct (N.ltb_spec (n mod 2 ^ w + 1) (2 ^ w)) as [L|L].
  - now rewrite (N.mod_small (_ + 1)) by exact L.
  - destruct F as [-> | F]; [reflexivity|]. exfalso.
    pose proof (N.mod_le n (2 ^ w) Z). clear - F L H. lia.
Qed.

Lemma cmul_low P w n : fine P w (8 * n) -> @cmul P w (n mod 2 ^ w) 8 = Ok (8 * n mod 2 ^ w).
Proof.
  intros F. unfold cmul. assert (2 ^ w <> 0) as Z by (apply N.pow_nonzero; discriminate).
  rewrite (N.mul_comm 8 n), <- (N.mul_mod_idemp_l n 8) by exact Z.
  destruct (N.ltb_spec (n mod 2 ^ w * 8) (2 ^ w)) as [L|L].
  - now rewrite (N.mod_small (_ * 8)) by exact L.
  - destruct F as [-> | F]; [reflexivity|]. exfalso.
    pose proof (N.mod_le n (2 ^ w) Z). clear - F L H. lia.
Qed.

Lemma block_low process h w : md_process_block process (low w h) =
  let* r := md_process_block process h in Ok (low w r).
Proof.
  unfold md_process_block, low. cbn [md_unprocessed_bytes md_a md_b md_c md_d md_bytes_consumed].
  destruct (md_from_slice _) as [x|]; [|reflexivity]. cbn [bind].
  destruct (process x _ _ _ _) as [[[[a b] c] d]|]; reflexivity.
Qed.

Section Hasher.
Context (process : md_process) (step : list N -> state4 -> md_op -> state4) (ops : list md_op).
Context (Hp : process_ok process step ops).
Context (P : profile) (w : N) (Hw : 10 <= w) (Hw' : w <= 64).

Lemma consume_low h h' x : @md_consume debug process h x = Ok h' -> fine P w (md_bytes_consumed h + 1) ->
  @md_consume_w P w process (low w h) x = Ok (low w h').
Proof using Hw.
  intros E F. unfold md_consume, cadd in E. destruct (N.ltb_spec (md_bytes_consumed h + 1) (2 ^ 64)) as [L|L]; [|discriminate E].
  cbn [bind] in E. unfold md_consume_w.
  change (md_bytes_consumed (low w h)) with (md_bytes_consumed h mod 2 ^ w).
  rewrite cadd_low by (exact F || exact (N.le_trans 1 10 w ltac:(discriminate) Hw)). cbn [bind].
  change (md_unprocessed_bytes (low w h)) with (md_unprocessed_bytes h).
  change (md_a (low w h)) with (md_a h). change (md_b (low w h)) with (md_b h).
  change (md_c (low w h)) with (md_c h). change (md_d (low w h)) with (md_d h).
  cbn [md_unprocessed_bytes] in E |- *.
  match type of E with (if _ then md_process_block _ ?g else _) = _ => set (k := g) in E end.
  match goal with |- (if _ then md_process_block _ ?g else _) = _ => change g with (low w k) end.
  destruct (_ =? 64)%nat.
  - now rewrite block_low, E.
  - now injection E as <-.
Qed.

Lemma block_count h h' : md_process_block process h = Ok h' -> md_bytes_consumed h' = md_bytes_consumed h.
Proof using Type.
  unfold md_process_block. destruct (md_from_slice _) as [x|]; [|discriminate]. cbn [bind].
  destruct (process x _ _ _ _) as [[[[a b] c] d]|]; [|discriminate]. cbn [bind]. now intros [= <-].
Qed.

Lemma consume_count h h' x : @md_consume debug process h x = Ok h' -> md_bytes_consumed h' = md_bytes_consumed h + 1.
Proof using Type.
  unfold md_consume, cadd. destruct (_ <? _); [|discriminate]. cbn [bind]. cbv zeta.
  destruct (_ =? 64)%nat.
  - intros E. now rewrite (block_count _ _ E).
  - now intros [= <-].
Qed.

Lemma consume_low_list l : forall h h', forM l (fun b h => @md_consume debug process h b) h = Ok h' ->
  fine P w (md_bytes_consumed h + N.of_nat (length l)) ->
  forM l (fun b h => @md_consume_w P w process h b) (low w h) = Ok (low w h').
Proof using Hw.
  induction l as [|x l IH]; intros h h' E F; cbn [forM] in *; [now injection E as <-|].
  destruct (@md_consume debug process h x) as [h1|] eqn:E1; [|discriminate E]. cbn [bind] in E.
  rewrite (consume_low _ _ _ E1) by (destruct F as [F|F]; [now left|right; cbn [length] in F; clear - F; lia]).
  cbn [bind]. apply IH; [exact E|]. rewrite (consume_count _ _ _ E1).
  destruct F as [F|F]; [now left|right; cbn [length] in F; clear - F; lia].
Qed.

Lemma state_count cs r : md_bytes_consumed (md_state step ops cs r) = N.of_nat (length (concat cs ++ r)).
Proof using Type. unfold md_state. now destruct (fold_left _ _ _) as (((a, b), c), d). Qed.
Lemma state_rest cs r : md_unprocessed_bytes (md_state step ops cs r) = r.
Proof using Type. unfold md_state. now destruct (fold_left _ _ _) as (((a, b), c), d). Qed.

Lemma low_new : low w md_new = md_new.
Proof using Type. unfold low. rewrite N.mod_small; [reflexivity|]. change (0 < 2 ^ w). apply N.neq_0_lt_0, N.pow_nonzero. discriminate. Qed.

Lemma pad_low_length m : exists k, length (md_pad_low w m) = (k * 64)%nat.
Proof using Type.
  unfold md_pad_low. rewrite app_length. cbn [length]. rewrite app_length, repeat_length.
  unfold le_bytes. rewrite map_length, seq_length.
  exists ((length m + 72) / 64)%nat. clear. lia.
Qed.

(** The bytes fed to the hasher after the message. *)
Definition tail_bytes (m : list N) : list N :=
  0x80 :: repeat 0 ((119 - length m mod 64) mod 64)%nat ++ to_le 8 (8 * N.of_nat (length m) mod 2 ^ w).

Lemma tail_length m : (length (tail_bytes m) <= 72)%nat.
Proof using Type.
  unfold tail_bytes. cbn [length]. rewrite app_length, repeat_length, to_le_length. clear. lia.
Qed.

Lemma finish_eq m h : md_bytes_consumed h = N.of_nat (length m) mod 2 ^ w ->
  length (md_unprocessed_bytes h) = (length m mod 64)%nat -> fine P w (8 * N.of_nat (length m)) ->
  @md_finish_w P w process h =
  let* h := forM (tail_bytes m) (fun b h => @md_consume_w P w process h b) h in
  let* out := copy_range (repeat 0 16) 0 4 (to_le 4 (md_a h)) in
  let* out := copy_range out 4 8 (to_le 4 (md_b h)) in
  let* out := copy_range out 8 12 (to_le 4 (md_c h)) in
  copy_range out 12 16 (to_le 4 (md_d h)).
Proof using Type.
  intros Ec Eu F. unfold md_finish_w. rewrite Ec, Eu, cmul_low by exact F. cbn [bind].
  remember ((119 - length m mod 64) mod 64)%nat as z eqn:Ez.
  assert (length m mod 64 < 64)%nat as Lm by (apply Nat.mod_upper_bound; discriminate).
  assert (Ek : (if (length m mod 64 =? 56)%nat then Ok 64%nat
    else let* k := @nsub P (64 + 56) (length m mod 64) in Ok (k mod 64)%nat) = Ok (z + 1)%nat).
  { destruct (Nat.eqb_spec (length m mod 64) 56) as [L|L].
    - f_equal. rewrite Ez, L. reflexivity.
    - unfold nsub. replace (length m mod 64 <=? 64 + 56)%nat with true by (clear - Lm; lia). cbn [bind]. f_equal.
      rewrite Ez. generalize dependent (length m mod 64)%nat. clear. intros. lia. }
  rewrite Ek. cbn [bind]. unfold tail_bytes. rewrite <- Ez. cbn [forM].
  rewrite (bind_assoc (md_consume_w w process h 128)). destruct (md_consume_w w process h 128) as [h0|]; [|reflexivity]. cbn [bind].
  unfold nsub. replace (1 <=? z + 1)%nat with true by (clear; lia). cbn [bind].
  replace (z + 1 - 1)%nat with z by (clear; lia).
  rewrite forM_app, bind_assoc, <- (zeros_loop (fun b h => md_consume_w w process h b)). reflexivity.
Qed.

Lemma hash_low m : N.of_nat (length m) < 2 ^ 61 -> fine P w (8 * N.of_nat (length m)) ->
  @md_hash_w P w process m = Ok (md_digest_low w step ops m).
Proof using Hp Hw Hw'.
  intros Hm F.
  assert (fine P w (N.of_nat (length m) + 72)) as F2.
  { destruct F as [F|F]; [now left|]. right.
    assert (2 ^ 10 <= 2 ^ w) as Lw by (apply N.pow_le_mono_r; [discriminate|exact Hw]).
    change (2 ^ 10) with 1024 in Lw. clear - F Lw. lia. }
  unfold md_hash_w. rewrite <- low_new, (md_new_eq step ops).
  destruct (consume_list process step ops Hp m [] []) as (cs & r & E & C & Hcs & Lr).
  { constructor. } { apply Nat.lt_0_succ. }
  { cbn [concat app]. apply (N.lt_trans _ _ _ Hm). reflexivity. }
  cbn [concat app] in C.
  rewrite (consume_low_list _ _ _ E)
    by (rewrite state_count; destruct F2 as [F2|F2]; [now left|right; change (length (concat [] ++ [])) with 0%nat; clear - F2; lia]).
  cbn [bind].
  assert (Lm : (length m mod 64)%nat = length r).
  { rewrite <- C, app_length, (concat_length_const 64 cs Hcs), Nat.add_comm, Nat.mod_add by discriminate.
    now apply Nat.mod_small. }
  rewrite (finish_eq m); [| |exact (eq_trans (f_equal (@length N) (state_rest cs r)) (eq_sym Lm))|exact F].
  2: { change (md_bytes_consumed (low w ?h)) with (md_bytes_consumed h mod 2 ^ w).
       cbn [low md_bytes_consumed]. now rewrite state_count, C. }
  destruct (consume_list process step ops Hp (tail_bytes m) cs r Hcs Lr) as (cs2 & r2 & E2 & C2 & B2 & L2).
  { rewrite (app_assoc (concat cs)), C, app_length. pose proof (tail_length m) as T.
    change (2 ^ 64) with 18446744073709551616. change (2 ^ 61) with 2305843009213693952 in Hm. clear - Hm T. lia. }
  rewrite (consume_low_list _ _ _ E2).
  2: { rewrite state_count, C. destruct F2 as [F2|F2]; [now left|right].
       pose proof (tail_length m) as T. clear - F2 T. lia. }
  cbn [bind].
  assert (Ep : concat cs2 ++ r2 = md_pad_low w m).
  { rewrite C2, app_assoc, C. unfold tail_bytes, md_pad_low. now rewrite to_le_le_bytes. }
  assert (r2 = []).
  { destruct (pad_low_length m) as [k Hk]. rewrite <- Ep, app_length, (concat_length_const 64 cs2 B2) in Hk.
    apply length_zero_iff_nil. clear - Hk L2. lia. }
  subst r2. rewrite app_nil_r in Ep.
  assert (Eg : groups 64 (md_pad_low w m) = cs2) by (apply groups_unique; auto).
  unfold md_digest_low. rewrite Eg. unfold md_state, low.
  destruct (fold_left (md_compress step ops) cs2 md_init) as (((a, b), c), d).
  cbn [md_a md_b md_c md_d md_output]. rewrite !to_le_le_bytes. reflexivity.
Qed.
End Hasher.

Lemma hash_long process step ops w m : process_ok process step ops -> 10 <= w -> w <= 64 ->
  2 ^ w <= 8 * N.of_nat (length m) -> @md_hash_w debug w process m = Panic POverflow.
Proof.
  intros Hp Hw Hw' Hm. unfold md_hash_w. rewrite <- (low_new w), (md_new_eq step ops).
  assert (2 ^ w <= 2 ^ 64) as L64 by (apply N.pow_le_mono_r; [discriminate|exact Hw']).
  assert (1 < 2 ^ w) as L1 by (apply N.pow_gt_1; [reflexivity|clear - Hw; lia]).
  destruct (N.lt_ge_cases (N.of_nat (length m)) (2 ^ w)) as [H|H].
  - destruct (consume_list process step ops Hp m [] []) as (cs & r & E & C & Hcs & Lr).
    { constructor. } { apply Nat.lt_0_succ. } { cbn [concat app]. clear - H L64. lia. }
    cbn [concat app] in C.
    rewrite (consume_low_list process debug w Hw _ _ _ E)
      by (right; rewrite state_count; change (length (concat [] ++ [])) with 0%nat; exact H).
    cbn [bind]. unfold md_finish_w, low. cbn [md_bytes_consumed]. rewrite state_count, C.
    rewrite N.mod_small by exact H. rewrite cmul_panic; [reflexivity|]. now rewrite N.mul_comm.
  - remember (N.to_nat (2 ^ w - 1)) as k eqn:Ek.
    rewrite <- (firstn_skipn k m).
    assert (k < length m)%nat as Lk by (clear - H L1 Ek; lia).
    destruct (skipn k m) as [|x l] eqn:Es.
    { exfalso. apply (f_equal (@length N)) in Es. rewrite skipn_length in Es. cbn [length] in Es. clear - Es Lk. lia. }
    destruct (consume_list process step ops Hp (firstn k m) [] []) as (cs & r & E & C & Hcs & Lr).
    { constructor. } { apply Nat.lt_0_succ. }
    { cbn [concat app]. rewrite firstn_length_le by (clear - Lk; lia). clear - Ek L64 L1. lia. }
    cbn [concat app] in C.
    rewrite forM_app, (consume_low_list process debug w Hw _ _ _ E)
      by (right; rewrite state_count, firstn_length_le by (clear - Lk; lia);
          change (length (concat [] ++ [])) with 0%nat; clear - Ek L1; lia).
    cbn [bind forM]. unfold md_consume_w at 1. unfold low. cbn [md_bytes_consumed].
    rewrite state_count, C, firstn_length_le by (clear - Lk; lia).
    rewrite N.mod_small by (clear - Ek L1; lia).
    rewrite cadd_panic by (clear - Ek L1; lia). reflexivity.
Qed.

(** With 64 bits, the padding is that of the standards; with less, it is another one for long messages. *)
Lemma pad_low_64 m : md_pad_low 64 m = md_pad m.
Proof. reflexivity. Qed.

Lemma pad_low_small w m : w <= 64 -> 8 * N.of_nat (length m) < 2 ^ w -> md_pad_low w m = md_pad m.
Proof.
  intros Hw H. unfold md_pad_low, md_pad. cbv zeta.
  assert (2 ^ w <= 2 ^ 64) as L64 by (apply N.pow_le_mono_r; [discriminate|exact Hw]).
  rewrite !N.mod_small; [reflexivity| |exact H]. clear - H L64. lia.
Qed.

Lemma md5_release_ok : process_ok (@md5_process release) md5_step md5_ops.
Proof.
  intros x a b c d Lx Hs. apply (agr_ok (@md5_process debug x a b c d)); [unfold md5_process; agr|].
  now apply md5_process_ok.
Qed.

(** ** ASN.1 *)

Lemma mod_mod_pow a w : w <= 64 -> (a mod 2 ^ 64) mod 2 ^ w = a mod 2 ^ w.
Proof.
  intros H. replace 64 with (w + (64 - w)) by (clear - H; lia). rewrite N.pow_add_r.
  assert (forall k, 2 ^ k <> 0) as Z by (intros k; apply N.pow_nonzero; discriminate).
  rewrite N.mod_mul_r by apply Z. rewrite N.mul_comm, N.mod_add by apply Z. apply N.mod_mod, Z.
Qed.

Section Asn1.
Context (w : N) (Hw : 10 <= w) (Hw' : w <= 64).

Lemma header_w bs : bytes bs -> @asn1_header_w debug w bs =
  match @asn1_header debug bs with Ok (ROk (t, r, n)) => Ok (ROk (t, r, n mod 2 ^ w)) | x => x end.
Proof using Hw Hw'.
  intros B. unfold asn1_header_w, asn1_header. destruct (length bs <=? 1)%nat; [reflexivity|].
  destruct bs as [|t [|b r]]; [reflexivity..|].
  change (idx (t :: b :: r) 0) with (Ok t). change (idx (t :: b :: r) 1) with (Ok b). cbn [bind].
  destruct (negb _).
  - cbv zeta. destruct (nsub 16 _) as [k|]; [|reflexivity]. cbn [bind].
    destruct (slice _ 2 _) as [s|]; [|reflexivity]. cbn [bind].
    destruct (copy_range _ k 16 s) as [l|]; [|reflexivity]. cbn [bind].
    destruct (slice_from _ _) as [q|]; [|reflexivity]. cbn [bind]. now rewrite mod_mod_pow by exact Hw'.
  - destruct (slice_from _ _) as [q|]; [|reflexivity]. cbn [bind].
    rewrite N.mod_small; [reflexivity|]. apply (N.lt_le_trans _ (2 ^ 8)).
    + inversion B as [|? ? _ B2]; subst. now inversion B2.
    + apply N.pow_le_mono_r; [discriminate|]. apply (N.le_trans _ 10); [discriminate|exact Hw].
Qed.

Lemma header_rest bs t r n : bytes bs -> asn1_header bs = Ok (ROk (t, r, n)) -> bytes r /\ (length r <= length bs)%nat.
Proof using Type.
  intros B E. pose proof (header_ok bs B) as V. rewrite E in V. inversion V as [|? ? ? ? Eb| |]; subst.
  apply Forall_inv_tail in B. apply bytes_app in B. split; [apply B|]. cbn [length]. rewrite app_length. clear. lia.
Qed.

Definition same {A} (r64 rw : res (result A asn1_error)) : Prop :=
  (forall e, r64 = Ok (RErr e) -> length_beyond w e = false) -> rw = r64.

Lemma parse_suffix fuel bs a r : bytes bs -> parse_from_bytes fuel bs = Ok (ROk (a, r)) ->
  bytes r /\ (length r <= length bs)%nat.
Proof using Type.
  intros B E. destruct (parse_sound fuel bs a r B E) as (e & -> & _). apply bytes_app in B.
  split; [apply B|]. rewrite app_length. clear. lia.
Qed.

Lemma elements_same fuel :
  (forall bs, bytes bs -> N.of_nat (length bs) < 2 ^ w -> same (parse_from_bytes fuel bs) (parse_from_bytes_w w fuel bs)) ->
  forall fe l acc, bytes l -> N.of_nat (length l) < 2 ^ w ->
  same (asn1_elements (parse_from_bytes fuel) fe l acc) (asn1_elements (parse_from_bytes_w w fuel) fe l acc).
Proof using Type.
  intros IH. induction fe as [|fe IHf]; intros [|x l] acc B L; intros H; try reflexivity.
  cbn [asn1_elements] in H |- *.
  assert (parse_from_bytes_w w fuel (x :: l) = parse_from_bytes fuel (x :: l)) as E.
  { apply IH; [exact B|exact L|]. intros e E. rewrite E in H. cbn [bind] in H. exact (H _ eq_refl). }
  rewrite E. destruct (parse_from_bytes fuel (x :: l)) as [[[a r]|e]|p] eqn:Ep; try reflexivity. cbn [bind] in H |- *.
  destruct (parse_suffix _ _ _ _ B Ep) as [Br Lr]. apply IHf; [exact Br| |exact H]. clear - L Lr. lia.
Qed.

Lemma parse_same fuel : forall bs, bytes bs -> N.of_nat (length bs) < 2 ^ w ->
  same (parse_from_bytes fuel bs) (parse_from_bytes_w w fuel bs).
Proof using Hw Hw'.
  induction fuel as [|fuel IH]; intros bs B L H; [reflexivity|].
  rewrite parse_S in H |- *. cbn [parse_from_bytes_w]. rewrite header_w by exact B.
  destruct (asn1_header bs) as [[[[t r] n]|e]|p] eqn:Eh; [|reflexivity..]. cbn [bind] in H |- *.
  destruct (header_rest _ _ _ _ B Eh) as [Br Lr].
  assert (n mod 2 ^ w = n) as En.
  { apply N.mod_small. destruct (N.ltb_spec (N.of_nat (length r)) n) as [C|C]; [|clear - C L Lr; lia].
    specialize (H _ eq_refl). cbn [length_beyond] in H. clear - H. lia. }
  rewrite En. destruct (N.ltb_spec (N.of_nat (length r)) n) as [C|C]; [reflexivity|]. cbv zeta in H |- *.
  destruct (t =? 2); [reflexivity|]. destruct (t =? 4); [reflexivity|]. destruct (t =? 3); [reflexivity|].
  destruct (t =? 5); [reflexivity|]. destruct (t =? 6); [reflexivity|]. destruct (t =? 48); [|reflexivity].
  unfold slice_to in H |- *. destruct (ix n <=? length r)%nat; [|reflexivity]. cbn [bind] in H |- *.
  rewrite (elements_same fuel IH (ix n) (firstn (ix n) r) []); [reflexivity|now apply Forall_firstn| |].
  - rewrite firstn_length. clear - L Lr. lia.
  - intros e Ee. rewrite Ee in H. cbn [bind] in H. exact (H _ eq_refl).
Qed.

Lemma try_from_same bs : bytes bs -> N.of_nat (length bs) < 2 ^ w ->
  (forall e, asn1_try_from bs = Ok (RErr e) -> length_beyond w e = false) ->
  asn1_try_from_w w bs = asn1_try_from bs.
Proof using Hw Hw'.
  intros B L H. unfold asn1_try_from_w, asn1_try_from in *.
  rewrite (parse_same (S (length bs)) bs B L); [reflexivity|].
  intros e E. rewrite E in H. cbn [bind] in H. exact (H _ eq_refl).
Qed.

(** A length that is too large by a multiple of [2^w] is not noticed. *)
Lemma wrapped_length t ds c k : byte t -> bytes ds -> (length ds <= 16)%nat -> bytes c ->
  be_num ds = N.of_nat (length c) + k * 2 ^ w -> N.of_nat (length c) < 2 ^ w ->
  @asn1_header_w debug w (t :: (128 + size ds :: ds) ++ c) = Ok (ROk (t, c, N.of_nat (length c))).
Proof using Hw Hw'.
  intros Ht B L Bc E Lc. rewrite header_w.
  - rewrite length_truncated by assumption. rewrite mod_mod_pow by exact Hw'. rewrite E.
    rewrite N.mod_add by (apply N.pow_nonzero; discriminate). now rewrite N.mod_small by exact Lc.
  - apply Forall_cons; [exact Ht|]. apply bytes_app. split; [|exact Bc]. apply Forall_cons; [|exact B].
    unfold size, byte. clear - L. lia.
Qed.

Lemma wrapped_octets ds c k : bytes ds -> (length ds <= 16)%nat -> bytes c ->
  be_num ds = N.of_nat (length c) + k * 2 ^ w -> N.of_nat (length c) < 2 ^ w ->
  @asn1_try_from_w debug w (4 :: (128 + size ds :: ds) ++ c) = Ok (ROk (OctetString c)).
Proof using Hw Hw'.
  intros B L Bc E Lc. unfold asn1_try_from_w. cbn [parse_from_bytes_w].
  rewrite (wrapped_length 4 ds c k) by (assumption || reflexivity). cbn [bind].
  rewrite N.ltb_irrefl. cbv zeta. change (4 =? 2) with false. change (4 =? 4) with true. cbn [andb].
  unfold ix. rewrite Nat2N.id. rewrite slice_to_ok by auto. cbn [bind]. rewrite firstn_all.
  rewrite slice_from_ok by auto. cbn [bind]. now rewrite skipn_all.
Qed.
End Asn1.

(** ** Both builds *)

Lemma digest_low_small w step ops m : w <= 64 -> 8 * N.of_nat (length m) < 2 ^ w ->
  md_digest_low w step ops m = md_spec step ops m.
Proof. intros Hw H. unfold md_digest_low, md_spec. now rewrite pad_low_small. Qed.

Lemma md4_short w m : 10 <= w <= 64 -> N.of_nat (length m) < 2 ^ 61 -> 8 * N.of_nat (length m) < 2 ^ w ->
  @md_hash_w debug w md4_process m = Ok (md4_spec m) /\ @md_hash_w release w md4_process m = Ok (md4_spec m).
Proof.
  intros [H1 H2] L S. unfold md4_spec. rewrite <- (digest_low_small w) by assumption.
  split; apply hash_low; try assumption; try exact md4_process_ok; now right.
Qed.

Lemma md5_short w m : 10 <= w <= 64 -> N.of_nat (length m) < 2 ^ 61 -> 8 * N.of_nat (length m) < 2 ^ w ->
  @md_hash_w debug w (@md5_process debug) m = Ok (md5_spec m) /\
  @md_hash_w release w (@md5_process release) m = Ok (md5_spec m).
Proof.
  intros [H1 H2] L S. unfold md5_spec. rewrite <- (digest_low_small w) by assumption.
  split; apply hash_low; try assumption; [exact md5_process_ok|now right|exact md5_release_ok|now right].
Qed.

Lemma long_debug w m : 10 <= w <= 64 -> 2 ^ w <= 8 * N.of_nat (length m) ->
  @md_hash_w debug w md4_process m = Panic POverflow /\ @md_hash_w debug w (@md5_process debug) m = Panic POverflow.
Proof.
  intros [H1 H2] L. split.
  - exact (hash_long _ _ _ w m md4_process_ok H1 H2 L).
  - exact (hash_long _ _ _ w m md5_process_ok H1 H2 L).
Qed.

Lemma long_release w m : 10 <= w <= 64 -> N.of_nat (length m) < 2 ^ 61 ->
  @md_hash_w release w md4_process m = Ok (md_digest_low w md4_step md4_ops m) /\
  @md_hash_w release w (@md5_process release) m = Ok (md_digest_low w md5_step md5_ops m).
Proof.
  intros [H1 H2] L. split; apply hash_low; try assumption; [exact md4_process_ok|now left|exact md5_release_ok|now left].
Qed.

Lemma le_bytes_inj8 x y : x < 2 ^ 64 -> y < 2 ^ 64 -> le_bytes 8 x = le_bytes 8 y -> x = y.
Proof.
  intros Hx Hy E. rewrite <- !to_le_le_bytes in E. apply (f_equal from_le) in E.
  rewrite !from_le_to_le in E. now rewrite !N.mod_small in E by assumption.
Qed.

Lemma other_padding w m : 10 <= w <= 64 -> N.of_nat (length m) < 2 ^ 61 ->
  (md_pad_low w m = md_pad m <-> 8 * N.of_nat (length m) < 2 ^ w).
Proof.
  intros [H1 H2] L. split; [|now apply pad_low_small].
  intros E. unfold md_pad_low, md_pad in E. cbv zeta in E.
  apply app_inv_head in E. apply (f_equal (@tl N)) in E. cbn [tl] in E. apply app_inv_head in E.
  assert (2 ^ w <= 2 ^ 64) as L64 by (apply N.pow_le_mono_r; [discriminate|exact H2]).
  assert (2 ^ w <> 0) as Z by (apply N.pow_nonzero; discriminate).
  pose proof (N.mod_lt (8 * N.of_nat (length m)) (2 ^ w) Z) as Lt.
  assert (8 * N.of_nat (length m) < 2 ^ 64) as Ls by (change (2 ^ 64) with (8 * 2 ^ 61); clear - L; lia).
  apply le_bytes_inj8 in E; [|clear - Lt L64; lia|apply N.mod_lt; discriminate].
  rewrite (N.mod_small _ (2 ^ 64)) in E by exact Ls. rewrite <- E. exact Lt.
Qed.

Lemma asn1_same w bs : 10 <= w <= 64 -> bytes bs -> N.of_nat (length bs) < 2 ^ w ->
  (forall e, asn1_try_from bs = Ok (RErr e) -> length_beyond w e = false) ->
  asn1_try_from_w w bs = asn1_try_from bs.
Proof. intros [H1 H2]. now apply try_from_same. Qed.

Lemma asn1_more w ds c k : 10 <= w <= 64 -> bytes ds -> (length ds <= 16)%nat -> bytes c ->
  be_num ds = N.of_nat (length c) + k * 2 ^ w -> N.of_nat (length c) < 2 ^ w ->
  asn1_try_from_w w (4 :: (128 + size ds :: ds) ++ c) = Ok (ROk (OctetString c)).
Proof. intros [H1 H2]. now apply wrapped_octets. Qed.
