(** * Proofs: what the table lookups of AES disclose *)
From Verif Require Import Base BaseLemmas ModelAes ModelLookup SpecAes SpecLookup ProofAes ProofAesKey ProofKeys ProofCost.
From Coq Require Import ZifyBool ZifyNat ZifyN.
Local Open Scope N_scope.

(** ** Erasure *)
Lemma substitute_erase {P : profile} table state t :
  mapM (fun b => idx table (ix b)) state = let* (r, _) := substitute_traced table state t in Ok r.
Proof.
  unfold substitute_traced. induction state as [|b state IH]; [reflexivity|]. cbn [mapM].
  destruct (idx table (ix b)) as [v|e]; cbn [bind]; [|reflexivity]. rewrite IH.
  destruct (mapM (fun b => let* v := idx table (ix b) in Ok (v, b)) state) as [l|e]; reflexivity.
Qed.

Lemma encrypt_erase {P : profile} c b : aes_encrypt c b = let* (r, _) := aes_encrypt_traced c b in Ok r.
Proof.
  unfold aes_encrypt, aes_encrypt_traced. destruct (idx (aes_keys c) 0) as [k0|e]; cbn [bind]; [|reflexivity].
  destruct (add_key k0 b) as [s|e]; cbn [bind]; [|reflexivity].
  match goal with |- context [forM _ ?g (s, [])] =>
    pose proof (forM_project (range 1 (aes_rounds c)) (fun k state =>
      let* state := substitute_forward state in
      let* state := shift_rows_forward state in
      let* state := mix_columns_forward state in
      let* kk := idx (aes_keys c) k in
      add_key kk state) g fst (s, [])) as G end.
  cbn [fst] in G. rewrite G; clear G.
  - destruct (forM _ _ _) as [[s1 t1]|e]; cbn [bind fst]; [|reflexivity].
    unfold substitute_forward. rewrite (substitute_erase _ _ t1).
    destruct (substitute_traced (forward SBOX) s1 t1) as [[s2 t2]|e]; cbn [bind]; [|reflexivity].
    destruct (shift_rows_forward s2) as [s3|e]; cbn [bind]; [|reflexivity].
    destruct (idx (aes_keys c) (aes_rounds c)) as [kr|e]; cbn [bind]; [|reflexivity].
    destruct (add_key kr s3) as [s4|e]; reflexivity.
  - intros i [s1 t1] _. cbn [fst]. unfold substitute_forward. rewrite (substitute_erase _ _ t1).
    destruct (substitute_traced (forward SBOX) s1 t1) as [[s2 t2]|e]; cbn [bind]; [|reflexivity].
    destruct (shift_rows_forward s2) as [s3|e]; cbn [bind]; [|reflexivity].
    destruct (mix_columns_forward s3) as [s4|e]; cbn [bind]; [|reflexivity].
    destruct (idx (aes_keys c) i) as [kr|e]; cbn [bind]; [|reflexivity].
    destruct (add_key kr s4) as [s5|e]; reflexivity.
Qed.

Lemma decrypt_erase {P : profile} c b : aes_decrypt c b = let* (r, _) := aes_decrypt_traced c b in Ok r.
Proof.
  unfold aes_decrypt, aes_decrypt_traced. destruct (idx (aes_keys c) (aes_rounds c)) as [k0|e]; cbn [bind]; [|reflexivity].
  destruct (add_key k0 b) as [s|e]; cbn [bind]; [|reflexivity].
  destruct (shift_rows_backward s) as [s0|e]; cbn [bind]; [|reflexivity].
  unfold substitute_backward at 1. rewrite (substitute_erase _ _ []).
  destruct (substitute_traced (backward SBOX) s0 []) as [[s1 t1]|e]; cbn [bind]; [|reflexivity].
  match goal with |- context [forM _ ?g (s1, t1)] =>
    pose proof (forM_project (rev (range 1 (aes_rounds c))) (fun k state =>
      let* kk := idx (aes_keys c) k in
      let* state := add_key kk state in
      let* state := mix_columns_backward state in
      let* state := shift_rows_backward state in
      substitute_backward state) g fst (s1, t1)) as G end.
  cbn [fst] in G. rewrite G; clear G.
  - destruct (forM _ _ _) as [[s2 t2]|e]; cbn [bind fst]; [|reflexivity].
    destruct (idx (aes_keys c) 0) as [kr|e]; cbn [bind]; [|reflexivity].
    destruct (add_key kr s2) as [s4|e]; reflexivity.
  - intros i [s2 t2] _. cbn [fst].
    destruct (idx (aes_keys c) i) as [kr|e]; cbn [bind]; [|reflexivity].
    destruct (add_key kr s2) as [s3|e]; cbn [bind]; [|reflexivity].
    destruct (mix_columns_backward s3) as [s4|e]; cbn [bind]; [|reflexivity].
    destruct (shift_rows_backward s4) as [s5|e]; cbn [bind]; [|reflexivity].
    unfold substitute_backward. rewrite (substitute_erase _ _ t2).
    destruct (substitute_traced (backward SBOX) s5 t2) as [[s6 t6]|e]; reflexivity.
Qed.

(** ** The lookups are the states *)
Lemma substitute_traced_eq table state t r : mapM (fun b => idx table (ix b)) state = Ok r ->
  substitute_traced table state t = Ok (r, t ++ state).
Proof.
  intros H. unfold substitute_traced.
  assert (G : mapM (fun b => let* v := idx table (ix b) in Ok (v, b)) state = Ok (combine r state) /\ length r = length state).
  { revert r H. induction state as [|b state IH]; intros r H; cbn [mapM] in H |- *.
    - apply Ok_inj in H. subst r. split; reflexivity.
    - destruct (idx table (ix b)) as [v|e]; cbn [bind] in H |- *; [|discriminate H].
      destruct (mapM (fun b => idx table (ix b)) state) as [l|e]; cbn [bind] in H; [|discriminate H].
      apply Ok_inj in H. subst r. destruct (IH l eq_refl) as [E L]. rewrite E. cbn [bind combine length]. split; [reflexivity|congruence]. }
  destruct G as [E L]. rewrite E. cbn [bind]. f_equal. f_equal.
  - clear E H. revert state L. induction r as [|x r IH]; intros [|y s] L; try discriminate L; [reflexivity|].
    cbn [combine map fst]. f_equal. apply IH. cbn [length] in L. lia.
  - f_equal. clear E H. revert state L. induction r as [|x r IH]; intros [|y s] L; try discriminate L; [reflexivity|].
    cbn [combine map snd]. f_equal. apply IH. cbn [length] in L. lia.
Qed.

Section States.
  Context (nr : nat) (w keys : list (list N)) (b : list N).
  Context (Hnr : (1 <= nr)%nat) (Hk : keys_ok nr w keys) (Hb : wf16 b).

  Lemma enc_state_wf r : (r <= nr)%nat -> wf16 (enc_state w b r).
  Proof using Hnr Hk Hb.
    induction r as [|r IH]; intros H; cbn [enc_state].
    - apply add_round_key_wf; [exact (proj2 (proj2 (Hk 0%nat H)))|apply Hb].
    - apply add_round_key_wf; [exact (proj2 (proj2 (Hk (S r) H)))|].
      apply mix_columns_wf, shift_rows_wf, sub_bytes_wf, IH. lia.
  Qed.

  Lemma concat_snoc r (f : nat -> list N) : concat (map f (seq 0 r)) ++ f r = concat (map f (seq 0 (S r))).
  Proof using Type. rewrite seq_S, map_app, concat_app. cbn [map concat Nat.add]. now rewrite app_nil_r. Qed.

  Lemma encrypt_traced_eq : exists out, aes_encrypt_traced {| aes_keys := keys; aes_rounds := nr |} b =
    Ok (out, concat (map (enc_state w b) (seq 0 nr))).
  Proof using Hnr Hk Hb.
    unfold aes_encrypt_traced. cbn [aes_keys aes_rounds]. destruct (Hk 0%nat ltac:(lia)) as [E0 W0]. rewrite E0. cbn [bind].
    rewrite add_key_eq by (apply W0 || apply Hb). cbn [bind].
    match goal with |- context [forM _ ?g _] => set (f := g) end.
    assert (L : forall m r, (r + m < nr)%nat ->
      forM (seq (S r) m) f (enc_state w b r, concat (map (enc_state w b) (seq 0 r))) =
      Ok (enc_state w b (r + m), concat (map (enc_state w b) (seq 0 (r + m))))).
    { induction m as [|m IH]; intros r Hr; cbn [seq forM]; [now rewrite Nat.add_0_r|].
      pose proof (enc_state_wf r ltac:(lia)) as Ws. unfold f at 1.
      rewrite (substitute_traced_eq _ _ _ _ (substitute_forward_eq _ (proj2 Ws))). cbn [bind].
      rewrite shift_rows_forward_eq by now apply sub_bytes_wf. cbn [bind].
      rewrite mix_columns_forward_eq by now apply shift_rows_wf, sub_bytes_wf. cbn [bind].
      destruct (Hk (S r) ltac:(lia)) as [E W]. rewrite E. cbn [bind].
      rewrite add_key_eq by (apply W || now apply mix_columns_wf, shift_rows_wf, sub_bytes_wf). cbn [bind].
      rewrite concat_snoc. replace (r + S m)%nat with (S r + m)%nat by lia. apply IH. lia. }
    change (add_round_key (round_key w 0) b) with (enc_state w b 0). unfold range.
    specialize (L (nr - 1)%nat 0%nat ltac:(lia)). change (concat (map (enc_state w b) (seq 0 0))) with (@nil N) in L.
    rewrite L. cbn [bind]. cbn [Nat.add].
    pose proof (enc_state_wf (nr - 1) ltac:(lia)) as Ws.
    rewrite (substitute_traced_eq _ _ _ _ (substitute_forward_eq _ (proj2 Ws))). cbn [bind].
    rewrite shift_rows_forward_eq by now apply sub_bytes_wf. cbn [bind].
    destruct (Hk nr ltac:(lia)) as [E W]. rewrite E. cbn [bind].
    rewrite add_key_eq by (apply W || now apply shift_rows_wf, sub_bytes_wf). cbn [bind].
    rewrite concat_snoc. replace (S (nr - 1)) with nr by lia. eexists. reflexivity.
  Qed.

  Lemma dec_state_wf r : (r <= nr)%nat -> wf16 (dec_state nr w b r).
  Proof using Hnr Hk Hb.
    induction r as [|r IH]; intros H; cbn [dec_state].
    - apply inv_shift_rows_wf, add_round_key_wf; [exact (proj2 (proj2 (Hk nr (le_n _))))|apply Hb].
    - apply inv_shift_rows_wf, inv_mix_columns_wf, add_round_key_wf; [exact (proj2 (proj2 (Hk (nr - S r)%nat ltac:(lia))))|].
      apply inv_sub_bytes_wf, IH. lia.
  Qed.

  Lemma rev_range m : (m <= nr)%nat -> rev (seq (nr - m) m) = map (fun j => (nr - j)%nat) (seq 1 m).
  Proof using Hnr.
    induction m as [|m IH]; intros H; [reflexivity|].
    rewrite (seq_S m 1), map_app. rewrite <- IH by lia. cbn [map Nat.add].
    replace (seq (nr - S m) (S m)) with ((nr - S m)%nat :: seq (nr - m) m); [reflexivity|].
    cbn [seq]. f_equal. f_equal. lia.
  Qed.

  Lemma decrypt_traced_eq : exists out, aes_decrypt_traced {| aes_keys := keys; aes_rounds := nr |} b =
    Ok (out, concat (map (dec_state nr w b) (seq 0 nr))).
  Proof using Hnr Hk Hb.
    unfold aes_decrypt_traced. cbn [aes_keys aes_rounds]. destruct (Hk nr ltac:(lia)) as [E0 W0]. rewrite E0. cbn [bind].
    rewrite add_key_eq by (apply W0 || apply Hb). cbn [bind].
    rewrite shift_rows_backward_eq by (apply add_round_key_wf; [apply W0|apply Hb]). cbn [bind].
    pose proof (dec_state_wf 0 ltac:(lia)) as Ws0. cbn [dec_state] in Ws0.
    rewrite (substitute_traced_eq _ _ _ _ (substitute_backward_eq _ (proj2 Ws0))). cbn [bind].
    match goal with |- context [forM _ ?g _] => set (f := g) end.
    assert (L : forall m r, (r + m < nr)%nat ->
      forM (map (fun j => (nr - j)%nat) (seq (S r) m)) f (inv_sub_bytes (dec_state nr w b r), concat (map (dec_state nr w b) (seq 0 (S r)))) =
      Ok (inv_sub_bytes (dec_state nr w b (r + m)), concat (map (dec_state nr w b) (seq 0 (S (r + m)))))).
    { induction m as [|m IH]; intros r Hr; cbn [seq map forM]; [now rewrite Nat.add_0_r|].
      pose proof (dec_state_wf r ltac:(lia)) as Ws. pose proof (dec_state_wf (S r) ltac:(lia)) as Ws'. unfold f at 1.
      destruct (Hk (nr - S r)%nat ltac:(lia)) as [E W]. rewrite E. cbn [bind].
      rewrite add_key_eq by (apply W || now apply inv_sub_bytes_wf). cbn [bind].
      assert (Wa : wf16 (add_round_key (round_key w (nr - S r)) (inv_sub_bytes (dec_state nr w b r)))).
      { apply add_round_key_wf; [apply W|now apply inv_sub_bytes_wf]. }
      rewrite mix_columns_backward_eq by exact Wa. cbn [bind].
      rewrite shift_rows_backward_eq by now apply inv_mix_columns_wf. cbn [bind].
      change (inv_shift_rows (inv_mix_columns (add_round_key (round_key w (nr - S r)) (inv_sub_bytes (dec_state nr w b r)))))
        with (dec_state nr w b (S r)).
      rewrite (substitute_traced_eq _ _ _ _ (substitute_backward_eq _ (proj2 Ws'))). cbn [bind].
      change (dec_state nr w b 0 :: map (dec_state nr w b) (seq 1 r)) with (map (dec_state nr w b) (seq 0 (S r))).
      rewrite concat_snoc. replace (r + S m)%nat with (S r + m)%nat by lia. apply IH. lia. }
    unfold range. replace (rev (seq 1 (nr - 1))) with (map (fun j => (nr - j)%nat) (seq 1 (nr - 1))).
    2:{ rewrite <- rev_range by lia. f_equal. f_equal. lia. }
    specialize (L (nr - 1)%nat 0%nat ltac:(lia)). cbn [seq map concat dec_state Nat.add] in L. rewrite app_nil_r in L.
    cbn [app]. rewrite L. cbn [bind].
    destruct (Hk 0%nat ltac:(lia)) as [E W]. rewrite E. cbn [bind].
    pose proof (dec_state_wf (nr - 1) ltac:(lia)) as Wl.
    rewrite add_key_eq by (apply W || now apply inv_sub_bytes_wf). cbn [bind].
    eexists. f_equal. f_equal. replace (seq 0 nr) with (seq 0 (S (nr - 1))) by (f_equal; lia). reflexivity.
  Qed.
End States.

(** ** The key from the lookups *)
Lemma add_round_key_solve k s : length k = 16%nat -> add_round_key s (add_round_key k s) = k.
Proof.
  intros L. apply (list_ext 0); [unfold add_round_key; now rewrite map_length, seq_length|].
  intros i Hi. unfold add_round_key at 1 in Hi. rewrite map_length, seq_length in Hi.
  assert (G : forall a b, nth i (add_round_key a b) 0 = N.lxor (nth i b 0) (nth i a 0)).
  { intros a b. unfold add_round_key. set (g := fun i => N.lxor (nth i b 0) (nth i a 0)).
    rewrite (nth_indep _ 0 (g 0%nat)) by (rewrite map_length, seq_length; exact Hi). now rewrite map_nth, seq_nth by exact Hi. }
  rewrite !G. rewrite N.lxor_comm, <- N.lxor_assoc, N.lxor_nilpotent, N.lxor_0_l. reflexivity.
Qed.

Lemma concat_firstn4 m (w : list (list N)) : Forall wf4 w -> (m <= length w)%nat ->
  firstn (4 * m) (concat w) = concat (firstn m w).
Proof.
  intros F. revert m. induction F as [|x w [L _] F IH]; intros [|m] H; cbn [length] in H; try lia; try reflexivity.
  cbn [firstn concat]. rewrite <- IH by lia. replace (4 * S m)%nat with (length x + 4 * m)%nat by lia.
  now rewrite firstn_app_2.
Qed.

Lemma key_words_front nk key n : (1 <= nk)%nat -> length key = (4 * nk)%nat -> (nk <= n)%nat -> concat (firstn nk (key_words nk key n)) = key.
Proof.
  intros Hnk L Hn.
  assert (G : forall m, (m <= nk)%nat -> concat (firstn m (key_words nk key n)) = firstn (4 * m) key).
  { induction m as [|m IH]; intros Hm; [reflexivity|].
    rewrite (firstn_S_nth _ m []) by (rewrite key_words_length; lia). rewrite concat_app, IH by lia. cbn [concat].
    rewrite app_nil_r, (key_words_nth nk key (S m) n) by lia. rewrite key_words_last.
    rewrite (proj2 (Nat.ltb_lt _ _)) by lia.
    rewrite <- (firstn_skipn (4 * m) (firstn (4 * S m) key)). rewrite firstn_firstn, Nat.min_l by lia. f_equal.
    rewrite skipn_firstn_comm. f_equal. lia. }
  rewrite G by lia. apply firstn_all2. lia.
Qed.

Lemma round_keys_front nk key n : nk = 4%nat \/ nk = 6%nat \/ nk = 8%nat -> length key = (4 * nk)%nat -> bytes key -> (8 <= n)%nat ->
  firstn (4 * nk) (round_key (key_words nk key n) 0 ++ round_key (key_words nk key n) 1) = key.
Proof.
  intros Hnk L B Hn. pose proof (key_words_wf nk key n ltac:(lia) L B) as W.
  replace (round_key (key_words nk key n) 0 ++ round_key (key_words nk key n) 1) with (concat (firstn 8 (key_words nk key n))).
  - rewrite concat_firstn4.
    + rewrite firstn_firstn, Nat.min_l by lia. apply key_words_front; lia.
    + now apply Forall_firstn.
    + rewrite firstn_length, key_words_length. lia.
  - unfold round_key. rewrite <- concat_app. f_equal. change (4 * 0)%nat with 0%nat. change (4 * 1)%nat with 4%nat. rewrite skipn_O.
    rewrite <- (firstn_skipn 4 (firstn 8 (key_words nk key n))). rewrite firstn_firstn. change (Nat.min 4 8) with 4%nat. f_equal.
    rewrite skipn_firstn_comm. reflexivity.
Qed.

Lemma pieces16 (f : nat -> list N) nr : (forall r, (r < nr)%nat -> length (f r) = 16%nat) -> forall r, (r < nr)%nat ->
  firstn 16 (skipn (16 * r) (concat (map f (seq 0 nr)))) = f r.
Proof.
  intros H r Hr. replace nr with (r + S (nr - S r))%nat by lia. rewrite seq_app, map_app, concat_app.
  assert (L : forall m, (m <= nr)%nat -> length (concat (map f (seq 0 m))) = (16 * m)%nat).
  { induction m as [|m IH]; intros Hm; [reflexivity|]. rewrite seq_S, map_app, concat_app, app_length, IH by lia.
    cbn [map concat Nat.add]. rewrite app_nil_r, H by lia. lia. }
  rewrite skipn_app_exact by (rewrite L; lia). cbn [seq map concat Nat.add].
  apply firstn_app_exact. rewrite H by lia. reflexivity.
Qed.

Lemma encrypt_lookups nk key c block : nk = 4%nat \/ nk = 6%nat \/ nk = 8%nat ->
  length key = (4 * nk)%nat -> bytes key -> length block = 16%nat -> bytes block -> aes_make nk key = Ok c ->
  exists out, aes_encrypt_traced c block =
    Ok (out, concat (map (enc_state (key_words nk key (4 * (nk + 7))) block) (seq 0 (nk + 6)))).
Proof.
  intros Hnk L B Lb Bb E. destruct (aes_make_ok nk key Hnk L B) as (keys & E' & _ & K). rewrite E' in E. apply Ok_inj in E. subst c.
  apply encrypt_traced_eq; [lia|exact K|split; assumption].
Qed.

Lemma decrypt_lookups nk key c block : nk = 4%nat \/ nk = 6%nat \/ nk = 8%nat ->
  length key = (4 * nk)%nat -> bytes key -> length block = 16%nat -> bytes block -> aes_make nk key = Ok c ->
  exists out, aes_decrypt_traced c block =
    Ok (out, concat (map (dec_state (nk + 6) (key_words nk key (4 * (nk + 7))) block) (seq 0 (nk + 6)))).
Proof.
  intros Hnk L B Lb Bb E. destruct (aes_make_ok nk key Hnk L B) as (keys & E' & _ & K). rewrite E' in E. apply Ok_inj in E. subst c.
  apply decrypt_traced_eq; [lia|exact K|split; assumption].
Qed.

Lemma key_from_lookups nk key c block out t : nk = 4%nat \/ nk = 6%nat \/ nk = 8%nat ->
  length key = (4 * nk)%nat -> bytes key -> length block = 16%nat -> bytes block -> aes_make nk key = Ok c ->
  aes_encrypt_traced c block = Ok (out, t) -> key_of_lookups nk block t = key.
Proof.
  intros Hnk L B Lb Bb E T. destruct (aes_make_ok nk key Hnk L B) as (keys & E' & _ & K).
  destruct (encrypt_lookups nk key c block Hnk L B Lb Bb E) as [o F]. rewrite F in T. apply Ok_inj in T.
  assert (t = concat (map (enc_state (key_words nk key (4 * (nk + 7))) block) (seq 0 (nk + 6)))) as Ht by (symmetry; exact (f_equal snd T)).
  clear T F. set (w := key_words nk key (4 * (nk + 7))) in *.
  assert (Hl : forall r, (r < nk + 6)%nat -> length (enc_state w block r) = 16%nat).
  { intros r Hr. refine (proj1 (enc_state_wf (nk + 6) w keys block _ K (conj Lb Bb) r _)); lia. }
  pose proof (pieces16 _ _ Hl 0%nat ltac:(lia)) as P0. pose proof (pieces16 _ _ Hl 1%nat ltac:(lia)) as P1.
  rewrite <- Ht in P0, P1. change (16 * 0)%nat with 0%nat in P0. change (16 * 1)%nat with 16%nat in P1. rewrite skipn_O in P0.
  unfold key_of_lookups. rewrite P1, P0. cbn [enc_state].
  rewrite !add_round_key_solve by (apply K; lia). apply round_keys_front; auto. lia.
Qed.

(** The lookups of decryption determine the last two round keys. *)
Lemma add_round_key_inj k k' s : length k = 16%nat -> length k' = 16%nat -> add_round_key k s = add_round_key k' s -> k = k'.
Proof. intros L L' E. rewrite <- (add_round_key_solve k s L), E. now apply add_round_key_solve. Qed.

Lemma decrypt_same_lookups nk key key' c c' block out out' t : nk = 4%nat \/ nk = 6%nat \/ nk = 8%nat ->
  length key = (4 * nk)%nat -> bytes key -> length key' = (4 * nk)%nat -> bytes key' ->
  length block = 16%nat -> bytes block -> aes_make nk key = Ok c -> aes_make nk key' = Ok c' ->
  aes_decrypt_traced c block = Ok (out, t) -> aes_decrypt_traced c' block = Ok (out', t) -> key = key'.
Proof.
  intros Hnk L B L' B' Lb Bb E E' T T'.
  destruct (aes_make_ok nk key Hnk L B) as (keys & F & _ & K). destruct (aes_make_ok nk key' Hnk L' B') as (keys' & F' & _ & K').
  destruct (decrypt_lookups nk key c block Hnk L B Lb Bb E) as [o G]. rewrite G in T. apply Ok_inj in T. apply (f_equal snd) in T. cbn [snd] in T.
  destruct (decrypt_lookups nk key' c' block Hnk L' B' Lb Bb E') as [o' G']. rewrite G' in T'. apply Ok_inj in T'. apply (f_equal snd) in T'. cbn [snd] in T'.
  clear G G' E E'. set (n := (4 * (nk + 7))%nat) in *. set (w := key_words nk key n) in *. set (w' := key_words nk key' n) in *.
  assert (Hw : forall r, (r < nk + 6)%nat -> wf16 (dec_state (nk + 6) w block r)).
  { intros r Hr. refine (dec_state_wf (nk + 6) w keys block _ K (conj Lb Bb) r _); lia. }
  assert (Hw' : forall r, (r < nk + 6)%nat -> wf16 (dec_state (nk + 6) w' block r)).
  { intros r Hr. refine (dec_state_wf (nk + 6) w' keys' block _ K' (conj Lb Bb) r _); lia. }
  assert (S : forall r, (r < nk + 6)%nat -> dec_state (nk + 6) w block r = dec_state (nk + 6) w' block r).
  { intros r Hr. rewrite <- (pieces16 _ (nk + 6) (fun r H => proj1 (Hw r H)) r Hr), <- (pieces16 _ (nk + 6) (fun r H => proj1 (Hw' r H)) r Hr).
    now rewrite T, T'. }
  assert (Wk : forall r, (r <= nk + 6)%nat -> wf16 (round_key w r)) by (intros r Hr; apply (K r Hr)).
  assert (Wk' : forall r, (r <= nk + 6)%nat -> wf16 (round_key w' r)) by (intros r Hr; apply (K' r Hr)).
  assert (KN : round_key w (nk + 6) = round_key w' (nk + 6)).
  { pose proof (S 0%nat ltac:(lia)) as Z0. cbn [dec_state] in Z0.
    apply (f_equal shift_rows) in Z0. rewrite !inv_shift_inv in Z0 by (apply add_round_key_wf; [apply Wk || apply Wk'; lia|exact Bb]).
    apply (add_round_key_inj _ _ block); [apply Wk; lia|apply Wk'; lia|exact Z0]. }
  assert (KM : round_key w (nk + 5) = round_key w' (nk + 5)).
  { pose proof (S 1%nat ltac:(lia)) as Z1. cbn [dec_state] in Z1. replace (nk + 6 - 1)%nat with (nk + 5)%nat in Z1 by lia.
    pose proof (S 0%nat ltac:(lia)) as Z0. pose proof (Hw 0%nat ltac:(lia)) as W0. pose proof (Hw' 0%nat ltac:(lia)) as W0'. cbn [dec_state] in Z0, W0, W0'.
    rewrite <- Z0 in Z1. set (s := inv_shift_rows (add_round_key (round_key w (nk + 6)) block)) in *.
    assert (A : wf16 (add_round_key (round_key w (nk + 5)) (inv_sub_bytes s))).
    { apply add_round_key_wf; [apply Wk; lia|now apply inv_sub_bytes_wf]. }
    assert (A' : wf16 (add_round_key (round_key w' (nk + 5)) (inv_sub_bytes s))).
    { apply add_round_key_wf; [apply Wk'; lia|now apply inv_sub_bytes_wf]. }
    apply (f_equal shift_rows) in Z1. rewrite !inv_shift_inv in Z1 by now apply inv_mix_columns_wf.
    apply (f_equal mix_columns) in Z1. rewrite !inv_mix_inv in Z1 by assumption.
    apply (add_round_key_inj _ _ (inv_sub_bytes s)); [apply Wk; lia|apply Wk'; lia|exact Z1]. }
  apply (window_key nk n key key' ltac:(lia) L L' B B' (4 * (nk + 5))); [unfold n; lia|].
  intros i Hi. assert (Hq : (i / 4 = nk + 5 \/ i / 4 = nk + 6)%nat) by lia.
  apply (round_key_words _ _ (i / 4)); rewrite ?key_words_length; unfold n; try lia; try (apply key_words_wf; auto; lia).
  fold n. fold w. fold w'. destruct Hq as [-> | ->]; assumption.
Qed.

(** ** Only the cache line is seen *)
Lemma lines nk key c block out t k i : nk = 4%nat \/ nk = 6%nat \/ nk = 8%nat ->
  length key = (4 * nk)%nat -> bytes key -> length block = 16%nat -> bytes block -> aes_make nk key = Ok c ->
  aes_encrypt_traced c block = Ok (out, t) -> (i < 16)%nat ->
  nth i key 0 / 2 ^ k = N.lxor (nth i block 0 / 2 ^ k) (nth i t 0 / 2 ^ k).
Proof.
  intros Hnk L B Lb Bb E T Hi.
  rewrite <- (key_from_lookups nk key c block out t Hnk L B Lb Bb E T) at 1.
  unfold key_of_lookups. rewrite nth_firstn' by lia.
  rewrite app_nth1 by (unfold add_round_key; rewrite map_length, seq_length; exact Hi).
  unfold add_round_key. set (g := fun i => N.lxor (nth i (firstn 16 t) 0) (nth i block 0)).
  rewrite (nth_indep _ 0 (g 0%nat)) by (rewrite map_length, seq_length; exact Hi). rewrite map_nth, seq_nth by exact Hi.
  unfold g. cbn [Nat.add]. rewrite nth_firstn' by exact Hi.
  rewrite <- !N.shiftr_div_pow2, N.shiftr_lxor. apply N.lxor_comm.
Qed.
