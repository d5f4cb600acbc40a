From Coq Require Import ZifyBool ZifyNat ZifyN.
From Verif Require Import Base BaseLemmas ModelBlock ModelAes SpecAes SpecBlock ProofAesField ProofAes
  SpecEndian ProofEndian.
Ltac Zify.zify_post_hook ::= Z.div_mod_to_equations.

(** A well-formed word. *)
Definition wf4 (w : list N) : Prop := length w = 4%nat /\ bytes w.

Ltac des4 w H :=
  let E := fresh in destruct (list4 w H) as (?a & ?b & ?c & ?d & E); subst w.

Lemma word_xor_eq a b : length a = 4%nat -> length b = 4%nat -> word_xor a b = Ok (xor_word a b).
Proof. intros Ha Hb. des4 a Ha. des4 b Hb. reflexivity. Qed.

Lemma xor_word_assoc a b c : length a = 4%nat ->
  xor_word (xor_word a b) c = xor_word a (xor_word b c).
Proof. intros. unfold xor_word. cbn [map seq nth]. now rewrite !N.lxor_assoc. Qed.

Lemma rotate_word_eq w : length w = 4%nat -> rotate_word w = Ok (rot_word w).
Proof. intros H. des4 w H. reflexivity. Qed.

Lemma substitute_word_eq w : wf4 w -> substitute_word w = Ok (sub_word w).
Proof.
  intros [H Hb]. des4 w H. split_bytes Hb. unfold substitute_word. cbn [idx nth_error bind].
  rewrite !forward_lookup by auto. reflexivity.
Qed.

Lemma xor_word_wf a b : bytes a -> bytes b -> wf4 (xor_word a b).
Proof.
  intros Ha Hb. split; [reflexivity|]. apply Forall_forall. intros x Hx.
  apply in_map_iff in Hx as (i & <- & _). apply lxor_byte; now apply nth_lt.
Qed.

Lemma rot_word_wf w : bytes w -> wf4 (rot_word w).
Proof.
  intros Ha. split; [reflexivity|]. apply Forall_forall. intros x Hx.
  apply in_map_iff in Hx as (i & <- & _). now apply nth_lt.
Qed.

Lemma sub_word_wf w : wf4 w -> wf4 (sub_word w).
Proof.
  intros [Hl Hb]. split; [unfold sub_word; now rewrite map_length|].
  apply Forall_forall. intros x Hx. apply in_map_iff in Hx as (y & <- & Hy).
  apply sub_byte_lt. unfold bytes in Hb. rewrite Forall_forall in Hb. now apply Hb.
Qed.

Lemma xpow_lt n : xpow n < 256.
Proof. induction n; [reflexivity|]. cbn [xpow]. now apply gmul_lt. Qed.

Lemma rcon_wf i : wf4 (rcon i).
Proof. split; [reflexivity|]. repeat constructor. apply xpow_lt. Qed.

Lemma expander_rcon_eq : exists rc, expander_rcon = Ok rc /\
  forall i, (1 <= i <= 10)%nat -> idx rc i = Ok (rcon i).
Proof.
  destruct expander_rcon as [rc|] eqn:E; [|vm_compute in E; discriminate].
  exists rc. split; auto. intros i Hi.
  assert (C : match expander_rcon with
    | Ok rc => forallb (fun i => match idx rc i with
        | Ok [a; 0; 0; 0] => a =? xpow (i - 1) | _ => false end) (seq 1 10)
    | _ => false end = true) by (vm_compute; reflexivity).
  rewrite E in C. rewrite forallb_forall in C. specialize (C i). rewrite in_seq in C.
  specialize (C ltac:(lia)). unfold rcon.
  destruct (idx rc i) as [[|a [|[] [|[] [|[] []]]]]|]; try discriminate.
  apply N.eqb_eq in C. now subst.
Qed.

Lemma key_words_length nk key n : length (key_words nk key n) = n.
Proof. induction n; cbn [key_words]; auto. rewrite app_length, IHn. cbn. lia. Qed.

Lemma key_words_wf nk key n : (1 <= nk)%nat -> length key = (4 * nk)%nat -> bytes key ->
  Forall wf4 (key_words nk key n).
Proof.
  intros Hnk Hl Hb. induction n as [|i IH]; cbn [key_words]; auto.
  apply Forall_app. split; auto. constructor; auto.
  destruct (Nat.ltb_spec i nk).
  - split; [rewrite firstn_length, skipn_length; lia|].
    apply Forall_firstn. now apply Forall_skipn.
  - pose proof (key_words_length nk key i) as Hw.
    assert (W1 : wf4 (nth (i - 1) (key_words nk key i) [])) by (apply Forall_nth_lt; auto; lia).
    assert (W2 : wf4 (nth (i - nk) (key_words nk key i) [])) by (apply Forall_nth_lt; auto; lia).
    apply xor_word_wf; [apply W2|].
    destruct (i mod nk =? 0)%nat.
    + apply xor_word_wf; [|apply rcon_wf]. apply sub_word_wf, rot_word_wf, W1.
    + destruct (_ && _)%bool; [|apply W1]. apply sub_word_wf, W1.
Qed.

Lemma expand_words_eq nk rc key words m :
  (4 <= nk <= 8)%nat -> length key = (4 * nk)%nat -> bytes key ->
  (4 * m <= nk * 11)%nat ->
  (forall i, (1 <= i <= 10)%nat -> idx rc i = Ok (rcon i)) ->
  (forall i, (i < nk)%nat -> idx words i = Ok (firstn 4 (skipn (4 * i) key))) ->
  expand_key_using_words nk rc words m = Ok (key_words nk key (4 * m)).
Proof.
  intros Hnk Hl Hb Hm Hrc Hwords. unfold expand_key_using_words.
  set (f := fun (i : nat) w => _).
  destruct (forM_range_inv (fun i w => w = key_words nk key i) f 0 (4 * m) []) as (s & E & ->);
    [lia|reflexivity| |exact E].
  intros i w Hi ->. unfold f. eexists. split; [|reflexivity]. cbn [key_words].
  pose proof (key_words_length nk key i) as Hlen.
  pose proof (key_words_wf nk key i ltac:(lia) Hl Hb) as Hwf.
  destruct (Nat.ltb_spec i nk) as [Hlt|Hge].
  - rewrite Hwords by auto. reflexivity.
  - rewrite !nsub_ok by lia. cbn [bind].
    rewrite (idx_nth _ (i - nk) []), (idx_nth _ (i - 1) []) by lia. cbn [bind].
    assert (W1 : wf4 (nth (i - 1) (key_words nk key i) [])) by (apply Forall_nth_lt; auto; lia).
    assert (W2 : wf4 (nth (i - nk) (key_words nk key i) [])) by (apply Forall_nth_lt; auto; lia).
    set (w1 := nth (i - 1) _ _) in *. set (wn := nth (i - nk) _ _) in *.
    destruct (i mod nk =? 0)%nat eqn:Em.
    + rewrite rotate_word_eq by apply W1. cbn [bind].
      rewrite substitute_word_eq by apply rot_word_wf, W1. cbn [bind].
      assert (Wr : wf4 (sub_word (rot_word w1))) by apply sub_word_wf, rot_word_wf, W1.
      rewrite word_xor_eq by (apply W2 || apply Wr). cbn [bind].
      assert (Hd : (1 <= i / nk <= 10)%nat).
      { split. apply Nat.div_le_lower_bound; lia.
        apply Nat.lt_succ_r. apply Nat.div_lt_upper_bound; lia. }
      rewrite Hrc by auto. cbn [bind].
      rewrite word_xor_eq by (reflexivity || apply rcon_wf). cbn [bind].
      now rewrite xor_word_assoc by apply W2.
    + destruct (_ && _)%bool.
      * rewrite substitute_word_eq by apply W1. cbn [bind].
        rewrite word_xor_eq by (apply W2 || apply sub_word_wf, W1). reflexivity.
      * rewrite word_xor_eq by (apply W2 || apply W1). reflexivity.
Qed.

Lemma list4_firstn w r : (4 * r + 4 <= length w)%nat ->
  exists a b c d, firstn 4 (skipn (4 * r) w) = ([a; b; c; d] : list (list N)).
Proof.
  intros H. apply list4. rewrite firstn_length, skipn_length. lia.
Qed.

Lemma round_key_wf w r : (4 * r + 4 <= length w)%nat -> Forall wf4 w -> wf16 (round_key w r).
Proof.
  intros H Hw. unfold round_key.
  assert (Hf : Forall wf4 (firstn 4 (skipn (4 * r) w))) by now apply Forall_firstn, Forall_skipn.
  destruct (list4_firstn w r H) as (a & b & c & d & E). rewrite E in *.
  apply Forall_cons_iff in Hf as [[La Ba] Hf]. apply Forall_cons_iff in Hf as [[Lb Bb] Hf].
  apply Forall_cons_iff in Hf as [[Lc Bc] Hf]. apply Forall_cons_iff in Hf as [[Ld Bd] _].
  cbn [concat]. rewrite app_nil_r. split.
  - rewrite !app_length. lia.
  - repeat (apply Forall_app; split); auto.
Qed.

Lemma expand_key_eq nk key m :
  (4 <= nk <= 8)%nat -> length key = (4 * nk)%nat -> bytes key -> (4 * m <= nk * 11)%nat ->
  expand_key nk key m = Ok (map (round_key (key_words nk key (4 * m))) (seq 0 m)).
Proof.
  intros Hnk Hl Hb Hm. unfold expand_key.
  destruct expander_rcon_eq as (rc & -> & Hrc). cbn [bind].
  rewrite (chunks_exact_pieces 4 nk) by lia. cbn [bind].
  set (cs := map _ (seq 0 nk)).
  assert (Hcs : forall c, In c cs -> length c = 4%nat).
  { intros c Hc. apply in_map_iff in Hc as (i & <- & Hi). apply in_seq in Hi.
    rewrite firstn_length, skipn_length. lia. }
  rewrite (mapM_ok _ (fun c => c)) by (intros; apply to_array_ok; auto). cbn [bind].
  rewrite map_id. rewrite to_array_ok by (unfold cs; now rewrite map_length, seq_length).
  cbn [bind]. rewrite (expand_words_eq nk rc key cs m); auto.
  2: { intros i Hi. unfold cs. rewrite (idx_nth _ i []) by (rewrite map_length, seq_length; lia).
       rewrite (nth_indep _ [] (firstn 4 (skipn (4 * 0) key))) by (rewrite map_length, seq_length; lia).
       rewrite (map_nth (fun i => firstn 4 (skipn (4 * i) key))).
       now rewrite seq_nth by lia. }
  cbn [bind]. set (w := key_words nk key (4 * m)).
  assert (Hwl : length w = (m * 4)%nat) by (unfold w; rewrite key_words_length; lia).
  assert (Hww : Forall wf4 w) by (apply key_words_wf; auto; lia).
  rewrite (chunks_pieces 4 m) by lia. cbn [bind].
  set (f := fun words expanded_keys => _).
  set (g := fun i => firstn 4 (skipn (4 * i) w)).
  assert (G : forall l acc, (forall i, In i l -> (i < m)%nat) ->
     forM (map g l) f acc = Ok (acc ++ map (round_key w) l)).
  { induction l as [|i l IH]; intros acc Hi.
    - cbn. now rewrite app_nil_r.
    - cbn [map forM]. unfold f at 1.
      assert (Hbound : (4 * i + 4 <= length w)%nat).
      { specialize (Hi i (or_introl eq_refl)). lia. }
      assert (Hf : Forall wf4 (g i)) by now apply Forall_firstn, Forall_skipn.
      assert (Hrk : round_key w i = concat (g i)) by reflexivity. rewrite Hrk.
      destruct (list4_firstn w i Hbound) as (w0 & w1 & w2 & w3 & E).
      change (firstn 4 (skipn (4 * i) w)) with (g i) in E. rewrite E in *.
      apply Forall_cons_iff in Hf as [[La _] Hf]. apply Forall_cons_iff in Hf as [[Lb _] Hf].
      apply Forall_cons_iff in Hf as [[Lc _] Hf]. apply Forall_cons_iff in Hf as [[Ld _] _].
      des4 w0 La. des4 w1 Lb. des4 w2 Lc. des4 w3 Ld.
      match goal with |- bind ?m _ = Ok (_ ++ ?k :: _) =>
        replace m with (Ok (acc ++ [k])) by reflexivity end.
      cbn [bind]. rewrite IH by (intros; apply Hi; now right).
      now rewrite <- app_assoc. }
  rewrite (G (seq 0 m) []); [reflexivity|]. intros i Hi. apply in_seq in Hi. lia.
Qed.

Lemma keys_ok_expand nk key : (4 <= nk <= 8)%nat -> (4 * (nk + 7) <= nk * 11)%nat ->
  length key = (4 * nk)%nat -> bytes key ->
  exists keys, expand_key nk key (nk + 7) = Ok keys /\ length keys = (nk + 7)%nat /\
    keys_ok (nk + 6) (key_words nk key (4 * (nk + 7))) keys.
Proof.
  intros Hnk Hm Hl Hb. eexists. split; [now apply expand_key_eq|].
  split; [now rewrite map_length, seq_length|].
  intros r Hr. split.
  - rewrite (idx_nth _ r []) by (rewrite map_length, seq_length; lia).
    rewrite (nth_indep _ [] (round_key (key_words nk key (4 * (nk + 7))) 0))
      by (rewrite map_length, seq_length; lia).
    rewrite map_nth. now rewrite seq_nth by lia.
  - apply round_key_wf. rewrite key_words_length. lia.
    apply key_words_wf; auto; lia.
Qed.

(** ** Keys given as integers *)

Lemma copy_u64s_eq values :
  copy_u64s (8 * length values) values = Ok (concat (map (be_bytes 8) values)).
Proof.
  unfold copy_u64s. rewrite (forM_enumerate_range values 0).
  set (f := fun i => _).
  assert (Hc : forall vs, length (concat (map (be_bytes 8) vs)) = (8 * length vs)%nat).
  { induction vs as [|v vs IH]; auto. cbn [map concat length]. rewrite app_length, IH.
    unfold be_bytes. rewrite map_length, seq_length. lia. }
  destruct (forM_range_inv
    (fun i key => key = concat (map (be_bytes 8) (firstn i values)) ++ repeat 0 (8 * (length values - i)))
    f 0 (length values) (repeat 0 (8 * length values))) as (s & E & Hs).
  - lia.
  - cbn [firstn map concat app]. now rewrite Nat.sub_0_r.
  - intros i s Hi ->. unfold f. eexists. split.
    + apply copy_range_ok. rewrite app_length, repeat_length, Hc, firstn_length. lia.
      rewrite to_be_length. lia.
    + rewrite firstn_app_exact by (rewrite Hc, firstn_length; lia).
      rewrite skipn_app, skipn_all2 by (rewrite Hc, firstn_length; lia).
      rewrite Hc, firstn_length, skipn_repeat. cbn [app].
      rewrite to_be_be_bytes.
      rewrite (firstn_S_nth values i 0) by lia.
      rewrite map_app, concat_app. cbn [map concat]. rewrite app_nil_r, <- app_assoc.
      do 3 f_equal. lia.
  - rewrite E, Hs. rewrite firstn_all, Nat.sub_diag. cbn [Nat.mul repeat]. now rewrite app_nil_r.
Qed.

Lemma be_bytes_concat_wf values :
  length (concat (map (be_bytes 8) values)) = (8 * length values)%nat /\
  bytes (concat (map (be_bytes 8) values)).
Proof.
  split.
  - induction values as [|v vs IH]; auto. cbn [map concat length]. rewrite app_length, IH.
    unfold be_bytes. rewrite map_length, seq_length. lia.
  - apply Forall_concat. apply Forall_forall. intros l Hl.
    apply in_map_iff in Hl as (v & <- & _). rewrite <- to_be_be_bytes. apply to_be_bytes.
Qed.

(** ** The three key sizes together *)

Lemma aes_make_ok nk key : nk = 4%nat \/ nk = 6%nat \/ nk = 8%nat ->
  length key = (4 * nk)%nat -> bytes key ->
  exists keys, aes_make nk key = Ok {| aes_keys := keys; aes_rounds := (nk + 6)%nat |} /\
    length keys = (nk + 7)%nat /\
    keys_ok (nk + 6) (key_words nk key (4 * (nk + 7))) keys.
Proof.
  intros Hnk Hl Hb.
  destruct (keys_ok_expand nk key) as (keys & H1 & H2 & H3); [lia|lia|auto|auto|].
  exists keys. split; auto.
  destruct Hnk as [->|[->| ->]]; cbn [aes_make];
    unfold with_128_bit_key, with_192_bit_key, with_256_bit_key;
    cbn [Nat.add] in H1; rewrite H1; reflexivity.
Qed.

Lemma aes_encrypt_conforms nk key block : nk = 4%nat \/ nk = 6%nat \/ nk = 8%nat ->
  length key = (4 * nk)%nat -> bytes key -> length block = 16%nat -> bytes block ->
  exists c, aes_make nk key = Ok c /\
    aes_encrypt c block = Ok (aes_spec_encrypt nk key block) /\
    aes_decrypt c block = Ok (aes_spec_decrypt nk key block).
Proof.
  intros Hnk Hl Hb Hbl Hbb. destruct (aes_make_ok nk key Hnk Hl Hb) as (keys & E & _ & K).
  eexists. split; [exact E|]. unfold aes_spec_encrypt, aes_spec_decrypt.
  replace (nk + 6 + 1)%nat with (nk + 7)%nat by lia.
  split; [apply aes_encrypt_eq|apply aes_decrypt_eq]; auto; try lia; now split.
Qed.

Lemma aes_spec_inverse nk key block : nk = 4%nat \/ nk = 6%nat \/ nk = 8%nat ->
  length key = (4 * nk)%nat -> bytes key -> length block = 16%nat -> bytes block ->
  aes_spec_decrypt nk key (aes_spec_encrypt nk key block) = block /\
  aes_spec_encrypt nk key (aes_spec_decrypt nk key block) = block.
Proof.
  intros Hnk Hl Hb Hbl Hbb. destruct (aes_make_ok nk key Hnk Hl Hb) as (keys & E & _ & K).
  unfold aes_spec_encrypt, aes_spec_decrypt.
  replace (nk + 6 + 1)%nat with (nk + 7)%nat by lia. cbv zeta.
  split; [apply fips_inv_left|apply fips_inv_right]; try lia; try (now split).
  all: intros r Hr; apply K; lia.
Qed.

Lemma aes_spec_wf nk key block : nk = 4%nat \/ nk = 6%nat \/ nk = 8%nat ->
  length key = (4 * nk)%nat -> bytes key -> length block = 16%nat -> bytes block ->
  wf16 (aes_spec_encrypt nk key block) /\ wf16 (aes_spec_decrypt nk key block).
Proof.
  intros Hnk Hl Hb Hbl Hbb. destruct (aes_make_ok nk key Hnk Hl Hb) as (keys & E & _ & K).
  unfold aes_spec_encrypt, aes_spec_decrypt.
  replace (nk + 6 + 1)%nat with (nk + 7)%nat by lia.
  split; [eapply aes_encrypt_eq|eapply aes_decrypt_eq]; eauto; try lia; now split.
Qed.

Lemma aes_inverse nk key block : nk = 4%nat \/ nk = 6%nat \/ nk = 8%nat ->
  length key = (4 * nk)%nat -> bytes key -> length block = 16%nat -> bytes block ->
  exists c e d, aes_make nk key = Ok c /\
    aes_encrypt c block = Ok e /\ length e = 16%nat /\ bytes e /\ aes_decrypt c e = Ok block /\
    aes_decrypt c block = Ok d /\ length d = 16%nat /\ bytes d /\ aes_encrypt c d = Ok block.
Proof.
  intros Hnk Hl Hb Hbl Hbb.
  destruct (aes_spec_wf nk key block Hnk Hl Hb Hbl Hbb) as [[W1 W2] [W3 W4]].
  destruct (aes_spec_inverse nk key block Hnk Hl Hb Hbl Hbb) as [I1 I2].
  destruct (aes_encrypt_conforms nk key block Hnk Hl Hb Hbl Hbb) as (c & E1 & E2 & E3).
  destruct (aes_encrypt_conforms nk key _ Hnk Hl Hb W1 W2) as (c' & E1' & _ & E3').
  destruct (aes_encrypt_conforms nk key _ Hnk Hl Hb W3 W4) as (c'' & E1'' & E2'' & _).
  assert (c' = c) by congruence. assert (c'' = c) by congruence. subst.
  rewrite I1 in E3'. rewrite I2 in E2''.
  exists c, (aes_spec_encrypt nk key block), (aes_spec_decrypt nk key block).
  repeat split; auto.
Qed.

Lemma aes_cipher_inverse nk key c : nk = 4%nat \/ nk = 6%nat \/ nk = 8%nat ->
  length key = (4 * nk)%nat -> bytes key -> aes_make nk key = Ok c ->
  cipher_inverse 16 (aes_cipher c).
Proof.
  intros Hnk Hl Hb Hc b Hb1 Hb2.
  destruct (aes_inverse nk key b Hnk Hl Hb Hb1 Hb2) as (c' & e & d & E1 & E2 & E3 & E4 & E5 & _).
  assert (c' = c) by congruence. subst. exists e. cbn. auto.
Qed.

Lemma aes_from_u64s_eq nk values : nk = 4%nat \/ nk = 6%nat \/ nk = 8%nat ->
  (2 * length values)%nat = nk ->
  aes_from_u64s nk values = aes_make nk (concat (map (be_bytes 8) values)).
Proof.
  intros Hnk Hl. pose proof (copy_u64s_eq values) as E.
  destruct Hnk as [Hnk|[Hnk|Hnk]]; rewrite Hnk in *; cbn [aes_from_u64s aes_make].
  - replace (8 * length values)%nat with 16%nat in E by lia. unfold aes_from_key128. now rewrite E.
  - replace (8 * length values)%nat with 24%nat in E by lia. unfold aes_from_key192. now rewrite E.
  - replace (8 * length values)%nat with 32%nat in E by lia. unfold aes_from_key256. now rewrite E.
Qed.

Lemma aes_expanded nk key : nk = 4%nat \/ nk = 6%nat \/ nk = 8%nat ->
  length key = (4 * nk)%nat -> bytes key ->
  exists c, aes_make nk key = Ok c /\ aes_rounds c = (nk + 6)%nat /\
    aes_keys c = map (round_key (key_words nk key (4 * (nk + 7)))) (seq 0 (nk + 7)).
Proof.
  intros Hnk Hl Hb.
  pose proof (expand_key_eq nk key (nk + 7) ltac:(lia) Hl Hb ltac:(lia)) as E.
  eexists {| aes_keys := _; aes_rounds := _ |}. split; [|split; reflexivity].
  destruct Hnk as [->|[->| ->]]; cbn [aes_make];
    unfold with_128_bit_key, with_192_bit_key, with_256_bit_key;
    cbn [Nat.add] in E; rewrite E; reflexivity.
Qed.

Lemma sub_byte_inverse b : b < 256 ->
  inv_sub_byte (sub_byte b) = b /\ sub_byte (inv_sub_byte b) = b /\
  sub_byte b < 256 /\ inv_sub_byte b < 256.
Proof.
  intros. repeat split.
  now apply inv_sub_sub. now apply sub_inv_sub. now apply sub_byte_lt. now apply inv_sub_byte_lt.
Qed.
