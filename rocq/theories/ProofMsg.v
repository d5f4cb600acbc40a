(** * Proofs about encrypt_message and decrypt_message *)
From Verif Require Import Base BaseLemmas ModelSha ModelBig ModelRsa SpecEndian SpecBig SpecSha SpecRsa
  SpecOaep SpecMsg ProofEndian ProofBig ProofBig2 ProofBig3 ProofRsaMath ProofRsa ProofOaep.
From Coq Require Import ZifyBool ZifyNat ZifyN.
Local Open Scope N_scope.
Local Open Scope list_scope.

Lemma modulus_length n : canonical n -> n <> [] ->
  (ix ((N.size (num n) - 1) / 8) + 1)%nat = length n /\
  256 ^ N.of_nat (length n - 1) <= num n /\ 0 < N.size (num n).
Proof.
  intros C Hne. change num with from_le.
  destruct (canonical_cases n C) as [->|(l & b & -> & Hl & Hb & Hz)]; [easy|].
  rewrite size_snoc, app_length by auto. cbn [length].
  replace (length l + 1 - 1)%nat with (length l) by lia.
  split; [|split; [apply canonical_bounds; auto|lia]].
  assert (L : N.log2 b < 8) by (apply N.log2_lt_pow2; auto; lia).
  replace (8 * N.of_nat (length l) + (N.log2 b + 1) - 1) with (N.log2 b + N.of_nat (length l) * 8) by lia.
  rewrite N.div_add by lia. rewrite N.div_small by auto. unfold ix. lia.
Qed.

Lemma be_num_lt l : bytes l -> be_num l < 256 ^ N.of_nat (length l).
Proof.
  intros H. rewrite <- from_be_be_num. unfold from_be. rewrite <- (rev_length l).
  apply from_le_lt. now apply Forall_rev.
Qed.

Lemma be_num_zero_cons l : be_num (0 :: l) = be_num l.
Proof. reflexivity. Qed.

Lemma be_num_zeros k l : be_num (repeat 0 k ++ l) = be_num l.
Proof. induction k; auto. Qed.

Lemma be_bytes_num l : bytes l -> be_bytes (length l) (be_num l) = l.
Proof.
  intros H. rewrite <- to_be_be_bytes, <- from_be_be_num. now apply to_be_from_be.
Qed.

Lemma be_num_canonical_length c k : canonical c -> num c < 256 ^ N.of_nat k -> (length c <= k)%nat.
Proof. apply canonical_length_lt. Qed.

(** The bytes of a number without leading zeros. *)
Lemma to_be_minimal c : canonical c -> bytes (big_to_be_bytes c) /\ hd 1 (big_to_be_bytes c) <> 0 /\
  be_num (big_to_be_bytes c) = num c /\ length (big_to_be_bytes c) = length c.
Proof.
  intros C. destruct (to_be_spec c C) as (V & Hh & B). split; [exact B|]. split; [|split; [exact V|]].
  - destruct c as [|x c]; [discriminate|]. specialize (Hh ltac:(discriminate)).
    destruct (big_to_be_bytes (x :: c)); [discriminate|exact Hh].
  - unfold big_to_be_bytes. apply rev_length.
Qed.

Lemma sized_nonempty capf key : sized capf key -> rsa_modulo key <> [].
Proof. intros (_ & _ & H & _) E. rewrite E in H. cbn in H. lia. Qed.

(** For every padding scheme. *)
Lemma encrypt_message_spec {E} capf key msg (ps : padding_scheme E) em : sized capf key ->
  ps_encode ps [] msg (length (rsa_modulo key)) = Ok em -> bytes em ->
  length em = length (rsa_modulo key) ->
  if be_num em <? num (rsa_modulo key) then
    exists ct, encrypt_message capf key msg ps = Ok ct /\ bytes ct /\ hd 1 ct <> 0 /\
      be_num ct = rsa_power (be_num em) (num (rsa_exponent key)) (num (rsa_modulo key))
  else encrypt_message capf key msg ps = Panic PAssert.
Proof.
  intros Hs Ee Be Le. pose proof (sized_nonempty _ _ Hs) as Hne.
  destruct Hs as (Ce & Cn & N1 & Ke & Hal). unfold encrypt_message.
  assert (Kn : countable (rsa_modulo key)) by (apply (allocates_countable capf _ _ Hal); lia).
  destruct (modulus_length _ Cn Hne) as (Lk & _ & Sz). change num with from_le in Lk, Sz.
  rewrite bits_used_ok by auto. cbn [bind]. rewrite csub_ok by lia. cbn [bind].
  rewrite Lk, Ee. cbn [bind].
  destruct (from_be_spec em Be) as (m & Em & Cm & Vm). rewrite Em. cbn [bind].
  assert (Lm : (length m <= length (rsa_modulo key))%nat).
  { apply be_num_canonical_length; auto. rewrite Vm, <- Le. now apply be_num_lt. }
  assert (Km : countable m) by (apply (allocates_countable capf _ _ Hal); lia).
  rewrite lt_ok by auto. cbn [bind]. rewrite <- Vm. change num with from_le.
  destruct (from_le m <? from_le (rsa_modulo key)) eqn:El; [|reflexivity].
  destruct (rsa_encrypt_spec capf (length (rsa_modulo key) + 4) key m Ce Cn Cm N1 Ke) as (c & E1 & _ & C1 & V1);
    auto; [lia|].
  rewrite E1. cbn [bind].
  destruct (to_be_minimal c C1) as (B1 & H1 & V2 & _).
  exists (big_to_be_bytes c). split; [reflexivity|]. split; [exact B1|]. split; [exact H1|].
  rewrite V2, V1. reflexivity.
Qed.

Lemma decrypt_message_spec {E} capf key ct (ps : padding_scheme E) : sized capf key ->
  bytes ct -> allocates capf (length ct + 4) ->
  let v := rsa_power (be_num ct) (num (rsa_exponent key)) (num (rsa_modulo key)) in
  decrypt_message capf key ct ps =
  if v <? 256 ^ N.of_nat (length ct)
  then (let* r := ps_decode ps [] (be_bytes (length ct) v) (length ct) in runwrap r)
  else Panic POverflow.
Proof.
  intros Hs Bc Ha v. destruct Hs as (Ce & Cn & N1 & Ke & Hal). unfold decrypt_message. cbv zeta.
  destruct (from_be_spec ct Bc) as (c & Ec & Cc & Vc). rewrite Ec. cbn [bind].
  assert (Lc' : (length c <= length ct)%nat).
  { apply be_num_canonical_length; auto. rewrite Vc. now apply be_num_lt. }
  destruct (rsa_encrypt_spec capf (Nat.max (length (rsa_modulo key)) (length ct) + 4) key c Ce Cn Cc N1 Ke) as (d & _ & E1 & C1 & V1);
    [lia|lia|destruct (Nat.max_spec (length (rsa_modulo key)) (length ct)) as [[_ ->]|[_ ->]]; auto|].
  rewrite E1. cbn [bind]. rewrite Vc in V1. fold v in V1.
  destruct (to_be_minimal d C1) as (B1 & H1 & V2 & L2).
  rewrite repeat_length, L2.
  destruct (N.ltb_spec v (256 ^ N.of_nat (length ct))) as [L|L].
  - assert (Ld : (length d <= length ct)%nat) by (apply be_num_canonical_length; auto; lia).
    rewrite nsub_ok by auto. cbn [bind].
    rewrite copy_range_ok by (rewrite ?repeat_length; lia). cbn [bind].
    rewrite skipn_all2 by (rewrite repeat_length; lia). rewrite app_nil_r.
    assert (Ef : firstn (length ct - length d) (repeat 0 (length ct)) = repeat 0 (length ct - length d)).
    { replace (length ct) with ((length ct - length d) + length d)%nat at 2 by lia.
      rewrite repeat_app, firstn_app, repeat_length, Nat.sub_diag, firstn_O, app_nil_r.
      rewrite <- (repeat_length 0 (length ct - length d)) at 1. apply firstn_all. }
    rewrite Ef. clear Ef.
    set (x := repeat 0 (length ct - length d) ++ big_to_be_bytes d).
    assert (Lx : length x = length ct) by (unfold x; rewrite app_length, repeat_length, L2; lia).
    assert (Bx : bytes x).
    { apply Forall_app. split; auto. apply Forall_forall. intros y Hy. apply repeat_spec in Hy. now subst. }
    assert (Vx : be_num x = v) by (unfold x; rewrite be_num_zeros, V2; exact V1).
    rewrite Lx, <- Vx.
    replace (be_bytes (length ct) (be_num x)) with x by (rewrite <- Lx, be_bytes_num; auto).
    reflexivity.
  - rewrite nsub_panic; [reflexivity|].
    destruct (le_lt_dec (length d) (length ct)) as [X|X]; [|auto].
    pose proof (from_le_lt d (canonical_bytes _ C1)) as U. change num with from_le in V1.
    assert (256 ^ N.of_nat (length d) <= 256 ^ N.of_nat (length ct)) by (apply N.pow_le_mono_r; lia). lia.
Qed.

(** ** With RsaPadding *)

(** The OAEP encoding that encrypt_message uses. *)
Definition rsa_em (msg : list N) (k : nat) : list N :=
  oaep_spec sha256_spec 32 (repeat 42 32) [] msg k.

Lemma rsa_em_ok msg k : bytes msg -> (length msg + 66 <= k)%nat -> N.of_nat k <= 2 ^ 37 + 1 ->
  ps_encode rsa_padding [] msg k = Ok (rsa_em msg k) /\ length (rsa_em msg k) = k /\
  bytes (rsa_em msg k) /\ hd 1 (rsa_em msg k) = 0 /\
  ps_decode rsa_padding [] (rsa_em msg k) k = Ok (ROk msg).
Proof.
  intros B F L.
  destruct (rsa_padding_roundtrip [] msg k) as (em & E1 & E2 & E3 & E4 & E5); auto;
    [constructor|reflexivity|].
  assert (E6 : ps_encode rsa_padding [] msg k = Ok (rsa_em msg k)).
  { apply (oaep_encode_ok sha256 sha256_spec 32 (2 ^ 61) sha256_implements); auto; [lia|constructor| |].
    - apply rsa_sizes; [reflexivity|auto].
    - unfold oaep_fits. lia. }
  rewrite E6 in E1. apply Ok_inj in E1. subst em. auto.
Qed.

Lemma rsa_em_below msg n : bytes msg -> canonical n -> n <> [] -> (length msg + 66 <= length n)%nat ->
  N.of_nat (length n) <= 2 ^ 37 + 1 -> be_num (rsa_em msg (length n)) < num n /\
  be_num (rsa_em msg (length n)) < 256 ^ N.of_nat (length n - 1).
Proof.
  intros B Cn Hne F L. destruct (rsa_em_ok msg (length n) B F L) as (_ & El & Eb & Eh & _).
  destruct (modulus_length n Cn Hne) as (_ & Bn & _).
  destruct (rsa_em msg (length n)) as [|x em]; [cbn in El; lia|]. cbn [hd] in Eh. subst x.
  rewrite be_num_zero_cons. inversion Eb; subst. pose proof (be_num_lt em ltac:(auto)) as Lt.
  cbn [length] in El. replace (length n - 1)%nat with (length em) in * by lia. lia.
Qed.

Lemma sized_small capf key : sized capf key -> N.of_nat (length (rsa_modulo key)) <= 2 ^ 37 + 1.
Proof.
  intros (_ & _ & _ & _ & Hal).
  pose proof (allocates_countable capf _ (rsa_modulo key) Hal ltac:(lia)) as K. unfold countable in K.
  change (2 ^ 29) with 536870912 in K. change (2 ^ 37) with 137438953472. lia.
Qed.

Lemma encrypt_rsa_padding capf key msg : sized capf key -> bytes msg ->
  (length msg + 66 <= length (rsa_modulo key))%nat ->
  exists ct, encrypt_message capf key msg rsa_padding = Ok ct /\ bytes ct /\ hd 1 ct <> 0 /\
    be_num ct = rsa_power (be_num (rsa_em msg (length (rsa_modulo key))))
      (num (rsa_exponent key)) (num (rsa_modulo key)).
Proof.
  intros Hs B F. pose proof (sized_small _ _ Hs) as L. pose proof (sized_nonempty _ _ Hs) as Hne.
  destruct (rsa_em_ok msg _ B F L) as (E1 & E2 & E3 & _ & _).
  pose proof (encrypt_message_spec capf key msg rsa_padding _ Hs E1 E3 E2) as H.
  destruct Hs as (Ce & Cn & _). destruct (rsa_em_below msg _ B Cn Hne F L) as [Lt _].
  now rewrite (proj2 (N.ltb_lt _ _) Lt) in H.
Qed.

Lemma encrypt_too_short capf key msg : canonical (rsa_modulo key) -> countable (rsa_modulo key) ->
  bytes msg -> (length (rsa_modulo key) < length msg + 66)%nat ->
  encrypt_message capf key msg rsa_padding =
  Panic (match rsa_modulo key with [] => POverflow | _ => PExplicit end).
Proof.
  intros Cn Kn B L. destruct (rsa_modulo key) as [|x n] eqn:En.
  - unfold encrypt_message. rewrite En. reflexivity.
  - unfold encrypt_message. rewrite En.
    destruct (modulus_length (x :: n) Cn) as (Lk & _ & Sz); [discriminate|].
    rewrite bits_used_ok by auto. cbn [bind]. change num with from_le in Lk, Sz.
    rewrite csub_ok by lia. cbn [bind]. rewrite Lk.
    rewrite rsa_padding_too_short; auto; [constructor|reflexivity].
Qed.

Lemma encrypt_cases capf key msg : sized capf key -> bytes msg ->
  (exists ct, encrypt_message capf key msg rsa_padding = Ok ct) <->
  (length msg + 66 <= length (rsa_modulo key))%nat.
Proof.
  intros Hs B. split.
  - intros [ct E]. destruct (le_lt_dec (length msg + 66) (length (rsa_modulo key))) as [|L]; [auto|].
    rewrite encrypt_too_short in E; auto; try discriminate.
    + apply Hs.
    + destruct Hs as (_ & _ & _ & _ & Hal). apply (allocates_countable capf _ _ Hal). lia.
  - intros F. destruct (encrypt_rsa_padding capf key msg Hs B F) as (ct & E & _). eauto.
Qed.

(** The length of the ciphertext is at most that of the modulus. *)
Lemma minimal_length ct k : bytes ct -> hd 1 ct <> 0 -> be_num ct < 256 ^ N.of_nat k -> (length ct <= k)%nat.
Proof.
  intros B Hh L.
  assert (C : canonical (rev ct)).
  { split; [now apply Forall_rev|]. destruct ct as [|x ct]; [discriminate|]. cbn [hd] in Hh.
    cbn [rev]. now rewrite last_last. }
  rewrite <- rev_length. apply be_num_canonical_length; auto. change (num (rev ct)) with (from_le (rev ct)).
  fold (from_be ct). now rewrite from_be_be_num.
Qed.

Lemma rsa_power_bound v e n : canonical n -> n <> [] -> rsa_power v e (num n) < 256 ^ N.of_nat (length n).
Proof.
  intros C Hne. unfold rsa_power. pose proof (canonical_val_pos n C Hne) as P.
  apply N.lt_trans with (num n).
  - apply N.mod_lt. change num with from_le. lia.
  - change num with from_le. apply from_le_lt. now apply canonical_bytes.
Qed.

(** What decrypt_message sees: the encoded message, cut to the length of the ciphertext. *)
Lemma decrypt_ciphertext capf p q enc dec msg ct : matching p q enc dec -> sized capf enc -> sized capf dec ->
  bytes msg -> encrypt_message capf enc msg rsa_padding = Ok ct ->
  let em := rsa_em msg (length (rsa_modulo enc)) in
  (length ct <= length (rsa_modulo enc))%nat /\
  decrypt_message capf dec ct rsa_padding =
  if be_num em <? 256 ^ N.of_nat (length ct)
  then (let* r := ps_decode rsa_padding [] (be_bytes (length ct) (be_num em)) (length ct) in runwrap r)
  else Panic POverflow.
Proof.
  intros (Pp & Pq & Hne & Hmod & Hn & Hk) Se Sd B E em.
  assert (F : (length msg + 66 <= length (rsa_modulo enc))%nat) by (apply (encrypt_cases capf enc); eauto).
  destruct (encrypt_rsa_padding capf enc msg Se B F) as (ct' & E' & Bc & Hc & Vc). rewrite E in E'.
  apply Ok_inj in E'. subst ct'. fold em in Vc.
  pose proof (sized_nonempty _ _ Se) as Nn. pose proof (sized_small _ _ Se) as Sm.
  assert (Cn : canonical (rsa_modulo enc)) by apply Se.
  assert (Lc : (length ct <= length (rsa_modulo enc))%nat).
  { apply minimal_length; auto. rewrite Vc. now apply rsa_power_bound. }
  split; [exact Lc|].
  rewrite decrypt_message_spec by (auto; intros j Hj; apply Sd; rewrite <- Hmod; lia).
  rewrite <- Hmod, Vc, Hn. rewrite rsa_round_trip by auto.
  destruct (rsa_em_below msg _ B Cn Nn F Sm) as [Lt _]. fold em in Lt.
  rewrite N.mod_small by lia. reflexivity.
Qed.

Lemma message_roundtrip capf p q enc dec msg ct : matching p q enc dec -> sized capf enc -> sized capf dec ->
  bytes msg -> encrypt_message capf enc msg rsa_padding = Ok ct ->
  length ct = length (rsa_modulo enc) -> decrypt_message capf dec ct rsa_padding = Ok msg.
Proof.
  intros M Se Sd B E L.
  assert (F : (length msg + 66 <= length (rsa_modulo enc))%nat) by (apply (encrypt_cases capf enc); eauto).
  pose proof (sized_small _ _ Se) as Sm.
  destruct (decrypt_ciphertext capf p q enc dec msg ct M Se Sd B E) as [_ D]. rewrite D, L.
  destruct (rsa_em_ok msg _ B F Sm) as (_ & El & Eb & _ & Ed).
  pose proof (be_num_lt _ Eb) as Lt. rewrite El in Lt. rewrite (proj2 (N.ltb_lt _ _) Lt).
  rewrite <- El at 1. rewrite be_bytes_num by auto. now rewrite Ed.
Qed.

(** A shorter ciphertext: the first byte that decode sees is one of the masked seed. *)
Lemma message_short_panics capf p q enc dec msg ct : matching p q enc dec -> sized capf enc -> sized capf dec ->
  bytes msg -> encrypt_message capf enc msg rsa_padding = Ok ct ->
  (length ct < length (rsa_modulo enc))%nat ->
  nth 1 (rsa_em msg (length (rsa_modulo enc))) 0 <> 0 ->
  decrypt_message capf dec ct rsa_padding =
  Panic (if (length ct =? length (rsa_modulo enc) - 1)%nat then PUnwrap else POverflow).
Proof.
  intros M Se Sd B E L Hz.
  assert (F : (length msg + 66 <= length (rsa_modulo enc))%nat) by (apply (encrypt_cases capf enc); eauto).
  pose proof (sized_small _ _ Se) as Sm.
  destruct (decrypt_ciphertext capf p q enc dec msg ct M Se Sd B E) as [_ D]. rewrite D. clear D.
  destruct (rsa_em_ok msg _ B F Sm) as (_ & El & Eb & Eh & _).
  set (em := rsa_em msg (length (rsa_modulo enc))) in *. clearbody em.
  destruct em as [|z em]; [cbn in El; lia|]. cbn [hd] in Eh. subst z.
  destruct em as [|b em]; [cbn in El; lia|]. cbn [nth] in Hz.
  rewrite be_num_zero_cons. cbn [length] in El.
  assert (Bb : bytes (b :: em)) by (inversion Eb; auto).
  destruct (Nat.eqb_spec (length ct) (length (rsa_modulo enc) - 1)) as [L1|L1].
  - assert (L2 : length ct = length (b :: em)) by (cbn [length]; lia). rewrite L2.
    pose proof (be_num_lt _ Bb) as Lt. rewrite (proj2 (N.ltb_lt _ _) Lt).
    rewrite be_bytes_num by auto. cbn [ps_decode rsa_padding].
    rewrite oaep_decode_first_byte by auto. reflexivity.
  - destruct (N.ltb_spec (be_num (b :: em)) (256 ^ N.of_nat (length ct))) as [Lt|]; [|reflexivity].
    exfalso. assert (X : (length (b :: em) <= length ct)%nat) by (apply minimal_length; auto).
    cbn [length] in X. lia.
Qed.

(** ** Keys of create_keys *)

Lemma create_keys_positive p q e priv pub : create_keys p q e = Ok (priv, pub) ->
  bytes p -> bytes q -> 0 < num p /\ 0 < num q.
Proof.
  unfold create_keys. intros E Bp Bq.
  apply bind_ok_inv in E as (rp & Ep & E). apply bind_ok_inv in E as (vp & Ep' & E).
  apply bind_ok_inv in E as (rq & Eq & E). apply bind_ok_inv in E as (vq & Eq' & E).
  apply bind_ok_inv in E as (re & Ee & E). apply bind_ok_inv in E as (ve & Ee' & E).
  apply bind_ok_inv in E as (n & En & E). apply bind_ok_inv in E as (p1 & Ep1 & E).
  apply bind_ok_inv in E as (q1 & Eq1 & E).
  assert (V : forall x r v, bytes x -> big_as_u128 x = Ok r -> runwrap r = Ok v -> v = num x).
  { intros x r v Bx Ex Er. change num with from_le. destruct (le_lt_dec (length x) 16) as [L|L].
    - rewrite as_u128_ok in Ex by auto. apply Ok_inj in Ex. subst r. now apply Ok_inj in Er.
    - rewrite as_u128_err in Ex by auto. apply Ok_inj in Ex. subst r. discriminate. }
  rewrite <- (V p rp vp Bp Ep Ep'), <- (V q rq vq Bq Eq Eq').
  unfold csub in Ep1, Eq1. destruct (N.leb_spec 1 vp); [|discriminate].
  destruct (N.leb_spec 1 vq); [|discriminate]. lia.
Qed.

Lemma create_keys_unusable capf p q e priv pub msg : create_keys p q e = Ok (priv, pub) ->
  bytes p -> bytes q -> bytes msg ->
  (length (pub_n pub) <= 16)%nat /\
  encrypt_message capf (rsa_from_public pub) msg rsa_padding = Panic PExplicit /\
  encrypt_message capf (rsa_from_private priv) msg rsa_padding = Panic PExplicit.
Proof.
  intros E Bp Bq Bm. destruct (create_keys_modulus _ _ _ _ _ E Bp Bq) as (Hn & Cn & L & V).
  destruct (create_keys_positive _ _ _ _ _ E Bp Bq) as [P1 P2].
  pose proof (num_16 _ Cn L) as L16. split; [exact L16|].
  assert (Hne : pub_n pub <> []) by (intros X; rewrite X in V; change (num []) with 0 in V; nia).
  split.
  - rewrite encrypt_too_short; cbn [rsa_from_public rsa_modulo]; auto using length_countable; [|lia].
    destruct (pub_n pub); [easy|reflexivity].
  - destruct priv as [pn pd]. cbn [priv_n] in Hn. subst pn.
    rewrite encrypt_too_short; cbn [rsa_from_private rsa_modulo priv_n]; auto using length_countable; [|lia].
    destruct (pub_n pub); [easy|reflexivity].
Qed.
