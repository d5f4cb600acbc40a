(** * What the release build does where the debug build reports an overflow *)
From Coq Require Import ZifyBool ZifyNat ZifyN.
From Verif Require Import Base BaseLemmas SpecRelease ProofRelease.
From Verif Require Import ModelPad ModelBlock ModelRc ModelBig ModelRsa ModelPem ModelKey SpecKey.
From Verif Require Import SpecBig SpecRsa SpecMsg SpecAsn1 SpecRc SpecOaep SpecEndian.
From Verif Require Import ProofRc2 ProofBig ProofBig3 ProofRsa ProofMsg ProofAsn1 ProofInverse.
Ltac Zify.zify_post_hook ::= Z.div_mod_to_equations.

(** A difference that wraps is far beyond every length. *)
Lemma nsub_wraps a b : (a < b)%nat -> N.of_nat b < 2 ^ 63 ->
  exists k, @nsub release a b = Ok k /\ 2 ^ 63 < N.of_nat k.
Proof.
  intros L H. unfold nsub. rewrite (proj2 (Nat.leb_gt _ _) L). cbn [overflow_checks release].
  eexists. split; [reflexivity|]. rewrite N2Nat.id.
  change (2 ^ 64) with 18446744073709551616. change (2 ^ 63) with 9223372036854775808 in *.
  rewrite N.mod_small by lia. lia.
Qed.

(** ** src/pad.rs and src/lib.rs *)
Lemma unpad_zero : @pkcs_unpad release 0 [] = Panic PIndex.
Proof.
  unfold pkcs_unpad. destruct (nsub_wraps 0 1) as (k & E & K); [lia|reflexivity|].
  rewrite E. cbn [bind]. unfold idx. now destruct k.
Qed.

Lemma unpad_same n b : (0 < n)%nat -> length b = n -> @pkcs_unpad release n b = @pkcs_unpad debug n b.
Proof.
  intros Hn Hl. unfold pkcs_unpad. rewrite !nsub_ok by lia. cbn [bind].
  destruct (idx b (n - 1)) as [x|p]; cbn [bind]; [|reflexivity].
  destruct (Nat.ltb_spec n (ix x)); [reflexivity|]. now rewrite !nsub_ok by lia.
Qed.

Lemma obind_ext {A B} (m : out A) (f g : A -> out B) : (forall a, f a = g a) -> obind m f = obind m g.
Proof. intros H. destruct m as [l [a|p]]; cbn [obind]; [|reflexivity]. now rewrite H. Qed.

(** ** RC2 *)
Lemma rc2_release_panics key t1 : bytes key -> t1 < 2 ^ 16 ->
  ~ ((1 <= length key <= 128)%nat /\ 1 <= t1 <= 1024) ->
  @rc2_from_key release key t1 = Panic PIndex.
Proof.
  intros Hb Ht16 Hn. unfold rc2_from_key, rc2_expand_key.
  destruct (Nat.ltb_spec 128 (length key)) as [Hl|Hl].
  - unfold copy_range. rewrite repeat_length.
    rewrite (proj2 (Nat.leb_gt (length key) 128)) by lia. reflexivity.
  - rewrite copy_range_ok by (rewrite ?repeat_length; lia). cbn [bind firstn app].
    destruct (Nat.eqb_spec (length key) 0) as [H0|H0].
    + rewrite H0. change (range 0 128) with (0%nat :: range 1 128). cbn [forM].
      destruct (nsub_wraps 0 1) as (k & E & K); [lia|reflexivity|]. rewrite E. cbn [bind].
      rewrite idx_panic; [reflexivity|].
      rewrite app_length, skipn_length, repeat_length.
      change (2 ^ 63) with 9223372036854775808 in K. lia.
    + rewrite skipn_repeat.
      match goal with |- bind (forM ?r ?f ?l) _ = _ => assert (E1 : forM r f l =
        Ok (rc2_extend (length key) (128 - length key) key)) end.
      { eapply agr_ok; [|apply loop1_eq; auto; lia]. apply agr_forM. intros i s. unfold expand_loop1. agr. }
      rewrite E1. cbn [bind].
      set (l1 := rc2_extend (length key) (128 - length key) key).
      assert (L1 : length l1 = 128%nat) by (unfold l1; rewrite extend_length; lia).
      destruct (N.eqb_spec t1 0) as [->|Ht].
      * change ((0 + 7) / 8) with 0. rewrite csub_ok by lia. cbn [bind].
        rewrite idx_panic by (rewrite L1; unfold ix; lia). reflexivity.
      * destruct (N.le_gt_cases t1 1024); [exfalso; apply Hn; lia|].
        unfold csub. change (2 ^ 16) with 65536 in *.
        destruct (N.leb_spec ((t1 + 7) / 8) 128); [lia|]. cbn [overflow_checks release bind].
        rewrite idx_panic; [reflexivity|]. rewrite L1. unfold ix.
        rewrite N.mod_small by lia. lia.
Qed.

(** ** ASN.1 *)
Lemma ifo_bind {A B} (d r : res A) (f g : A -> res B) :
  r = index_for_overflow d -> (forall a, g a = index_for_overflow (f a)) ->
  bind r g = index_for_overflow (bind d f).
Proof.
  intros -> H. destruct d as [a|p]; cbn [bind index_for_overflow]; [apply H|].
  now destruct p.
Qed.

Lemma ifo_pure {A} (x : res A) : x <> Panic POverflow -> x = index_for_overflow x.
Proof. destruct x as [a|p]; [reflexivity|]. now destruct p. Qed.

Lemma ifo_slice {A} (l : list A) a b : slice l a b = index_for_overflow (slice l a b).
Proof. apply ifo_pure. unfold slice. destruct (_ && _)%bool; discriminate. Qed.
Lemma ifo_slice_to {A} (l : list A) b : slice_to l b = index_for_overflow (slice_to l b).
Proof. apply ifo_pure. unfold slice_to. destruct (_ <=? _)%nat; discriminate. Qed.
Lemma ifo_slice_from {A} (l : list A) b : slice_from l b = index_for_overflow (slice_from l b).
Proof. apply ifo_pure. unfold slice_from. destruct (_ <=? _)%nat; discriminate. Qed.
Lemma ifo_idx {A} (l : list A) i : idx l i = index_for_overflow (idx l i).
Proof. apply ifo_pure. unfold idx. destruct (nth_error l i); discriminate. Qed.
Lemma ifo_copy {A} (l : list A) a b s : copy_range l a b s = index_for_overflow (copy_range l a b s).
Proof.
  apply ifo_pure. unfold copy_range. destruct (_ && _)%bool; [|discriminate].
  destruct (_ =? _)%nat; discriminate.
Qed.

Create HintDb ifo.
#[export] Hint Resolve ifo_slice ifo_slice_to ifo_slice_from ifo_idx ifo_copy : ifo.

Ltac ifo_step :=
  match goal with
  | |- Ok _ = index_for_overflow (Ok _) => reflexivity
  | |- bind _ _ = index_for_overflow (bind _ _) => apply ifo_bind; [|intros ?]
  | |- (if ?c then _ else _) = index_for_overflow (if ?c then _ else _) => destruct c
  | |- match ?x with _ => _ end = index_for_overflow (match ?x with _ => _ end) => destruct x
  | |- _ = index_for_overflow _ => solve [auto with ifo nocore]
  end.
Ltac ifo := repeat (cbv zeta; ifo_step).

Lemma ifo_header b : @asn1_header release b = index_for_overflow (@asn1_header debug b).
Proof.
  unfold asn1_header. destruct (length b <=? 1)%nat; [reflexivity|].
  apply ifo_bind; [apply ifo_idx|]. intros tag.
  destruct (idx b 1) as [b1|p] eqn:E1; cbn [bind].
  2:{ apply ifo_pure. unfold idx in E1. destruct (nth_error b 1); congruence. }
  destruct (negb (N.land b1 128 =? 0)); [|ifo].
  cbv zeta. set (k := ix (N.land b1 (wnot 8 0x80))).
  assert (K : (k < 256)%nat).
  { unfold k, ix. change (wnot 8 0x80) with (N.ones 7). rewrite N.land_ones.
    pose proof (N.mod_lt b1 (2 ^ 7) ltac:(discriminate)). change (2 ^ 7) with 128 in *. lia. }
  destruct (le_lt_dec k 16) as [L|L].
  - rewrite !nsub_ok by auto. cbn [bind]. ifo.
  - rewrite nsub_panic by auto. cbn [bind index_for_overflow].
    destruct (nsub_wraps 16 k) as (j & Ej & J); [lia|change (2 ^ 63) with 9223372036854775808; lia|].
    rewrite Ej. cbn [bind]. unfold slice. destruct (_ && _)%bool; [|reflexivity]. cbn [bind].
    unfold copy_range. change (2 ^ 63) with 9223372036854775808 in J.
    destruct (Nat.leb_spec j 16); [lia|]. reflexivity.
Qed.

Lemma ifo_elements f g fuel l es : (forall b, g b = index_for_overflow (f b)) ->
  asn1_elements g fuel l es = index_for_overflow (asn1_elements f fuel l es).
Proof.
  intros H. revert l es. induction fuel as [|fuel IH]; intros l es; cbn [asn1_elements]; ifo.
  destruct l; reflexivity.
Qed.
#[export] Hint Resolve ifo_header : ifo.

Lemma ifo_parse fuel b :
  @parse_from_bytes release fuel b = index_for_overflow (@parse_from_bytes debug fuel b).
Proof.
  revert b. induction fuel as [|fuel IH]; intros b; cbn [parse_from_bytes]; ifo; [reflexivity|].
  now apply ifo_elements.
Qed.
#[export] Hint Resolve ifo_parse : ifo.

Lemma ifo_try_from b : @asn1_try_from release b = index_for_overflow (@asn1_try_from debug b).
Proof. unfold asn1_try_from. ifo. Qed.
#[export] Hint Resolve ifo_try_from : ifo.

Lemma crash_reason p bs : crash p bs -> p = POverflow \/ p = PIndex.
Proof. induction 1; auto. Qed.

Lemma asn1_release_panics bs p : bytes bs ->
  @asn1_try_from release bs = Panic p <-> p = PIndex /\ exists p', crash p' bs.
Proof.
  intros Hb. rewrite ifo_try_from. split.
  - destruct (asn1_try_from bs) as [a|p'] eqn:E; [discriminate|].
    apply try_from_panics in E; auto. assert (E' := E).
    apply crash_reason in E. destruct E as [-> | ->]; cbn [index_for_overflow]; intros [= <-]; eauto.
  - intros [-> [p' C]]. assert (C' := C). apply crash_reason in C.
    apply try_from_panics in C'; auto. rewrite C'. destruct C as [-> | ->]; reflexivity.
Qed.

(** ** Import of keys *)
Lemma ifo_from_be b : big_from_be_bytes b = index_for_overflow (big_from_be_bytes b).
Proof. unfold big_from_be_bytes. ifo. reflexivity. Qed.
#[export] Hint Resolve ifo_from_be : ifo.

Lemma ifo_private_from a : private_key_from_asn1 a = index_for_overflow (private_key_from_asn1 a).
Proof. unfold private_key_from_asn1. ifo. Qed.
Lemma ifo_public_from a : public_key_from_asn1 a = index_for_overflow (public_key_from_asn1 a).
Proof. unfold public_key_from_asn1. ifo. Qed.
#[export] Hint Resolve ifo_private_from ifo_public_from : ifo.

Lemma ifo_private_key p : @private_key_try_from release p = index_for_overflow (@private_key_try_from debug p).
Proof. unfold private_key_try_from, private_key_info_from_asn1. ifo. Qed.
Lemma ifo_public_key p : @public_key_try_from release p = index_for_overflow (@public_key_try_from debug p).
Proof. unfold public_key_try_from, subject_public_key_info_from_asn1. ifo. Qed.

(** ** Decryption of blocks: always the same *)
Lemma be_decrypt_same {S} n cipher (mode : cipher_mode S) st c :
  (forall st b st' o, length b = n -> cm_decrypt_block mode cipher st b = Ok (st', o) -> length o = n) ->
  @be_decrypt release S n cipher mode st c = @be_decrypt debug S n cipher mode st c.
Proof.
  intros Hlen. unfold be_decrypt. destruct n as [|n]; [reflexivity|].
  apply obind_ext. intros [blocks [|x r]]; [|reflexivity].
  match goal with |- obind (forO blocks ?f ?s) _ = _ => set (F := f); set (s0 := s) end.
  assert (Inv : forall bs s l r, (forall o, snd s = Some o -> length o = Datatypes.S n) ->
    forO bs F s = (l, Ok r) -> forall o, snd r = Some o -> length o = Datatypes.S n).
  { induction bs as [|b bs IH]; intros [t o1] l r Hs E o Ho; cbn [forO] in E.
    - injection E as <- <-. auto.
    - unfold F at 1 in E. cbn [obind olift oret oemit] in E.
      unfold to_array in E. destruct (Nat.eqb_spec (length b) (Datatypes.S n)) as [Lb|Lb]; cbn [obind] in E; [|discriminate].
      destruct (cm_decrypt_block mode cipher t b) as [[t' ob]|p] eqn:Ed; cbn [obind] in E; [|discriminate].
      assert (Lo : length ob = Datatypes.S n) by (eapply Hlen; eauto).
      destruct o1 as [o1|]; cbn [obind oemit oret] in E.
      + destruct (forO bs F (t', Some ob)) as [l2 r2] eqn:E2. injection E as <- ->.
        eapply (IH (t', Some ob)); eauto. cbn [snd]. intros o2 [= <-]. exact Lo.
      + destruct (forO bs F (t', Some ob)) as [l2 r2] eqn:E2. injection E as <- ->.
        eapply (IH (t', Some ob)); eauto. cbn [snd]. intros o2 [= <-]. exact Lo. }
  destruct (forO blocks F s0) as [l [[t o]|p]] eqn:E; cbn [obind]; [|reflexivity].
  destruct o as [o|]; cbn [obind olift unwrap]; [|reflexivity].
  assert (Lo : length o = Datatypes.S n).
  { apply (Inv blocks s0 l (t, Some o)); auto. unfold s0. discriminate. }
  now rewrite unpad_same by (auto; lia).
Qed.

(** ** Bits of a number *)
Lemma bits_used_release a : canonical a -> @bits_used release a = Ok (N.size (num a) mod 2 ^ 32).
Proof.
  intros H. change num with from_le.
  destruct (canonical_cases _ H) as [->|(l & b & -> & Hl & Hb & Hz)]; [reflexivity|].
  rewrite size_snoc by auto. unfold bits_used.
  clear H. destruct (l ++ [b]) as [|x y] eqn:E; [destruct l; discriminate|]. rewrite <- E. clear E x y.
  rewrite app_length. cbn [length]. rewrite nsub_ok by lia. cbn [bind].
  replace (length l + 1 - 1)%nat with (length l) by lia.
  rewrite (idx_nth _ _ 0) by (rewrite app_length; cbn [length]; lia).
  rewrite app_nth2, Nat.sub_diag by lia. cbn [nth].
  assert (A : forall x y, @cadd release 32 x y = Ok ((x + y) mod 2 ^ 32)).
  { intros x y. unfold cadd. destruct (N.ltb_spec (x + y) (2 ^ 32)); [|reflexivity].
    now rewrite N.mod_small. }
  assert (M : forall x y, @cmul release 32 x y = Ok ((x * y) mod 2 ^ 32)).
  { intros x y. unfold cmul. destruct (N.ltb_spec (x * y) (2 ^ 32)); [|reflexivity].
    now rewrite N.mod_small. }
  rewrite M. cbn [bind]. rewrite A. cbn [bind].
  unfold ilog2_u8. rewrite (proj2 (N.eqb_neq b 0) Hz). cbn [bind]. rewrite A. cbn [bind]. rewrite A.
  f_equal. rewrite N.add_0_l, N.mod_mod by discriminate.
  rewrite <- N.add_mod by discriminate.
  rewrite <- (N.add_mod_idemp_l ((N.of_nat (length l) mod 2 ^ 32) * 8)) by discriminate.
  rewrite N.mul_mod_idemp_l by discriminate.
  rewrite N.add_mod_idemp_l by discriminate. f_equal. lia.
Qed.

(** ** Messages *)
Lemma decrypt_message_release {E} capf key ct (ps : padding_scheme E) : sized capf key ->
  bytes ct -> allocates capf (length ct + 4) ->
  let v := rsa_power (be_num ct) (num (rsa_exponent key)) (num (rsa_modulo key)) in
  @decrypt_message release E capf key ct ps =
  if v <? 256 ^ N.of_nat (length ct)
  then (let* r := ps_decode ps [] (be_bytes (length ct) v) (length ct) in runwrap r)
  else Panic PIndex.
Proof.
  intros Hs Bc Ha v. destruct Hs as (Ce & Cn & N1 & Ke & Hal). unfold decrypt_message. cbv zeta.
  destruct (from_be_spec ct Bc) as (c & Ec & Cc & Vc). rewrite Ec. cbn [bind].
  assert (Lc' : (length c <= length ct)%nat).
  { apply be_num_canonical_length; auto. rewrite Vc. now apply be_num_lt. }
  destruct (rsa_encrypt_spec capf (Nat.max (length (rsa_modulo key)) (length ct) + 4) key c Ce Cn Cc N1 Ke) as (d & _ & E0 & C1 & V1);
    [lia|lia|destruct (Nat.max_spec (length (rsa_modulo key)) (length ct)) as [[_ ->]|[_ ->]]; auto|].
  assert (E1 : @rsa_decrypt release capf key c = Ok d) by (eapply agr_ok; eauto with agr).
  rewrite E1. cbn [bind]. rewrite Vc in V1. fold v in V1.
  destruct (to_be_minimal d C1) as (B1 & H1 & V2 & L2).
  rewrite repeat_length, L2.
  destruct (N.ltb_spec v (256 ^ N.of_nat (length ct))) as [L|L].
  - assert (Ld : (length d <= length ct)%nat) by (apply be_num_canonical_length; auto; lia).
    rewrite nsub_ok by auto. cbn [bind].
    rewrite copy_range_ok by (rewrite ?repeat_length; lia). cbn [bind].
    rewrite skipn_all2 by (rewrite repeat_length; lia). rewrite app_nil_r.
    assert (Ef : firstn (length ct - length d) (repeat 0 (length ct)) = repeat 0 (length ct - length d)).
    { replace (length ct) with ((length ct - length d) + length d)%nat at 2 by lia.
      rewrite repeat_app, firstn_app, repeat_length, Nat.sub_diag, firstn_O, app_nil_r.
      rewrite <- (repeat_length 0 (length ct - length d)) at 1. apply firstn_all. }
    rewrite Ef. clear Ef.
    set (x := repeat 0 (length ct - length d) ++ big_to_be_bytes d).
    assert (Lx : length x = length ct) by (unfold x; rewrite app_length, repeat_length, L2; lia).
    assert (Bx : bytes x).
    { apply Forall_app. split; auto. apply Forall_forall. intros y Hy. apply repeat_spec in Hy. now subst. }
    assert (Vx : be_num x = v) by (unfold x; rewrite be_num_zeros, V2; exact V1).
    rewrite Lx, <- Vx.
    replace (be_bytes (length ct) (be_num x)) with x by (rewrite <- Lx, be_bytes_num; auto).
    reflexivity.
  - assert (Lv : v < num (rsa_modulo key)) by (apply N.mod_lt; lia).
    assert (Ld : (length d <= length (rsa_modulo key))%nat).
    { apply be_num_canonical_length; auto. rewrite V1. apply N.lt_trans with (1 := Lv).
      apply from_le_lt. now apply canonical_bytes. }
    assert (Lm : N.of_nat (length (rsa_modulo key)) < 2 ^ 29).
    { destruct (Hal (length (rsa_modulo key)) ltac:(lia)) as [S1 S2]. unfold capacity_ok in S2.
      change (2 ^ 29) with 536870912 in *. lia. }
    assert (Lt : N.of_nat (length ct) < 2 ^ 29).
    { destruct (Ha (length ct) ltac:(lia)) as [S1 S2]. unfold capacity_ok in S2.
      change (2 ^ 29) with 536870912 in *. lia. }
    change (2 ^ 29) with 536870912 in *.
    destruct (nsub_wraps (length ct) (length d)) as (k & Ek & K).
    + destruct (le_lt_dec (length d) (length ct)) as [X|X]; [|auto].
      pose proof (from_le_lt d (canonical_bytes _ C1)) as U. change num with from_le in V1.
      assert (256 ^ N.of_nat (length d) <= 256 ^ N.of_nat (length ct)) by (apply N.pow_le_mono_r; lia). lia.
    + change (2 ^ 63) with 9223372036854775808. lia.
    + rewrite Ek. cbn [bind]. change (2 ^ 63) with 9223372036854775808 in K.
      unfold copy_range. destruct (Nat.leb_spec k (length ct)); [lia|]. reflexivity.
Qed.

(** ** Keys *)
Lemma csub_release_1 x : x < 2 ^ 128 -> @csub release 128 x 1 = Ok (minus1_u128 x).
Proof.
  intros H. unfold csub, minus1_u128. change (2 ^ 128) with 340282366920938463463374607431768211456 in *.
  destruct (N.leb_spec 1 x); cbn [overflow_checks release]; [|reflexivity]. f_equal.
  replace (x + 340282366920938463463374607431768211456 - 1)
    with (x - 1 + 1 * 340282366920938463463374607431768211456) by lia.
  rewrite N.mod_add by discriminate. now rewrite N.mod_small by lia.
Qed.

Lemma cmul_release x y : @cmul release 128 x y = Ok ((x * y) mod 2 ^ 128).
Proof.
  unfold cmul. destruct (N.ltb_spec (x * y) (2 ^ 128)); [|reflexivity]. now rewrite N.mod_small.
Qed.

Lemma create_keys_release p q e : canonical p -> canonical q -> canonical e ->
  num p < 2 ^ 128 -> num q < 2 ^ 128 -> num e < 2 ^ 128 ->
  let l := wrapped_lambda (num p) (num q) in
  (num p = 1 /\ num q = 1 -> @create_keys release p q e = Panic PDivZero) /\
  (num p <> 1 \/ num q <> 1 -> N.gcd (num e) l <> 1 -> @create_keys release p q e = Panic PUnwrap) /\
  (num p <> 1 \/ num q <> 1 -> N.gcd (num e) l = 1 ->
   exists n d, @create_keys release p q e =
      Ok ({| priv_n := n; priv_d := d |}, {| pub_n := n; pub_e := e |}) /\
    canonical n /\ canonical d /\ num n = wrapped_modulus (num p) (num q) /\
    (0 < l -> num d <= l /\ (num e * num d) mod l = 1 mod l) /\ (l = 0 -> num e = 1 /\ num d = 1)).
Proof.
  intros Cp Cq Ce Hp Hq He l.
  assert (M : forall x, x < 2 ^ 128 -> minus1_u128 x < 2 ^ 128) by (intros; now apply N.mod_lt).
  assert (M0 : forall x, x < 2 ^ 128 -> minus1_u128 x = 0 -> x = 1).
  { intros x Hx. unfold minus1_u128. change (2 ^ 128) with 340282366920938463463374607431768211456 in *.
    destruct (N.eq_dec x 0) as [->|]; [discriminate|].
    replace (x + 340282366920938463463374607431768211456 - 1)
      with (x - 1 + 1 * 340282366920938463463374607431768211456) by lia.
    rewrite N.mod_add by discriminate. rewrite N.mod_small by lia. lia. }
  assert (E : @create_keys release p q e =
    let a := minus1_u128 (num p) in let b := minus1_u128 (num q) in
    if N.gcd a b =? 0 then Panic PDivZero
    else
      let* d := @inverse release (num e) l in
      let* d := unwrap d in
      let* n := big_from_u128 (wrapped_modulus (num p) (num q)) in
      let* d := big_from_u128 d in
      let* e := big_from_u128 (num e) in
      Ok ({| priv_n := n; priv_d := d |}, {| pub_n := n; pub_e := e |})).
  { unfold create_keys. rewrite !as_u128_spec by auto.
    rewrite (proj2 (N.ltb_lt _ _) Hp), (proj2 (N.ltb_lt _ _) Hq), (proj2 (N.ltb_lt _ _) He).
    cbn [bind runwrap]. rewrite cmul_release. cbn [bind]. rewrite !csub_release_1 by auto. cbn [bind].
    unfold lcm. rewrite cmul_release. cbn [bind]. cbv zeta.
    destruct (N.gcd _ _ =? 0); reflexivity. }
  rewrite E. clear E. cbv zeta.
  assert (G0 : num p <> 1 \/ num q <> 1 -> N.gcd (minus1_u128 (num p)) (minus1_u128 (num q)) <> 0).
  { intros H G. apply N.gcd_eq_0 in G. destruct G as [G1 G2]. apply M0 in G1, G2; auto. lia. }
  split; [intros [-> ->]; reflexivity|].
  assert (Ll : l < 2 ^ 128).
  { unfold l, wrapped_lambda. destruct (N.eq_dec (N.gcd (minus1_u128 (num p)) (minus1_u128 (num q))) 0) as [->|G].
    - set (x := _ mod _). destruct x; reflexivity.
    - apply N.le_lt_trans with ((minus1_u128 (num p) * minus1_u128 (num q)) mod 2 ^ 128);
        [|apply N.mod_lt; discriminate].
      apply N.div_le_upper_bound; auto. nia. }
  destruct (N.eq_dec l 0) as [L0|L0].
  - rewrite L0, N.gcd_0_r.
    assert (I0 : @inverse release (num e) 0 = Ok (if num e =? 1 then Some 1 else None)).
    { eapply agr_ok; [apply agr_inverse|now apply inverse_zero]. }
    split; intros H G; specialize (G0 H); rewrite (proj2 (N.eqb_neq _ _) G0), I0; cbn [bind].
    + now rewrite (proj2 (N.eqb_neq _ _) G).
    + rewrite G. cbn [N.eqb Pos.eqb unwrap bind].
      destruct (from_u128_spec (wrapped_modulus (num p) (num q))) as (bn & En & Cn & Vn);
        [apply N.mod_lt; discriminate|]. rewrite En. cbn [bind].
      destruct (from_u128_spec 1 eq_refl) as (bd & Ed & Cd & Vd). rewrite Ed. cbn [bind].
      assert (bd = e) by (apply num_inj; auto; congruence). subst bd.
      exists bn, e. split; [reflexivity|]. split; [exact Cn|]. split; [exact Cd|]. split; [exact Vn|].
      split; [lia|]. auto.
  - destruct (inverse_release (num e) l He ltac:(lia)) as [I1 I2].
    split; intros H G; specialize (G0 H); rewrite (proj2 (N.eqb_neq _ _) G0).
    + rewrite (I1 G). reflexivity.
    + destruct (I2 G) as (d & Ed & Ld & Vd). rewrite Ed. cbn [bind unwrap].
      destruct (from_u128_spec (wrapped_modulus (num p) (num q))) as (bn & En & Cn & Vn);
        [apply N.mod_lt; discriminate|]. rewrite En. cbn [bind].
      destruct (from_u128_spec d) as (bd & Ebd & Cd & Vbd); [lia|]. rewrite Ebd. cbn [bind].
      destruct (from_u128_spec (num e) He) as (be & Ee & Cbe & Vbe). rewrite Ee. cbn [bind].
      assert (be = e) as -> by (apply num_inj; auto).
      exists bn, bd. split; [reflexivity|]. split; [exact Cn|]. split; [exact Cd|]. split; [exact Vn|].
      rewrite Vbd. split; [auto|]. lia.
Qed.

Lemma create_keys_release_not_u128 p q e : canonical p -> canonical q -> canonical e ->
  2 ^ 128 <= num p \/ 2 ^ 128 <= num q \/ 2 ^ 128 <= num e ->
  @create_keys release p q e = Panic PUnwrap.
Proof.
  intros Cp Cq Ce H. eapply agr_panic; [apply agr_create_keys|discriminate|now apply create_keys_not_u128].
Qed.

(** ** [inverse] with checks, for the large moduli *)
Lemma inverse_large_all a n : a < 2 ^ 128 -> 2 ^ 127 <= n < 2 ^ 128 ->
  (N.gcd a n <> 1 -> inverse a n = Ok None) /\
  (N.gcd a n = 1 -> exists d, d < n /\ (a * d) mod n = 1 /\
    inverse a n = if inverse_fits n d then Ok (Some d) else Panic POverflow).
Proof.
  intros Ha Hn. split; [now apply inverse_large_none|]. intros G.
  assert (N2 : 2 < n) by (apply N.lt_le_trans with (2 ^ 127); [reflexivity|apply Hn]).
  destruct (inverse_release a n Ha ltac:(lia)) as [_ I]. destruct (I G) as (d & _ & Ld & Vd).
  rewrite N.mod_1_l in Vd by lia.
  assert (d <> n). { intros ->. rewrite N.mod_mul in Vd by lia. lia. }
  exists d. split; [lia|]. split; [exact Vd|]. apply inverse_large; auto. lia.
Qed.

Lemma create_keys_large p q e : canonical p -> canonical q -> canonical e ->
  2 <= num p -> 2 <= num q -> num p * num q < 2 ^ 128 -> num e < 2 ^ 128 ->
  2 ^ 127 <= N.lcm (num p - 1) (num q - 1) ->
  let l := N.lcm (num p - 1) (num q - 1) in
  (N.gcd (num e) l <> 1 -> create_keys p q e = Panic PUnwrap) /\
  (N.gcd (num e) l = 1 -> exists v, v < l /\ (num e * v) mod l = 1 /\
    if inverse_fits l v
    then exists n d, create_keys p q e =
        Ok ({| priv_n := n; priv_d := d |}, {| pub_n := n; pub_e := e |}) /\
      canonical n /\ canonical d /\ num n = num p * num q /\ num d = v
    else create_keys p q e = Panic POverflow).
Proof.
  intros Cp Cq Ce Pp Pq Hn He Hl l.
  assert (Hp : num p < 2 ^ 128) by nia. assert (Hq : num q < 2 ^ 128) by nia.
  assert (Hl2 : l < 2 ^ 128).
  { apply N.le_lt_trans with ((num p - 1) * (num q - 1)); [|nia].
    unfold l, N.lcm. apply N.mul_le_mono_l.
    apply N.div_le_upper_bound; [rewrite N.gcd_eq_0; lia|].
    assert (N.gcd (num p - 1) (num q - 1) <> 0) by (rewrite N.gcd_eq_0; lia). nia. }
  assert (E : create_keys p q e =
      let* d := inverse (num e) l in
      let* d := unwrap d in
      let* n := big_from_u128 (num p * num q) in
      let* d := big_from_u128 d in
      let* e := big_from_u128 (num e) in
      Ok ({| priv_n := n; priv_d := d |}, {| pub_n := n; pub_e := e |})).
  { unfold create_keys. rewrite !as_u128_spec by auto.
    rewrite (proj2 (N.ltb_lt _ _) Hp), (proj2 (N.ltb_lt _ _) Hq), (proj2 (N.ltb_lt _ _) He).
    cbn [bind runwrap]. rewrite cmul_ok by auto. cbn [bind]. rewrite !csub_ok by lia. cbn [bind].
    rewrite lcm_ok by nia. reflexivity. }
  rewrite E. clear E.
  destruct (inverse_large_all (num e) l He (conj Hl Hl2)) as [I1 I2].
  split; intros G; [now rewrite (I1 G)|].
  destruct (I2 G) as (v & Lv & Vv & Ev). exists v. split; [exact Lv|]. split; [exact Vv|].
  rewrite Ev. destruct (inverse_fits l v); cbn [bind unwrap]; [|reflexivity].
  destruct (from_u128_spec (num p * num q) Hn) as (bn & En & Cn & Vn). rewrite En. cbn [bind].
  destruct (from_u128_spec v) as (bd & Ebd & Cd & Vbd); [lia|]. rewrite Ebd. cbn [bind].
  destruct (from_u128_spec (num e) He) as (be & Ee & Cbe & Vbe). rewrite Ee. cbn [bind].
  assert (be = e) as -> by (apply num_inj; auto).
  exists bn, bd. auto.
Qed.
