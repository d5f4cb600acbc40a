(** * Import of RSA keys *)
From Coq Require Import String ZifyBool ZifyNat ZifyN.
From Verif Require Import Base BaseLemmas ModelBig ModelRsa ModelPem ModelKey
  SpecEndian ProofEndian SpecBig ProofBig ProofBig2 ProofBig3 SpecText SpecPem SpecAsn1 SpecKey
  ProofAsn1 ProofBase64 ProofPem ProofOaep.
Local Open Scope N_scope.
Local Open Scope list_scope.
Ltac Zify.zify_post_hook ::= Z.div_mod_to_equations.

Lemma rsa_oid_ok : rsa_oid = rsa_encryption_oid.
Proof. vm_compute. reflexivity. Qed.
Lemma private_label_text : private_label = text "PRIVATE KEY". Proof. reflexivity. Qed.
Lemma public_label_text : public_label = text "PUBLIC KEY". Proof. reflexivity. Qed.

(** ** INTEGER contents *)

Lemma be_num_cons0 l : be_num (0 :: l) = be_num l.
Proof. reflexivity. Qed.

Lemma der_int_num n : be_num (der_int n) = n.
Proof.
  unfold der_int. assert (E : be_num (be_bytes (digits n) n) = n).
  { destruct (N.eq_dec n 0) as [->|Hn]; [reflexivity|]. apply be_num_be_bytes, digits_bound. lia. }
  destruct (hd 0 (be_bytes (digits n) n) <? 128); rewrite ?be_num_cons0; exact E.
Qed.

Lemma be_bytes_bytes k n : bytes (be_bytes k n).
Proof. rewrite <- to_be_be_bytes. apply to_be_bytes. Qed.

Lemma der_int_bytes n : bytes (der_int n).
Proof.
  unfold der_int. destruct (_ <? _); [apply be_bytes_bytes|].
  constructor; [reflexivity|apply be_bytes_bytes].
Qed.

Lemma hd_be_bytes n : 0 < n -> hd 0 (be_bytes (digits n) n) <> 0.
Proof.
  intros H. pose proof (digits_min n H) as Hm. pose proof (digits_bound n H) as Hb.
  assert (Hd : (0 < digits n)%nat) by (unfold digits; lia). revert Hm Hb Hd. generalize (digits n).
  intros [|k] Hm Hb Hd; [lia|]. unfold be_bytes. cbn [seq map hd].
  replace (S k - 1 - 0)%nat with k by lia. replace (S k - 1)%nat with k in Hm by lia.
  rewrite pow256_S in Hb. rewrite N.mod_small.
  - assert (1 <= n / 256 ^ N.of_nat k); [|lia]. apply N.div_le_lower_bound; [|lia].
    apply N.pow_nonzero. discriminate.
  - apply N.div_lt_upper_bound; [apply N.pow_nonzero; discriminate|]. lia.
Qed.

Lemma der_int_content n : ber_content 2 (der_int n).
Proof.
  split; [apply der_int_bytes|]. repeat split; try discriminate.
  - unfold der_int. destruct (_ <? _); [|discriminate]. intros E.
    apply (f_equal (@length N)) in E. rewrite be_bytes_length in E. unfold digits in E. discriminate.
  - intros (-> & Hy). unfold der_int in H0.
    destruct (hd 0 (be_bytes (digits n) n) <? 128) eqn:E.
    + destruct (N.eq_dec n 0) as [->|Hn]; [discriminate|]. apply (hd_be_bytes n); [lia|].
      now rewrite H0.
    + apply cons_inv in H0 as (_ & H0). rewrite H0 in E. cbn [hd] in E. lia.
  - intros (-> & Hy). unfold der_int in H0.
    destruct (hd 0 (be_bytes (digits n) n) <? 128) eqn:E.
    + rewrite H0 in E. discriminate.
    + apply cons_inv in H0 as (H0 & _). discriminate.
Qed.

(** ** Contents of parsed values are bytes *)

Lemma encodes_value :
  (forall a e, lax a e -> bytes e -> asn1_value a) /\
  (forall es e, lax_all es e -> bytes e -> Forall asn1_value es).
Proof.
  unfold lax, lax_all. apply encodes_mutind; intros.
  1-6: match goal with H : bytes (_ :: _) |- _ => inversion H as [|? ? ? Hb]; subst end;
    apply bytes_app in Hb as (Hb1 & Hb2).
  1,3,4,5: constructor; auto.
  - inversion Hb2; subst. constructor; auto.
  - constructor; auto.
  - constructor.
  - apply bytes_app in H3 as (Hb1 & Hb2). constructor; auto.
Qed.

Lemma lax_value a e : lax a e -> bytes e -> asn1_value a.
Proof. apply (proj1 encodes_value). Qed.

Lemma integers_value cs : asn1_value (Sequence (map Integer cs)) -> Forall bytes cs.
Proof.
  intros H. inversion H as [| | | | |? HF]; subst. clear H.
  induction cs as [|c cs IH]; constructor; inversion HF as [|? ? Hc HF']; subst; auto.
  now inversion Hc.
Qed.

(** ** Structures *)

Local Ltac cases H := repeat match type of H with
  | context [match ?x with _ => _ end] => is_var x; destruct x; try discriminate H
  end.

Definition big (c : list N) : list N := trim_trailing_zeroes (rev c).

Lemma private_from_ok v n e d p q dp dq qi :
  private_key_from_asn1 (rsa_private_key v n e d p q dp dq qi) =
  Ok (ROk {| apk_version := v; apk_modulus := big n; apk_public_exponent := big e;
             apk_private_exponent := big d; apk_prime1 := big p; apk_prime2 := big q;
             apk_exponent1 := big dp; apk_exponent2 := big dq; apk_coefficient := big qi |}).
Proof.
  unfold rsa_private_key, private_key_from_asn1. cbn [map length Nat.eqb negb].
  change (idx [v] 0) with (Ok v). rewrite !from_be_bytes_ok. reflexivity.
Qed.

Lemma private_from_inv a r : private_key_from_asn1 a = r ->
  (exists v n e d p q dp dq qi, a = rsa_private_key v n e d p q dp dq qi) \/
  exists err, r = Ok (RErr err).
Proof.
  intros <-. destruct a as [| | | | |seq]; try (right; eexists; reflexivity).
  unfold private_key_from_asn1.
  destruct (negb (length seq =? 9)%nat); [right; eexists; reflexivity|].
  do 9 (destruct seq as [|[?| | | | |] seq]; try (right; eexists; reflexivity)).
  destruct seq as [|? seq]; try (right; eexists; reflexivity).
  destruct bytes as [|v [|? ?]]; try (right; eexists; reflexivity).
  left. unfold rsa_private_key. cbn [map]. repeat eexists.
Qed.

Lemma public_from_ok n e :
  public_key_from_asn1 (rsa_public_key n e) = Ok (ROk (big n, big e)).
Proof.
  unfold rsa_public_key, public_key_from_asn1. cbn [map length Nat.eqb negb].
  rewrite !from_be_bytes_ok. reflexivity.
Qed.

Lemma public_from_inv a r : public_key_from_asn1 a = r ->
  (exists n e, a = rsa_public_key n e) \/ exists err, r = Ok (RErr err).
Proof.
  intros <-. destruct a as [| | | | |seq]; try (right; eexists; reflexivity).
  unfold public_key_from_asn1.
  destruct (negb (length seq =? 2)%nat); [right; eexists; reflexivity|].
  do 2 (destruct seq as [|[?| | | | |] seq]; try (right; eexists; reflexivity)).
  destruct seq as [|? seq]; try (right; eexists; reflexivity).
  left. unfold rsa_public_key. cbn [map]. repeat eexists.
Qed.

Lemma algorithm_inv a algo : algorithm_from_asn1 a = ROk algo -> bytes_eqb algo rsa_oid = true ->
  a = rsa_algorithm.
Proof.
  intros H E. apply bytes_eqb_spec in E. subst algo.
  destruct a as [| | | | |[|[| | | |o|] [|[| | | | |] [|? ?]]]]; try discriminate.
  injection H as ->. unfold rsa_algorithm. now rewrite rsa_oid_ok.
Qed.

Lemma algorithm_ok : algorithm_from_asn1 rsa_algorithm = ROk rsa_oid.
Proof. unfold rsa_algorithm. rewrite <- rsa_oid_ok. reflexivity. Qed.

Lemma rsa_oid_eqb : bytes_eqb rsa_oid rsa_oid = true. Proof. reflexivity. Qed.

(** What the parser of [PrivateKeyInfo] does. *)
Lemma info_ok key :
  private_key_info_from_asn1 (private_key_info key) =
  let* r := asn1_try_from key in
  match r with
  | RErr e => Ok (RErr (KInnerParse e))
  | ROk asn =>
      let* r := private_key_from_asn1 asn in
      match r with RErr e => Ok (RErr (KInner e)) | ROk pr => Ok (ROk pr) end
  end.
Proof.
  unfold private_key_info, private_key_info_from_asn1.
  change (idx [Integer [0]; rsa_algorithm; OctetString key] 0) with (Ok (Integer [0])).
  change (idx [Integer [0]; rsa_algorithm; OctetString key] 1) with (Ok rsa_algorithm).
  change (idx [Integer [0]; rsa_algorithm; OctetString key] 2) with (Ok (OctetString key)).
  cbn [length Nat.eqb negb bind is_integer_zero N.eqb]. rewrite algorithm_ok, rsa_oid_eqb. reflexivity.
Qed.

Lemma info_inv a r : private_key_info_from_asn1 a = r ->
  (exists key, a = private_key_info key) \/ exists err, r = Ok (RErr err).
Proof.
  intros <-. destruct a as [| | | | |seq]; try (right; eexists; reflexivity).
  unfold private_key_info_from_asn1.
  destruct seq as [|s0 [|s1 [|s2 [|? ?]]]]; cbn [length Nat.eqb negb]; try (right; eexists; reflexivity).
  change (idx [s0; s1; s2] 0) with (Ok s0). change (idx [s0; s1; s2] 1) with (Ok s1).
  change (idx [s0; s1; s2] 2) with (Ok s2). cbn [bind].
  destruct (is_integer_zero s0) eqn:E0; cbn [negb]; [|right; eexists; reflexivity].
  destruct (algorithm_from_asn1 s1) as [algo|] eqn:E1; [|right; eexists; reflexivity].
  destruct (bytes_eqb algo rsa_oid) eqn:E2; cbn [negb]; [|right; eexists; reflexivity].
  destruct s2; try (right; eexists; reflexivity).
  left. exists bytes. unfold private_key_info. apply algorithm_inv in E1; auto. subst s1.
  destruct s0 as [[|b [|? ?]]| | | | |]; try discriminate. cbn [is_integer_zero] in E0.
  apply N.eqb_eq in E0. now subst.
Qed.

Lemma spki_ok key :
  subject_public_key_info_from_asn1 (subject_public_key_info key) =
  let* r := asn1_try_from key in
  match r with
  | RErr e => Ok (RErr (KInnerParse e))
  | ROk asn =>
      let* r := public_key_from_asn1 asn in
      match r with RErr e => Ok (RErr (KInner e)) | ROk pb => Ok (ROk pb) end
  end.
Proof.
  unfold subject_public_key_info, subject_public_key_info_from_asn1.
  change (idx [rsa_algorithm; BitString key 0] 0) with (Ok rsa_algorithm).
  change (idx [rsa_algorithm; BitString key 0] 1) with (Ok (BitString key 0)).
  cbn [length Nat.eqb negb bind]. rewrite algorithm_ok, rsa_oid_eqb. reflexivity.
Qed.

Lemma spki_inv a r : subject_public_key_info_from_asn1 a = r ->
  (exists key, a = subject_public_key_info key) \/ exists err, r = Ok (RErr err).
Proof.
  intros <-. destruct a as [| | | | |seq]; try (right; eexists; reflexivity).
  unfold subject_public_key_info_from_asn1.
  destruct seq as [|s0 [|s1 [|? ?]]]; cbn [length Nat.eqb negb]; try (right; eexists; reflexivity).
  change (idx [s0; s1] 0) with (Ok s0). change (idx [s0; s1] 1) with (Ok s1). cbn [bind].
  destruct (algorithm_from_asn1 s0) as [algo|] eqn:E1; [|right; eexists; reflexivity].
  destruct (bytes_eqb algo rsa_oid) eqn:E2; cbn [negb]; [|right; eexists; reflexivity].
  destruct s1; try (right; eexists; reflexivity).
  destruct (N.eqb_spec unused 0) as [->|]; cbn [negb]; [|right; eexists; reflexivity].
  left. exists bytes. unfold subject_public_key_info. apply algorithm_inv in E1; auto. now subst s0.
Qed.

Lemma big_num c : bytes c -> canonical (big c) /\ num (big c) = be_num c.
Proof.
  intros H. destruct (from_be_spec c H) as (a & E & Ha & Hn).
  rewrite from_be_bytes_ok in E. apply Ok_inj in E. unfold big. now rewrite E.
Qed.

Lemma big_is c k : bytes c -> canonical k -> num k = be_num c -> k = big c.
Proof.
  intros H Hk Hn. destruct (big_num c H) as (H1 & H2). apply num_inj; auto. congruence.
Qed.

(** All nine fields of the inner structure. *)
Lemma private_fields_iff a k : asn1_value a ->
  private_key_from_asn1 a = Ok (ROk k) <->
  exists v n e d p q dp dq qi, a = rsa_private_key v n e d p q dp dq qi /\
    apk_version k = v /\ stands_for (apk_modulus k) n /\ stands_for (apk_public_exponent k) e /\
    stands_for (apk_private_exponent k) d /\ stands_for (apk_prime1 k) p /\ stands_for (apk_prime2 k) q /\
    stands_for (apk_exponent1 k) dp /\ stands_for (apk_exponent2 k) dq /\ stands_for (apk_coefficient k) qi.
Proof.
  intros Hv. split.
  - intros H. destruct (private_from_inv _ _ H) as [(v & n & e & d & p & q & dp & dq & qi & ->)|(err & E)]; [|discriminate].
    rewrite private_from_ok in H. injection H as <-. apply integers_value in Hv.
    exists v, n, e, d, p, q, dp, dq, qi. split; [reflexivity|]. rewrite Forall_forall in Hv.
    split; [reflexivity|]. cbn [apk_version apk_modulus apk_public_exponent apk_private_exponent apk_prime1
      apk_prime2 apk_exponent1 apk_exponent2 apk_coefficient].
    repeat apply conj.
    all: apply big_num, Hv; cbn [In]; auto 10.
  - intros (v & n & e & d & p & q & dp & dq & qi & -> & H). rewrite private_from_ok.
    apply integers_value in Hv. rewrite Forall_forall in Hv. destruct k as [k0 k1 k2 k3 k4 k5 k6 k7 k8].
    cbn [apk_version apk_modulus apk_public_exponent apk_private_exponent apk_prime1
      apk_prime2 apk_exponent1 apk_exponent2 apk_coefficient] in H.
    destruct H as (-> & (? & ?) & (? & ?) & (? & ?) & (? & ?) & (? & ?) & (? & ?) & (? & ?) & (? & ?)).
    do 3 f_equal; symmetry; apply big_is; auto; apply Hv; cbn [In]; auto 10.
Qed.

Lemma public_fields_iff a n' e' : asn1_value a ->
  public_key_from_asn1 a = Ok (ROk (n', e')) <->
  exists n e, a = rsa_public_key n e /\ stands_for n' n /\ stands_for e' e.
Proof.
  intros Hv. split.
  - intros H. destruct (public_from_inv _ _ H) as [(n & e & ->)|(err & E)]; [|discriminate].
    rewrite public_from_ok in H. injection H as <- <-. apply integers_value in Hv.
    exists n, e. split; [reflexivity|]. rewrite Forall_forall in Hv.
    split; apply big_num, Hv; cbn [In]; auto.
  - intros (n & e & -> & (? & ?) & (? & ?)). rewrite public_from_ok.
    apply integers_value in Hv. rewrite Forall_forall in Hv.
    do 3 f_equal; symmetry; apply big_is; auto; apply Hv; cbn [In]; auto.
Qed.

(** ** Import *)

Lemma info_key_bytes key data : lax (private_key_info key) data -> bytes data -> bytes key.
Proof.
  intros L Hb. apply lax_value in L; auto. inversion L as [| | | | |? HF]; subst.
  inversion HF as [|? ? _ HF1]; subst. inversion HF1 as [|? ? _ HF2]; subst.
  inversion HF2 as [|? ? Hv _]; subst. now inversion Hv.
Qed.

Lemma spki_key_bytes key data : lax (subject_public_key_info key) data -> bytes data -> bytes key.
Proof.
  intros L Hb. apply lax_value in L; auto. inversion L as [| | | | |? HF]; subst.
  inversion HF as [|? ? _ HF1]; subst.
  inversion HF1 as [|? ? Hv _]; subst. now inversion Hv.
Qed.

Lemma private_import_iff p k : bytes (pem_data p) ->
  private_key_try_from p = Ok (ROk k) <->
  pem_label p = text "PRIVATE KEY" /\ private_key_data (pem_data p) k.
Proof.
  intros Hb. unfold private_key_try_from. split.
  - intros H. destruct (str_eqb (pem_label p) private_label) eqn:El; cbn [negb] in H; [|discriminate].
    apply str_eqb_iff in El. split; [exact El|].
    apply bind_ok_inv in H as (r & Hr & H). destruct r as [asn|]; [|discriminate].
    apply try_from_iff in Hr; auto.
    apply bind_ok_inv in H as (r & Hi & H). destruct r as [kk|]; [|discriminate]. injection H as <-.
    destruct (info_inv _ _ Hi) as [(key & ->)|(err & E)]; [|discriminate].
    rewrite info_ok in Hi. apply bind_ok_inv in Hi as (r & Hk & Hi).
    destruct r as [asn|]; [|discriminate]. pose proof (info_key_bytes _ _ Hr Hb) as Hkb.
    apply try_from_iff in Hk; auto.
    apply bind_ok_inv in Hi as (r & Hp & Hi). destruct r as [pr|]; [|discriminate].
    injection Hi as ->.
    destruct (private_from_inv _ _ Hp) as [(v & n & e & d & pp & q & dp & dq & qi & ->)|(err & E)]; [|discriminate].
    rewrite private_from_ok in Hp. injection Hp as <-.
    exists key, v, n, e, d, pp, q, dp, dq, qi. cbn [priv_n priv_d apk_modulus apk_private_exponent].
    apply lax_value in Hk as Hv; auto. apply integers_value in Hv.
    assert (Hn : bytes n /\ bytes d).
    { rewrite Forall_forall in Hv. split; apply Hv; cbn [In]; auto 10. }
    unfold stands_for. destruct (big_num n), (big_num d); try apply Hn. auto 10.
  - intros (El & key & v & n & e & d & pp & q & dp & dq & qi & L1 & L2 & (C1 & N1) & (C2 & N2)).
    rewrite El. change (str_eqb (text "PRIVATE KEY") private_label) with true. cbn [negb].
    pose proof (info_key_bytes _ _ L1 Hb) as Hkb.
    apply lax_value in L2 as Hv; auto. apply integers_value in Hv.
    assert (Hn : bytes n /\ bytes d).
    { rewrite Forall_forall in Hv. split; apply Hv; cbn [In]; auto 10. }
    apply try_from_complete in L1, L2. rewrite L1. cbn [bind]. rewrite info_ok, L2. cbn [bind].
    rewrite private_from_ok. cbn [bind apk_modulus apk_private_exponent].
    destruct k as [kn kd]. cbn [priv_n priv_d] in *.
    rewrite (big_is n kn), (big_is d kd); auto; apply Hn.
Qed.

Lemma public_import_iff p k : bytes (pem_data p) ->
  public_key_try_from p = Ok (ROk k) <->
  pem_label p = text "PUBLIC KEY" /\ public_key_data (pem_data p) k.
Proof.
  intros Hb. unfold public_key_try_from. split.
  - intros H. destruct (str_eqb (pem_label p) public_label) eqn:El; cbn [negb] in H; [|discriminate].
    apply str_eqb_iff in El. split; [exact El|].
    apply bind_ok_inv in H as (r & Hr & H). destruct r as [asn|]; [|discriminate].
    apply try_from_iff in Hr; auto.
    apply bind_ok_inv in H as (r & Hi & H). destruct r as [[kn ke]|]; [|discriminate]. injection H as <-.
    destruct (spki_inv _ _ Hi) as [(key & ->)|(err & E)]; [|discriminate].
    rewrite spki_ok in Hi. apply bind_ok_inv in Hi as (r & Hk & Hi).
    destruct r as [asn|]; [|discriminate]. pose proof (spki_key_bytes _ _ Hr Hb) as Hkb.
    apply try_from_iff in Hk; auto.
    apply bind_ok_inv in Hi as (r & Hp & Hi). destruct r as [pr|]; [|discriminate].
    injection Hi as ->.
    destruct (public_from_inv _ _ Hp) as [(n & e & ->)|(err & E)]; [|discriminate].
    rewrite public_from_ok in Hp. injection Hp as <- <-.
    exists key, n, e. cbn [pub_n pub_e].
    apply lax_value in Hk as Hv; auto. apply integers_value in Hv.
    assert (Hn : bytes n /\ bytes e).
    { rewrite Forall_forall in Hv. split; apply Hv; cbn [In]; auto 10. }
    unfold stands_for. destruct (big_num n), (big_num e); try apply Hn. auto 10.
  - intros (El & key & n & e & L1 & L2 & (C1 & N1) & (C2 & N2)).
    rewrite El. change (str_eqb (text "PUBLIC KEY") public_label) with true. cbn [negb].
    pose proof (spki_key_bytes _ _ L1 Hb) as Hkb.
    apply lax_value in L2 as Hv; auto. apply integers_value in Hv.
    assert (Hn : bytes n /\ bytes e).
    { rewrite Forall_forall in Hv. split; apply Hv; cbn [In]; auto 10. }
    apply try_from_complete in L1, L2. rewrite L1. cbn [bind]. rewrite spki_ok, L2. cbn [bind].
    rewrite public_from_ok. cbn [bind].
    destruct k as [kn ke]. cbn [pub_n pub_e] in *.
    rewrite (big_is n kn), (big_is e ke); auto; apply Hn.
Qed.

(** Panics come from the ASN.1 parser only. *)
Lemma private_import_panic p r : bytes (pem_data p) ->
  private_key_try_from p = Panic r <->
  pem_label p = text "PRIVATE KEY" /\
  (crash r (pem_data p) \/
   exists key, lax (private_key_info key) (pem_data p) /\ crash r key).
Proof.
  intros Hb. unfold private_key_try_from. split.
  - intros H. destruct (str_eqb (pem_label p) private_label) eqn:El; cbn [negb] in H; [|discriminate].
    apply str_eqb_iff in El. split; [exact El|].
    apply bind_panic_inv in H as [H|(a & Ha & H)].
    { left. apply try_from_panics; eauto. }
    right. destruct a as [asn|]; [|discriminate]. apply try_from_iff in Ha; auto.
    apply bind_panic_inv in H as [H|(b & Hbb & H)]; [|destruct b; discriminate].
    destruct (info_inv _ _ H) as [(key & ->)|(err & E)]; [|discriminate].
    exists key. split; auto. rewrite info_ok in H. apply bind_panic_inv in H as [H|(b & Hbb & H)].
    { apply try_from_panics; eauto. eapply info_key_bytes; eauto. }
    destruct b as [asn|]; [|discriminate].
    apply bind_panic_inv in H as [H|(c & Hc & H)]; [|destruct c; discriminate].
    destruct (private_from_inv _ _ H) as [(v & n & e & d & pp & q & dp & dq & qi & ->)|(err & E)]; [|discriminate].
    rewrite private_from_ok in H. discriminate.
  - intros (El & H). rewrite El. change (str_eqb (text "PRIVATE KEY") private_label) with true. cbn [negb].
    destruct H as [H|(key & L & H)].
    + apply try_from_panics in H; auto. rewrite H. reflexivity.
    + pose proof (info_key_bytes _ _ L Hb) as Hkb.
      apply try_from_complete in L. rewrite L. cbn [bind]. rewrite info_ok.
      apply try_from_panics in H; auto. rewrite H. reflexivity.
Qed.

Lemma public_import_panic p r : bytes (pem_data p) ->
  public_key_try_from p = Panic r <->
  pem_label p = text "PUBLIC KEY" /\
  (crash r (pem_data p) \/
   exists key, lax (subject_public_key_info key) (pem_data p) /\ crash r key).
Proof.
  intros Hb. unfold public_key_try_from. split.
  - intros H. destruct (str_eqb (pem_label p) public_label) eqn:El; cbn [negb] in H; [|discriminate].
    apply str_eqb_iff in El. split; [exact El|].
    apply bind_panic_inv in H as [H|(a & Ha & H)].
    { left. apply try_from_panics; eauto. }
    right. destruct a as [asn|]; [|discriminate]. apply try_from_iff in Ha; auto.
    apply bind_panic_inv in H as [H|(b & Hbb & H)]; [|destruct b as [[]|]; discriminate].
    destruct (spki_inv _ _ H) as [(key & ->)|(err & E)]; [|discriminate].
    exists key. split; auto. rewrite spki_ok in H. apply bind_panic_inv in H as [H|(b & Hbb & H)].
    { apply try_from_panics; eauto. eapply spki_key_bytes; eauto. }
    destruct b as [asn|]; [|discriminate].
    apply bind_panic_inv in H as [H|(c & Hc & H)]; [|destruct c; discriminate].
    destruct (public_from_inv _ _ H) as [(n & e & ->)|(err & E)]; [|discriminate].
    rewrite public_from_ok in H. discriminate.
  - intros (El & H). rewrite El. change (str_eqb (text "PUBLIC KEY") public_label) with true. cbn [negb].
    destruct H as [H|(key & L & H)].
    + apply try_from_panics in H; auto. rewrite H. reflexivity.
    + pose proof (spki_key_bytes _ _ L Hb) as Hkb.
      apply try_from_complete in L. rewrite L. cbn [bind]. rewrite spki_ok.
      apply try_from_panics in H; auto. rewrite H. reflexivity.
Qed.

(** ** Exported keys *)

Lemma der_len_bytes n : n < 2 ^ 64 -> bytes (der_len n).
Proof. intros H. eapply lax_len_bytes, der_len_lax, H. Qed.

Lemma bytes_concat (ls : list (list N)) : Forall bytes ls -> bytes (concat ls).
Proof. unfold bytes. apply Forall_concat. Qed.

Lemma der_bytes a : asn1_value a -> size (der a) < 2 ^ 64 -> bytes (der a).
Proof.
  assert (W : forall t c, byte t -> bytes c -> size (tlv t c) < 2 ^ 64 -> bytes (tlv t c)).
  { intros t c Ht Hc Hs. unfold tlv in *. constructor; auto. apply bytes_app. split; auto.
    apply der_len_bytes. eapply N.lt_trans; [apply (size_tlv t)|exact Hs]. }
  induction a as [c|c|c u| |c|es IH] using asn1_nested_ind; cbn [der]; intros G H;
    inversion G; subst; apply W; auto; try reflexivity; try (constructor; auto).
  apply bytes_concat.
  assert (Hs : size (concat (map der es)) < 2 ^ 64)
    by (eapply N.lt_trans; [apply size_tlv|exact H]). clear H G.
  induction IH as [|a es Ha Hes IHs]; cbn [map concat] in *; [constructor|].
  match goal with H : Forall asn1_value _ |- _ => inversion H; subst end.
  rewrite size_app in Hs. constructor; [apply Ha; auto; lia|apply IHs; auto; lia].
Qed.

Lemma rsa_encryption_oid_bytes : bytes rsa_encryption_oid.
Proof. rewrite <- rsa_oid_ok. repeat constructor. Qed.

Lemma rsa_algorithm_value : asn1_value rsa_algorithm.
Proof. constructor. constructor; [constructor; apply rsa_encryption_oid_bytes|]. constructor; constructor. Qed.

Lemma size_sequence es e : In e es -> size (der e) < size (der (Sequence es)).
Proof.
  intros H. cbn [der]. eapply N.le_lt_trans; [|apply size_tlv].
  induction es as [|x es IH]; [destruct H|]. cbn [map concat]. rewrite size_app.
  destruct H as [->|H]; [lia|]. specialize (IH H). lia.
Qed.

Lemma private_inner_size key : size (der (private_key_info key)) < 2 ^ 64 -> size key < 2 ^ 64.
Proof.
  intros H. eapply N.lt_trans; [|exact H].
  eapply N.lt_trans; [apply (size_tlv 4)|].
  apply (size_sequence [Integer [0]; rsa_algorithm; OctetString key] (OctetString key)).
  cbn [In]. auto.
Qed.

Lemma public_inner_size key : size (der (subject_public_key_info key)) < 2 ^ 64 -> size key < 2 ^ 64.
Proof.
  intros H. eapply N.lt_trans; [|exact H].
  apply N.lt_trans with (size (0 :: key)); [unfold size; cbn [length]; lia|].
  eapply N.lt_trans; [apply (size_tlv 3)|].
  apply (size_sequence [rsa_algorithm; BitString key 0] (BitString key 0)).
  cbn [In]. auto.
Qed.

Lemma private_export n e d p q dp dq qi :
  size (private_key_der n e d p q dp dq qi) < 2 ^ 64 ->
  bytes (private_key_der n e d p q dp dq qi) /\
  exists k, private_key_try_from {| pem_label := text "PRIVATE KEY";
                                    pem_data := private_key_der n e d p q dp dq qi |} = Ok (ROk k) /\
    canonical (priv_n k) /\ num (priv_n k) = n /\ canonical (priv_d k) /\ num (priv_d k) = d.
Proof.
  intros Hs. unfold private_key_der in *.
  set (inner := rsa_private_key _ _ _ _ _ _ _ _ _) in *.
  pose proof (private_inner_size _ Hs) as Hi.
  assert (Hv : asn1_value inner).
  { constructor. cbn [map]. repeat (constructor; [constructor; first [apply der_int_bytes|repeat constructor]|]).
    constructor. }
  assert (Hb : bytes (der (private_key_info (der inner)))).
  { apply der_bytes; auto. constructor. constructor; [constructor; repeat constructor|].
    constructor; [apply rsa_algorithm_value|]. constructor; [|constructor]. constructor. now apply der_bytes. }
  split; auto.
  exists {| priv_n := big (der_int n); priv_d := big (der_int d) |}. cbn [priv_n priv_d].
  destruct (big_num _ (der_int_bytes n)) as (C1 & N1). destruct (big_num _ (der_int_bytes d)) as (C2 & N2).
  split; [|repeat split; auto; try (rewrite ?N1, ?N2; apply der_int_num); try apply C1; try apply C2].
  apply private_import_iff; auto. split; [reflexivity|]. cbn [pem_data].
  exists (der inner), 0, (der_int n), (der_int e), (der_int d), (der_int p), (der_int q), (der_int dp),
    (der_int dq), (der_int qi). cbn [priv_n priv_d].
  split; [now apply der_lax|]. split; [now apply der_lax|]. split; now split.
Qed.

Lemma public_export n e : size (public_key_der n e) < 2 ^ 64 ->
  bytes (public_key_der n e) /\
  exists k, public_key_try_from {| pem_label := text "PUBLIC KEY";
                                   pem_data := public_key_der n e |} = Ok (ROk k) /\
    canonical (pub_n k) /\ num (pub_n k) = n /\ canonical (pub_e k) /\ num (pub_e k) = e.
Proof.
  intros Hs. unfold public_key_der in *.
  set (inner := rsa_public_key _ _) in *.
  pose proof (public_inner_size _ Hs) as Hi.
  assert (Hv : asn1_value inner).
  { constructor. cbn [map]. repeat (constructor; [constructor; apply der_int_bytes|]). constructor. }
  assert (Hb : bytes (der (subject_public_key_info (der inner)))).
  { apply der_bytes; auto. constructor.
    constructor; [apply rsa_algorithm_value|]. constructor; [|constructor].
    constructor; [now apply der_bytes|reflexivity]. }
  split; auto.
  exists {| pub_n := big (der_int n); pub_e := big (der_int e) |}. cbn [pub_n pub_e].
  destruct (big_num _ (der_int_bytes n)) as (C1 & N1). destruct (big_num _ (der_int_bytes e)) as (C2 & N2).
  split; [|repeat split; auto; try (rewrite ?N1, ?N2; apply der_int_num); try apply C1; try apply C2].
  apply public_import_iff; auto. split; [reflexivity|]. cbn [pem_data].
  exists (der inner), (der_int n), (der_int e). cbn [pub_n pub_e].
  split; [now apply der_lax|]. split; [now apply der_lax|]. split; now split.
Qed.

(** From the text of a key file. *)
Lemma private_text n e d p q dp dq qi s :
  size (private_key_der n e d p q dp dq qi) < 2 ^ 64 ->
  pem_text s (text "PRIVATE KEY") (private_key_der n e d p q dp dq qi) ->
  exists k, import_private s = Ok (Some k) /\
    canonical (priv_n k) /\ num (priv_n k) = n /\ canonical (priv_d k) /\ num (priv_d k) = d.
Proof.
  intros Hs Ht. destruct (private_export n e d p q dp dq qi Hs) as (_ & k & E & H).
  exists k. split; [|exact H]. unfold import_private. apply decode_iff in Ht. rewrite Ht, E. reflexivity.
Qed.

Lemma public_text n e s :
  size (public_key_der n e) < 2 ^ 64 ->
  pem_text s (text "PUBLIC KEY") (public_key_der n e) ->
  exists k, import_public s = Ok (Some k) /\
    canonical (pub_n k) /\ num (pub_n k) = n /\ canonical (pub_e k) /\ num (pub_e k) = e.
Proof.
  intros Hs Ht. destruct (public_export n e Hs) as (_ & k & E & H).
  exists k. split; [|exact H]. unfold import_public. apply decode_iff in Ht. rewrite Ht, E. reflexivity.
Qed.
