(** * Error messages and [Debug] output *)
From Coq Require Import String Decimal DecimalN DecimalFacts ZifyBool ZifyNat ZifyN.
From Verif Require Import Base BaseLemmas ModelBig ModelRsa ModelPem ModelKey ModelMessage
  SpecText SpecAsn1 SpecKey SpecMessage ProofKey ProofKeyErr.
Local Open Scope N_scope.
Local Open Scope list_scope.

(** ** Decimal numerals *)

Definition digit (c : N) : Prop := 48 <= c <= 57.

Lemma digits_digit d : Forall digit (decimal_chars d).
Proof. induction d; cbn [decimal_chars]; constructor; auto; split; discriminate. Qed.

Lemma digits_value_pos d : forall p,
  fold_left (fun v c => 10 * v + (c - 48)) (decimal_chars d) (N.pos p) = N.pos (Pos.of_uint_acc d p).
Proof.
  induction d; intros p; cbn [decimal_chars fold_left Pos.of_uint_acc]; [reflexivity|..];
    rewrite <- IHd; f_equal; lia.
Qed.

Lemma digits_value d : numeral_value (decimal_chars d) = N.of_uint d.
Proof.
  unfold numeral_value, N.of_uint.
  induction d; cbn [decimal_chars fold_left Pos.of_uint]; [reflexivity|exact IHd|..];
    rewrite <- digits_value_pos; reflexivity.
Qed.

Lemma show_numeral n : numeral n (show n).
Proof.
  unfold show. pose proof (Unsigned.to_of (N.to_uint n)) as E. rewrite Unsigned.of_to in E.
  repeat split.
  - apply digits_digit.
  - rewrite E. unfold unorm. destruct (nzhead (N.to_uint n)); discriminate.
  - rewrite E. unfold unorm. destruct (nzhead (N.to_uint n)) eqn:Z; cbn; try discriminate; auto.
    exfalso. eapply nzhead_nonzero, Z.
  - now rewrite digits_value, Unsigned.of_to.
Qed.

(** A text that does not start with a digit. *)
Definition stop (r : list N) : Prop := match r with [] => True | c :: _ => ~ digit c end.

Lemma digit_split a : forall b r s, Forall digit a -> Forall digit b -> stop r -> stop s ->
  a ++ r = b ++ s -> a = b /\ r = s.
Proof.
  induction a as [|x a IH]; intros [|y b] r s Ha Hb Hr Hs E; cbn [app] in E.
  - auto.
  - subst r. exfalso. apply Hr. now inversion Hb.
  - subst s. exfalso. apply Hs. now inversion Ha.
  - injection E as -> E. inversion Ha; inversion Hb; subst.
    destruct (IH b r s) as [-> ->]; auto.
Qed.

Lemma show_split m n r s : stop r -> stop s -> show m ++ r = show n ++ s -> m = n /\ r = s.
Proof.
  intros Hr Hs E.
  apply digit_split in E; auto; try apply digits_digit.
  destruct E as [E ->]. split; [|reflexivity].
  destruct (show_numeral m) as (_ & _ & _ & <-), (show_numeral n) as (_ & _ & _ & <-). now rewrite E.
Qed.

Lemma show_inj m n : show m = show n -> m = n.
Proof.
  intros E. apply (show_split m n [] []); cbn; auto. now rewrite !app_nil_r.
Qed.

Lemma show_cons n : exists c r, show n = c :: r /\ digit c.
Proof.
  destruct (show_numeral n) as (D & Hn & _). destruct (show n) as [|c r]; [congruence|].
  inversion D; subst. eauto.
Qed.

(** ** Lists *)

Lemma list_split {A} (f : A -> list N) (ok : A -> Prop) :
  (forall x y r s, ok x -> match r with c :: _ => c = 44 \/ c = 93 | [] => False end ->
     match s with c :: _ => c = 44 \/ c = 93 | [] => False end -> f x ++ r = f y ++ s -> x = y /\ r = s) ->
  (forall x, exists c r, f x = c :: r /\ c <> 93) ->
  forall l, Forall ok l -> forall l' r s,
  debug_list (map f l) ++ r = debug_list (map f l') ++ s -> l = l' /\ r = s.
Proof.
  intros Hf Hc.
  assert (T : forall l, Forall ok l -> forall l' r s,
      flat_map (fun y => lit ", " ++ y) (map f l) ++ lit "]" ++ r =
      flat_map (fun y => lit ", " ++ y) (map f l') ++ lit "]" ++ s -> l = l' /\ r = s).
  { induction l as [|x l IH]; intros Hl [|y l'] r s E; cbn [map flat_map] in E.
    - now injection E.
    - discriminate E.
    - discriminate E.
    - rewrite <- !app_assoc in E. apply app_inv_head in E. inversion Hl; subst.
      apply Hf in E; auto.
      + destruct E as [-> E]. apply IH in E; auto. now destruct E as [-> ->].
      + destruct l; cbn; auto.
      + destruct l'; cbn; auto. }
  intros l Hl l' r s E. unfold debug_list in E. rewrite <- !app_assoc in E. apply app_inv_head in E.
  destruct l as [|x l], l' as [|y l']; cbn [map] in E.
  - now injection E.
  - destruct (Hc y) as (c & t & F & N). rewrite F in E. cbn in E. injection E as E _. now destruct N.
  - destruct (Hc x) as (c & t & F & N). rewrite F in E. cbn in E. injection E as E _. now destruct N.
  - rewrite <- !app_assoc in E. inversion Hl; subst.
    apply Hf in E; auto.
    + destruct E as [-> E]. apply T in E; auto. now destruct E as [-> ->].
    + destruct l; cbn; auto.
    + destruct l'; cbn; auto.
Qed.

Lemma bytes_split l l' r s : debug_bytes l ++ r = debug_bytes l' ++ s -> l = l' /\ r = s.
Proof.
  apply (list_split show (fun _ => True)).
  - intros x y r0 s0 _ Hr Hs E. apply show_split in E; auto.
    + destruct r0; [easy|]. unfold stop, digit. lia.
    + destruct s0; [easy|]. unfold stop, digit. lia.
  - intros x. destruct (show_cons x) as (c & t & F & D). exists c, t. split; [exact F|].
    unfold digit in D. lia.
  - now apply Forall_forall.
Qed.

(** ** Texts that differ *)

Fixpoint diverge (p q : list N) : bool :=
  match p, q with
  | x :: p', y :: q' => negb (x =? y) || diverge p' q'
  | _, _ => false
  end.
Lemma diverge_app p : forall q r s, diverge p q = true -> p ++ r <> q ++ s.
Proof.
  induction p as [|x p IH]; intros [|y q] r s H E; try discriminate.
  cbn in H, E. injection E as -> E. rewrite N.eqb_refl in H. now apply (IH q r s).
Qed.
Lemma diverge_nil p q s : diverge p q = true -> p <> q ++ s.
Proof. intros H E. apply (diverge_app p q [] s H). now rewrite app_nil_r. Qed.
Lemma diverge_nil' p q r : diverge p q = true -> p ++ r <> q.
Proof. intros H E. apply (diverge_app p q r [] H). now rewrite app_nil_r. Qed.
Lemma diverge_neq p q : diverge p q = true -> p <> q.
Proof. intros H ->. induction q as [|x q IH]; [discriminate|]. cbn in H. rewrite N.eqb_refl in H. auto. Qed.

Ltac differ E := exfalso; revert E;
  first [apply diverge_app; reflexivity | apply diverge_nil; reflexivity
        | apply diverge_nil'; reflexivity | apply diverge_neq; reflexivity].

(** ** ASN.1 values *)

Fixpoint asn1_size (a : asn1) : nat :=
  match a with
  | Sequence es => S (fold_right (fun a n => asn1_size a + n)%nat O es)
  | _ => O
  end.

Lemma debug_cons a : exists c r, debug_asn1 a = c :: r /\ c <> 93.
Proof. destruct a; cbn; eexists; eexists; (split; [reflexivity|discriminate]). Qed.

Lemma asn1_split_fuel n : forall a b r s, (asn1_size a < n)%nat ->
  debug_asn1 a ++ r = debug_asn1 b ++ s -> a = b /\ r = s.
Proof.
  induction n as [|n IH]; [lia|].
  intros a b r s Hn E.
  destruct a as [c|c|c u| |c|es], b as [c'|c'|c' u'| |c'|es'];
    cbn [debug_asn1] in E; rewrite <- ?app_assoc in E; try (differ E).
  - apply app_inv_head, bytes_split in E. destruct E as [-> E]. now apply app_inv_head in E as ->.
  - apply app_inv_head, bytes_split in E. destruct E as [-> E]. now apply app_inv_head in E as ->.
  - apply app_inv_head, bytes_split in E. destruct E as [-> E]. apply app_inv_head in E.
    apply show_split in E; [|cbn; unfold digit; lia..]. destruct E as [-> E].
    now apply app_inv_head in E as ->.
  - now apply app_inv_head in E as ->.
  - apply app_inv_head, bytes_split in E. destruct E as [-> E]. now apply app_inv_head in E as ->.
  - apply app_inv_head in E.
    apply (list_split debug_asn1 (fun a => asn1_size a < n)%nat) in E.
    + destruct E as [-> E]. now apply app_inv_head in E as ->.
    + intros x y r0 s0 Hx _ _. apply IH. exact Hx.
    + exact debug_cons.
    + cbn [asn1_size] in Hn. clear - Hn. revert Hn.
      induction es as [|a es IH]; cbn [fold_right]; intros Hn; constructor; [lia|]. apply IH. lia.
Qed.

Lemma debug_asn1_split a b r s : debug_asn1 a ++ r = debug_asn1 b ++ s -> a = b /\ r = s.
Proof. apply (asn1_split_fuel (S (asn1_size a))). lia. Qed.

Lemma debug_asn1_inj a b : debug_asn1 a = debug_asn1 b -> a = b.
Proof. intros E. apply (debug_asn1_split a b [] []). now rewrite !app_nil_r. Qed.

Lemma debug_big_split x y r s : debug_big x ++ r = debug_big y ++ s -> x = y /\ r = s.
Proof.
  unfold debug_big. rewrite <- !app_assoc. intros E. apply app_inv_head, bytes_split in E.
  destruct E as [-> E]. now apply app_inv_head in E as ->.
Qed.

Lemma debug_private_inj k k' : debug_private_key k = debug_private_key k' -> k = k'.
Proof.
  unfold debug_private_key. intros E. apply app_inv_head, debug_big_split in E. destruct E as [En E].
  apply app_inv_head, debug_big_split in E. destruct E as [Ed _].
  destruct k, k'; cbn in *; now subst.
Qed.
Lemma debug_public_inj k k' : debug_public_key k = debug_public_key k' -> k = k'.
Proof.
  unfold debug_public_key. intros E. apply app_inv_head, debug_big_split in E. destruct E as [En E].
  apply app_inv_head, debug_big_split in E. destruct E as [Ed _].
  destruct k, k'; cbn in *; now subst.
Qed.
Lemma debug_hash_inj h h' : debug_hash h = debug_hash h' -> h = h'.
Proof. unfold debug_hash. intros E. apply app_inv_head, bytes_split in E. tauto. Qed.

(** ** Errors *)

Lemma asn1_message_inj e : forall e', asn1_message e = asn1_message e' -> e = e'.
Proof.
  induction e as [|t x y|e IH|t|]; intros [|t' x' y'|e'|t'|] E; cbn [asn1_message] in E; try (differ E);
    try reflexivity.
  - apply app_inv_head, show_split in E; [|cbn; unfold digit; lia..]. destruct E as [-> E].
    apply app_inv_head, show_split in E; [|cbn; unfold digit; lia..]. destruct E as [-> E].
    apply app_inv_head, show_inj in E. apply Nat2N.inj in E. now subst.
  - apply app_inv_head in E. f_equal. auto.
  - apply app_inv_head, show_inj in E. now subst.
Qed.

(** The errors that the import of a private key can report. *)
Inductive private_error : key_error -> Prop :=
| pe_label : private_error NotPrivateKeyLabel
| pe_parse e : private_error (KParse e)
| pe_sequence a : private_error (KNotSequence a)
| pe_elements : private_error KElements
| pe_version : private_error KVersion
| pe_algorithm_sequence : private_error KAlgorithmSequence
| pe_algorithm : private_error KAlgorithm
| pe_rsa : private_error KNotRsa
| pe_octet : private_error KNotOctetString
| pe_inner_parse e : private_error (KInnerParse e)
| pe_inner_sequence a : private_error (KInner (KNotSequence a))
| pe_inner_elements : private_error (KInner KElements)
| pe_inner_integers : private_error (KInner KIntegers)
| pe_inner_version : private_error (KInner KVersionField).

Inductive public_error : key_error -> Prop :=
| be_label : public_error NotPublicKeyLabel
| be_parse e : public_error (KParse e)
| be_sequence a : public_error (KNotSequence a)
| be_elements : public_error KElements
| be_algorithm_sequence : public_error KAlgorithmSequence
| be_algorithm : public_error KAlgorithm
| be_rsa : public_error KNotRsa
| be_bits : public_error KNotBitString
| be_unused : public_error KUnusedBits
| be_inner_parse e : public_error (KInnerParse e)
| be_inner_sequence a : public_error (KInner (KNotSequence a))
| be_inner_elements : public_error (KInner KElements)
| be_inner_integers : public_error (KInner KIntegers).

Lemma private_error_of p e : bytes (pem_data p) -> private_key_try_from p = Ok (RErr e) -> private_error e.
Proof.
  intros B H. apply private_import_error in H; [|exact B]. unfold pem_defect in H.
  destruct (list_eq_dec _ _ _) as [_|_].
  - destruct H as [(e' & -> & _)|(a & _ & D)]; [constructor|].
    destruct D as [| | |e alg key D| | |e key b _ D]; try constructor; destruct D; constructor.
  - subst e. constructor.
Qed.
Lemma public_error_of p e : bytes (pem_data p) -> public_key_try_from p = Ok (RErr e) -> public_error e.
Proof.
  intros B H. apply public_import_error in H; [|exact B]. unfold pem_defect in H.
  destruct (list_eq_dec _ _ _) as [_|_].
  - destruct H as [(e' & -> & _)|(a & _ & D)]; [constructor|].
    destruct D as [| |e alg key D| | | |e key b _ D]; try constructor; destruct D; constructor.
  - subst e. constructor.
Qed.

(** The part of an ASN.1 message that does not depend on numbers. *)
Definition asn1_head (e : asn1_error) : list N :=
  match e with
  | TagNoLength => lit "tag had no length"
  | TooLittleData _ _ _ => lit "tag ("
  | InSequence _ => lit "failed to parse sequence: "
  | UnknownTag _ => lit "unknown tag: "
  | ExtraBytes => lit "extra bytes at the end"
  end.
Lemma asn1_message_head e : exists r, asn1_message e = asn1_head e ++ r.
Proof.
  destruct e; cbn [asn1_message asn1_head]; eauto; exists []; now rewrite app_nil_r.
Qed.

Ltac heads E :=
  repeat match type of E with
  | context [asn1_message ?e] =>
      let r := fresh "r" in let H := fresh "H" in
      destruct (asn1_message_head e) as [r H]; rewrite H in E; clear H; destruct e; cbn [asn1_head] in E
  end.

Lemma private_message_inj e e' : private_error e -> private_error e' ->
  private_import_message e = private_import_message e' -> e = e'.
Proof.
  intros H H' E.
  destruct H, H'; cbn [private_import_message private_key_message] in E; unfold not_sequence_message in E;
    try reflexivity;
    try (apply asn1_message_inj in E; now subst);
    try (heads E; differ E);
    try (apply app_inv_head in E; apply asn1_message_inj in E; now subst);
    try (apply app_inv_head in E; apply debug_asn1_inj in E; now subst);
    try (apply app_inv_head in E; apply app_inv_head in E; apply debug_asn1_inj in E; now subst);
    try (apply app_inv_head in E; differ E).
Qed.
Lemma public_message_inj e e' : public_error e -> public_error e' ->
  public_import_message e = public_import_message e' -> e = e'.
Proof.
  intros H H' E.
  destruct H, H'; cbn [public_import_message public_key_message] in E; unfold not_sequence_message in E;
    try reflexivity;
    try (apply asn1_message_inj in E; now subst);
    try (heads E; differ E);
    try (apply app_inv_head in E; apply asn1_message_inj in E; now subst);
    try (apply app_inv_head in E; apply debug_asn1_inj in E; now subst);
    try (apply app_inv_head in E; apply app_inv_head in E; apply debug_asn1_inj in E; now subst);
    try (apply app_inv_head in E; differ E).
Qed.

Lemma private_message_error p p' e e' : bytes (pem_data p) -> bytes (pem_data p') ->
  private_key_try_from p = Ok (RErr e) -> private_key_try_from p' = Ok (RErr e') ->
  private_import_message e = private_import_message e' -> e = e'.
Proof. intros B B' H H'. apply private_message_inj; eauto using private_error_of. Qed.
Lemma public_message_error p p' e e' : bytes (pem_data p) -> bytes (pem_data p') ->
  public_key_try_from p = Ok (RErr e) -> public_key_try_from p' = Ok (RErr e') ->
  public_import_message e = public_import_message e' -> e = e'.
Proof. intros B B' H H'. apply public_message_inj; eauto using public_error_of. Qed.

(** ** What the messages disclose *)

Lemma private_leak_outer p a : pem_label p = text "PRIVATE KEY" -> asn1_try_from (pem_data p) = Ok (ROk a) ->
  (forall es, a <> Sequence es) ->
  exists e, private_key_try_from p = Ok (RErr e) /\
    private_import_message e =
      text "expected content to be wrapped in a sequence tag, but found tag " ++ debug_asn1 a.
Proof.
  intros L A Hs. exists (KNotSequence a). split; [|reflexivity].
  unfold private_key_try_from. rewrite L, A.
  change (str_eqb (text "PRIVATE KEY") private_label) with true. cbn [negb bind].
  destruct a; try reflexivity. now destruct (Hs elements).
Qed.

Lemma private_leak_inner p key a : pem_label p = text "PRIVATE KEY" ->
  asn1_try_from (pem_data p) = Ok (ROk (private_key_info key)) ->
  asn1_try_from key = Ok (ROk a) -> (forall es, a <> Sequence es) ->
  exists e, private_key_try_from p = Ok (RErr e) /\
    private_import_message e =
      text "failed to extract private key from ASN.1: expected content to be wrapped in a sequence tag, but found tag "
      ++ debug_asn1 a.
Proof.
  intros L A K Hs. exists (KInner (KNotSequence a)). split; [|reflexivity].
  unfold private_key_try_from. rewrite L, A.
  change (str_eqb (text "PRIVATE KEY") private_label) with true. cbn [negb bind].
  assert (I : private_key_info_from_asn1 (private_key_info key) =
    let* r := asn1_try_from key in
    match r with
    | RErr e => Ok (RErr (KInnerParse e))
    | ROk asn => let* r := private_key_from_asn1 asn in
                 match r with RErr e => Ok (RErr (KInner e)) | ROk pr => Ok (ROk pr) end
    end) by reflexivity.
  rewrite I, K. cbn [bind]. destruct a; try reflexivity. now destruct (Hs elements).
Qed.

Lemma debug_octets bs : debug_asn1 (OctetString bs) = text "OctetString(" ++ debug_bytes bs ++ text ")".
Proof. reflexivity. Qed.

(** Only that error prints a list. *)
Lemma show_no_list n : ~ In 91 (show n).
Proof.
  intros H. destruct (show_numeral n) as (D & _). rewrite Forall_forall in D. specialize (D _ H). lia.
Qed.
Lemma asn1_message_no_list e : ~ In 91 (asn1_message e).
Proof.
  assert (L : forall s, existsb (N.eqb 91) (lit s) = false -> ~ In 91 (lit s)).
  { intros s H I. assert (existsb (N.eqb 91) (lit s) = true) by (apply existsb_exists; exists 91; auto). congruence. }
  induction e; cbn [asn1_message]; rewrite ?in_app_iff; intros H;
    repeat match type of H with _ \/ _ => destruct H as [H|H] end;
    try (now apply show_no_list in H); try contradiction;
    revert H; apply L; reflexivity.
Qed.
Lemma private_list_printed e : In 91 (private_import_message e) ->
  exists a, e = KNotSequence a \/ e = KInner (KNotSequence a).
Proof.
  assert (L : forall s, existsb (N.eqb 91) (lit s) = false -> ~ In 91 (lit s)).
  { intros s H I. assert (existsb (N.eqb 91) (lit s) = true) by (apply existsb_exists; exists 91; auto). congruence. }
  intros H. destruct e as [| |e|a| | | | | | | | |e|e| |]; cbn [private_import_message] in H;
    try (exfalso; revert H; apply L; reflexivity); try (now destruct H); eauto.
  - now apply asn1_message_no_list in H.
  - apply in_app_or in H. destruct H as [H|H]; [|now apply asn1_message_no_list in H].
    exfalso; revert H; apply L; reflexivity.
  - apply in_app_or in H. destruct H as [H|H].
    { exfalso; revert H; apply L; reflexivity. }
    destruct e; cbn [private_key_message] in H; eauto; try (now destruct H);
      exfalso; revert H; apply L; reflexivity.
Qed.

Lemma public_list_printed e : In 91 (public_import_message e) ->
  exists a, e = KNotSequence a \/ e = KInner (KNotSequence a).
Proof.
  assert (L : forall s, existsb (N.eqb 91) (lit s) = false -> ~ In 91 (lit s)).
  { intros s H I. assert (existsb (N.eqb 91) (lit s) = true) by (apply existsb_exists; exists 91; auto). congruence. }
  intros H. destruct e as [| |e|a| | | | | | | | |e|e| |]; cbn [public_import_message] in H;
    try (exfalso; revert H; apply L; reflexivity); try (now destruct H); eauto.
  - now apply asn1_message_no_list in H.
  - apply in_app_or in H. destruct H as [H|H]; [|now apply asn1_message_no_list in H].
    exfalso; revert H; apply L; reflexivity.
  - apply in_app_or in H. destruct H as [H|H].
    { exfalso; revert H; apply L; reflexivity. }
    destruct e; cbn [public_key_message] in H; eauto; try (now destruct H);
      exfalso; revert H; apply L; reflexivity.
Qed.
Lemma other_lists_printed :
  (forall e, ~ In 91 (asn1_message e)) /\ (forall e m, pem_message e = Some m -> ~ In 91 m) /\
  (forall e, ~ In 91 (unwrap_message e)).
Proof.
  assert (L : forall l, existsb (N.eqb 91) l = false -> ~ In 91 l).
  { intros s H I. assert (existsb (N.eqb 91) s = true) by (apply existsb_exists; exists 91; auto). congruence. }
  split; [exact asn1_message_no_list|]. split.
  - intros e m E. destruct e; cbn [pem_message] in E; try discriminate E; injection E as <-; apply L; reflexivity.
  - intros e. destruct e; apply L; reflexivity.
Qed.

Lemma unwrap_message_inj e e' : unwrap_message e = unwrap_message e' -> e = e'.
Proof.
  unfold unwrap_message. intros E. apply app_inv_head, app_inv_head in E.
  destruct e, e'; try reflexivity; differ E.
Qed.

Lemma pem_message_inj e e' : pem_message e = pem_message e' -> e = e'.
Proof. intros E. destruct e, e'; try reflexivity; discriminate E. Qed.

Lemma debug_texts :
  (forall l, debug_bytes l = text "[" ++ List.concat (List.map show (firstn 1 l)) ++
     List.concat (List.map (fun b => text ", " ++ show b) (skipn 1 l)) ++ text "]") /\
  (forall n d, debug_private_key {| priv_n := n; priv_d := d |} =
     text "PrivateKey { n: BigUint { bytes: " ++ debug_bytes n ++ text " }, d: BigUint { bytes: " ++ debug_bytes d ++ text " } }") /\
  (forall n e, debug_public_key {| pub_n := n; pub_e := e |} =
     text "PublicKey { n: BigUint { bytes: " ++ debug_bytes n ++ text " }, e: BigUint { bytes: " ++ debug_bytes e ++ text " } }") /\
  (forall h, debug_hash h = text "HashValue(" ++ debug_bytes h ++ text ")") /\
  (forall l, debug_asn1 (Integer l) = text "Integer(" ++ debug_bytes l ++ text ")") /\
  (forall l, debug_asn1 (OctetString l) = text "OctetString(" ++ debug_bytes l ++ text ")") /\
  (forall l u, debug_asn1 (BitString l u) = text "BitString(" ++ debug_bytes l ++ text ", " ++ show u ++ text ")") /\
  debug_asn1 Null = text "Null" /\
  (forall l, debug_asn1 (ObjectIdentifier l) = text "ObjectIdentifier(" ++ debug_bytes l ++ text ")") /\
  (forall e es, debug_asn1 (Sequence (e :: es)) = text "Sequence([" ++ debug_asn1 e ++
     List.concat (List.map (fun x => text ", " ++ debug_asn1 x) es) ++ text "])") /\
  debug_asn1 (Sequence []) = text "Sequence([])".
Proof.
  split.
  { intros [|b l]; [reflexivity|]. unfold debug_bytes, debug_list. cbn [map firstn skipn List.concat].
    rewrite flat_map_concat_map, map_map, app_nil_r, <- app_assoc. reflexivity. }
  split. { intros n d. unfold debug_private_key, debug_big. cbn [priv_n priv_d]. now rewrite <- !app_assoc. }
  split. { intros n d. unfold debug_public_key, debug_big. cbn [pub_n pub_e]. now rewrite <- !app_assoc. }
  do 6 (split; [reflexivity|]). split; [|reflexivity].
  intros e es. cbn [debug_asn1 map]. unfold debug_list. rewrite flat_map_concat_map, map_map, <- !app_assoc. reflexivity.
Qed.
