(** * Errors of the key import *)
From Coq Require Import String ZifyBool ZifyNat ZifyN.
From Verif Require Import Base BaseLemmas ModelBig ModelRsa ModelPem ModelKey
  SpecEndian SpecBig ProofBig2 ProofBig3 SpecText SpecPem SpecAsn1 SpecKey ProofAsn1 ProofPem ProofOaep ProofKey.
Local Open Scope N_scope.
Local Open Scope list_scope.

Lemma integers_dec es : {cs | es = map Integer cs} + {forall cs, es <> map Integer cs}.
Proof.
  induction es as [|a es [(cs & ->)|IH]].
  - left. now exists [].
  - destruct a as [c|c|c u| |c|l]; [left; now exists (c :: cs)|right|right|right|right|right];
      intros [|x cs'] E; discriminate.
  - right. intros [|x cs] E; [discriminate|]. injection E as _ E. now apply (IH cs).
Qed.

Lemma not_sequence a : (forall es, a <> Sequence es) \/ exists es, a = Sequence es.
Proof. destruct a as [c|c|c u| |c|l]; eauto; left; discriminate. Qed.

Lemma private_from_defect a e :
  private_key_from_asn1 a = Ok (RErr e) <-> rsa_private_key_defect e a.
Proof.
  split.
  - destruct (not_sequence a) as [Hs|(es & ->)].
    { intros H. replace e with (KNotSequence a); [now constructor|].
      destruct a; try (now injection H). exfalso. now apply (Hs elements). }
    unfold private_key_from_asn1. destruct (Nat.eqb_spec (length es) 9) as [L|L]; cbn [negb].
    2:{ intros [= <-]. now constructor. }
    destruct (integers_dec es) as [(cs & ->)|Hn].
    + rewrite map_length in L. do 9 (destruct cs as [|? cs]; [discriminate L|]).
      destruct cs; [|discriminate L]. cbn [map].
      destruct (Nat.eqb_spec (length l) 1) as [Lv|Lv]; cbn [negb].
      * destruct l as [|v [|? ?]]; try discriminate Lv. change (idx [v] 0) with (Ok v).
        rewrite !from_be_bytes_ok. discriminate.
      * intros [= <-]. apply (pd_version l [l0; l1; l2; l3; l4; l5; l6; l7]); auto.
    + intros H. replace e with KIntegers; [now constructor|]. revert H.
      do 9 (destruct es as [|[?| | | | |] es]; try discriminate L; try (now intros [= <-])).
      destruct es; [|discriminate L]. exfalso.
      now apply (Hn [bytes; bytes0; bytes1; bytes2; bytes3; bytes4; bytes5; bytes6; bytes7]).
  - intros [a' Hs|es L|es L Hn|v cs L Lv].
    + destruct a'; try reflexivity. exfalso. now apply (Hs elements).
    + unfold private_key_from_asn1. apply Nat.eqb_neq in L. now rewrite L.
    + unfold private_key_from_asn1. rewrite L. cbn [Nat.eqb negb].
      do 9 (destruct es as [|[?| | | | |] es]; try discriminate L; try reflexivity).
      destruct es; [|discriminate L]. exfalso.
      now apply (Hn [bytes; bytes0; bytes1; bytes2; bytes3; bytes4; bytes5; bytes6; bytes7]).
    + do 8 (destruct cs as [|? cs]; [discriminate L|]). destruct cs; [|discriminate L].
      unfold private_key_from_asn1. cbn [map length Nat.eqb negb]. apply Nat.eqb_neq in Lv. now rewrite Lv.
Qed.

Lemma public_from_defect a e :
  public_key_from_asn1 a = Ok (RErr e) <-> rsa_public_key_defect e a.
Proof.
  split.
  - destruct (not_sequence a) as [Hs|(es & ->)].
    { intros H. replace e with (KNotSequence a); [now constructor|].
      destruct a; try (now injection H). exfalso. now apply (Hs elements). }
    unfold public_key_from_asn1. destruct (Nat.eqb_spec (length es) 2) as [L|L]; cbn [negb].
    2:{ intros [= <-]. now constructor. }
    destruct (integers_dec es) as [(cs & ->)|Hn].
    + rewrite map_length in L. do 2 (destruct cs as [|? cs]; [discriminate L|]).
      destruct cs; [|discriminate L]. cbn [map]. rewrite !from_be_bytes_ok. discriminate.
    + intros H. replace e with KIntegers; [now constructor|]. revert H.
      do 2 (destruct es as [|[?| | | | |] es]; try discriminate L; try (now intros [= <-])).
      destruct es; [|discriminate L]. exfalso. now apply (Hn [bytes; bytes0]).
  - intros [a' Hs|es L|es L Hn].
    + destruct a'; try reflexivity. exfalso. now apply (Hs elements).
    + unfold public_key_from_asn1. apply Nat.eqb_neq in L. now rewrite L.
    + unfold public_key_from_asn1. rewrite L. cbn [Nat.eqb negb].
      do 2 (destruct es as [|[?| | | | |] es]; try discriminate L; try reflexivity).
      destruct es; [|discriminate L]. exfalso. now apply (Hn [bytes; bytes0]).
Qed.

(** The check of the algorithm. *)
Definition algorithm_check (a : asn1) : option key_error :=
  match algorithm_from_asn1 a with
  | RErr e => Some e
  | ROk algo => if negb (bytes_eqb algo rsa_oid) then Some KNotRsa else None
  end.

Lemma algorithm_check_some a e : algorithm_check a = Some e <-> algorithm_defect e a.
Proof.
  unfold algorithm_check. split.
  - destruct (not_sequence a) as [Hs|(es & ->)].
    { intros H. replace e with KAlgorithmSequence; [now constructor|].
      destruct a; try (now injection H). exfalso. now apply (Hs elements). }
    destruct es as [|[| | | |o|] [|[| | | | |] [|? ?]]]; cbn [algorithm_from_asn1];
      try (intros [= <-]; constructor; intros o'; discriminate).
    destruct (bytes_eqb o rsa_oid) eqn:E; cbn [negb]; [discriminate|]. intros [= <-].
    constructor. intros ->. rewrite <- rsa_oid_ok in E. now rewrite rsa_oid_eqb in E.
  - intros [a' Hs|es Hn|o Ho].
    + destruct a'; try reflexivity. exfalso. now apply (Hs elements).
    + destruct es as [|[| | | |o|] [|[| | | | |] [|? ?]]]; try reflexivity. exfalso. now apply (Hn o).
    + cbn [algorithm_from_asn1]. destruct (bytes_eqb o rsa_oid) eqn:E; [|reflexivity].
      apply bytes_eqb_spec in E. rewrite rsa_oid_ok in E. congruence.
Qed.

Lemma algorithm_check_none a : algorithm_check a = None -> a = rsa_algorithm.
Proof.
  unfold algorithm_check. destruct (algorithm_from_asn1 a) as [algo|] eqn:E; [|discriminate].
  destruct (bytes_eqb algo rsa_oid) eqn:E2; [|discriminate]. intros _. eapply algorithm_inv; eauto.
Qed.

Lemma info_defect a e : asn1_value a ->
  private_key_info_from_asn1 a = Ok (RErr e) <-> private_key_info_defect e a.
Proof.
  intros Hv. split.
  - destruct (not_sequence a) as [Hs|(es & ->)].
    { intros H. replace e with (KNotSequence a); [now constructor|].
      destruct a; try (now injection H). exfalso. now apply (Hs elements). }
    destruct (Nat.eqb_spec (length es) 3) as [L|L].
    2:{ unfold private_key_info_from_asn1. apply Nat.eqb_neq in L as L'. rewrite L'. cbn [negb].
        intros [= <-]. now constructor. }
    destruct es as [|s0 [|s1 [|s2 [|? ?]]]]; try discriminate L.
    destruct (algorithm_check s1) as [e'|] eqn:Ec.
    + intros H. unfold private_key_info_from_asn1 in H. cbn [length Nat.eqb negb] in H.
      change (idx [s0; s1; s2] 0) with (Ok s0) in H. change (idx [s0; s1; s2] 1) with (Ok s1) in H.
      cbn [bind] in H. destruct (is_integer_zero s0) eqn:E0; cbn [negb] in H.
      * destruct s0 as [[|b [|? ?]]| | | | |]; try discriminate E0. apply N.eqb_eq in E0. subst b.
        assert (X : e = e').
        { unfold algorithm_check in Ec. destruct (algorithm_from_asn1 s1); [|congruence].
          destruct (negb (bytes_eqb a rsa_oid)); congruence. }
        subst e'. constructor. now apply algorithm_check_some.
      * injection H as <-. constructor. intros ->. discriminate.
    + apply algorithm_check_none in Ec. subst s1. intros H.
      destruct (is_integer_zero s0) eqn:E0.
      2:{ unfold private_key_info_from_asn1 in H. cbn [length Nat.eqb negb] in H.
          change (idx [s0; rsa_algorithm; s2] 0) with (Ok s0) in H. cbn [bind] in H.
          rewrite E0 in H. injection H as <-. constructor. intros ->. discriminate. }
      destruct s0 as [[|b [|? ?]]| | | | |]; try discriminate E0. apply N.eqb_eq in E0. subst b.
      assert (Hb : forall k, s2 = OctetString k -> bytes k).
      { intros k ->. inversion Hv as [| | | | |? HF]; subst. inversion HF as [|? ? _ HF1]; subst.
        inversion HF1 as [|? ? _ HF2]; subst. inversion HF2 as [|? ? Hk _]; subst. now inversion Hk. }
      assert (X : (forall k, s2 <> OctetString k) \/ exists k, s2 = OctetString k)
        by (destruct s2; eauto; left; discriminate).
      destruct X as [X|(k & ->)].
      * replace e with KNotOctetString; [now constructor|].
        unfold private_key_info_from_asn1 in H. cbn [length Nat.eqb negb] in H.
        change (idx [Integer [0]; rsa_algorithm; s2] 0) with (Ok (Integer [0])) in H.
        change (idx [Integer [0]; rsa_algorithm; s2] 1) with (Ok rsa_algorithm) in H.
        change (idx [Integer [0]; rsa_algorithm; s2] 2) with (Ok s2) in H.
        cbn [bind is_integer_zero negb N.eqb] in H. rewrite algorithm_ok, rsa_oid_eqb in H.
        destruct s2; cbn [negb] in H; try (now injection H). exfalso. now apply (X bytes).
      * specialize (Hb k eq_refl). fold (private_key_info k) in H |- *.
        rewrite info_ok in H.
        destruct (asn1_try_from k) as [[asn|e']|] eqn:Ek; try discriminate; cbn [bind] in H.
        -- apply try_from_iff in Ek; auto.
           destruct (private_key_from_asn1 asn) as [[pr|e']|] eqn:Ep; try discriminate.
           injection H as <-. apply (pi_key e' k asn); auto. now apply private_from_defect.
        -- injection H as <-. apply pi_parse. now apply try_from_errors.
  - intros H. destruct H as [a Hs|es L|v alg key Hn|e alg key Ha|key Hn|e key Hr|e key a L Hd].
    + destruct a; try reflexivity. exfalso. now apply (Hs elements).
    + unfold private_key_info_from_asn1. apply Nat.eqb_neq in L. now rewrite L.
    + unfold private_key_info_from_asn1. cbn [length Nat.eqb negb].
      change (idx [v; alg; key] 0) with (Ok v). cbn [bind].
      destruct (is_integer_zero v) eqn:E0; [|reflexivity]. exfalso.
      destruct v as [[|b [|? ?]]| | | | |]; try discriminate E0. apply N.eqb_eq in E0. now subst b.
    + unfold private_key_info_from_asn1. cbn [length Nat.eqb negb].
      change (idx [Integer [0]; alg; key] 0) with (Ok (Integer [0])).
      change (idx [Integer [0]; alg; key] 1) with (Ok alg). cbn [bind is_integer_zero negb N.eqb].
      apply algorithm_check_some in Ha. unfold algorithm_check in Ha.
      destruct (algorithm_from_asn1 alg); [|congruence].
      destruct (negb (bytes_eqb a rsa_oid)); congruence.
    + unfold private_key_info_from_asn1. cbn [length Nat.eqb negb].
      change (idx [Integer [0]; rsa_algorithm; key] 0) with (Ok (Integer [0])).
      change (idx [Integer [0]; rsa_algorithm; key] 1) with (Ok rsa_algorithm).
      change (idx [Integer [0]; rsa_algorithm; key] 2) with (Ok key).
      cbn [bind is_integer_zero negb N.eqb]. rewrite algorithm_ok, rsa_oid_eqb. cbn [negb].
      destruct key; try reflexivity. exfalso. now apply (Hn bytes).
    + rewrite info_ok. apply try_from_errors in Hr.
      * rewrite Hr. reflexivity.
      * inversion Hv as [| | | | |? HF]; subst. inversion HF as [|? ? _ HF1]; subst.
        inversion HF1 as [|? ? _ HF2]; subst. inversion HF2 as [|? ? Hk _]; subst. now inversion Hk.
    + rewrite info_ok. apply try_from_complete in L. rewrite L. cbn [bind].
      apply private_from_defect in Hd. now rewrite Hd.
Qed.

Lemma spki_defect a e : asn1_value a ->
  subject_public_key_info_from_asn1 a = Ok (RErr e) <-> subject_public_key_info_defect e a.
Proof.
  intros Hv. split.
  - destruct (not_sequence a) as [Hs|(es & ->)].
    { intros H. replace e with (KNotSequence a); [now constructor|].
      destruct a; try (now injection H). exfalso. now apply (Hs elements). }
    destruct (Nat.eqb_spec (length es) 2) as [L|L].
    2:{ unfold subject_public_key_info_from_asn1. apply Nat.eqb_neq in L as L'. rewrite L'. cbn [negb].
        intros [= <-]. now constructor. }
    destruct es as [|s1 [|s2 [|? ?]]]; try discriminate L.
    destruct (algorithm_check s1) as [e'|] eqn:Ec.
    + intros H. unfold subject_public_key_info_from_asn1 in H. cbn [length Nat.eqb negb] in H.
      change (idx [s1; s2] 0) with (Ok s1) in H. cbn [bind] in H.
      assert (X : e = e').
      { unfold algorithm_check in Ec. destruct (algorithm_from_asn1 s1); [|congruence].
        destruct (negb (bytes_eqb a rsa_oid)); congruence. }
      subst e'. constructor. now apply algorithm_check_some.
    + apply algorithm_check_none in Ec. subst s1. intros H.
      assert (Hb : forall k u, s2 = BitString k u -> bytes k).
      { intros k u ->. inversion Hv as [| | | | |? HF]; subst. inversion HF as [|? ? _ HF1]; subst.
        inversion HF1 as [|? ? Hk _]; subst. now inversion Hk. }
      assert (X : (forall k u, s2 <> BitString k u) \/ exists k u, s2 = BitString k u)
        by (destruct s2; eauto; left; discriminate).
      destruct X as [X|(k & u & ->)].
      * replace e with KNotBitString; [now constructor|].
        unfold subject_public_key_info_from_asn1 in H. cbn [length Nat.eqb negb] in H.
        change (idx [rsa_algorithm; s2] 0) with (Ok rsa_algorithm) in H.
        change (idx [rsa_algorithm; s2] 1) with (Ok s2) in H.
        cbn [bind] in H. rewrite algorithm_ok, rsa_oid_eqb in H.
        destruct s2; cbn [negb] in H; try (now injection H). exfalso. now apply (X bytes unused).
      * specialize (Hb k u eq_refl). destruct (N.eq_dec u 0) as [->|Hu].
        2:{ unfold subject_public_key_info_from_asn1 in H. cbn [length Nat.eqb negb] in H.
            change (idx [rsa_algorithm; BitString k u] 0) with (Ok rsa_algorithm) in H.
            change (idx [rsa_algorithm; BitString k u] 1) with (Ok (BitString k u)) in H.
            cbn [bind] in H. rewrite algorithm_ok, rsa_oid_eqb in H. cbn [negb] in H.
            apply N.eqb_neq in Hu as Hu'. rewrite Hu' in H. injection H as <-. now constructor. }
        fold (subject_public_key_info k) in H |- *. rewrite spki_ok in H.
        destruct (asn1_try_from k) as [[asn|e']|] eqn:Ek; try discriminate; cbn [bind] in H.
        -- apply try_from_iff in Ek; auto.
           destruct (public_key_from_asn1 asn) as [[pr|e']|] eqn:Ep; try discriminate.
           injection H as <-. apply (si_key e' k asn); auto. now apply public_from_defect.
        -- injection H as <-. apply si_parse. now apply try_from_errors.
  - intros H. destruct H as [a Hs|es L|e alg key Ha|key Hn|k u Hu|e key Hr|e key a L Hd].
    + destruct a; try reflexivity. exfalso. now apply (Hs elements).
    + unfold subject_public_key_info_from_asn1. apply Nat.eqb_neq in L. now rewrite L.
    + unfold subject_public_key_info_from_asn1. cbn [length Nat.eqb negb].
      change (idx [alg; key] 0) with (Ok alg). cbn [bind].
      apply algorithm_check_some in Ha. unfold algorithm_check in Ha.
      destruct (algorithm_from_asn1 alg); [|congruence].
      destruct (negb (bytes_eqb a rsa_oid)); congruence.
    + unfold subject_public_key_info_from_asn1. cbn [length Nat.eqb negb].
      change (idx [rsa_algorithm; key] 0) with (Ok rsa_algorithm).
      change (idx [rsa_algorithm; key] 1) with (Ok key).
      cbn [bind]. rewrite algorithm_ok, rsa_oid_eqb. cbn [negb].
      destruct key; try reflexivity. exfalso. now apply (Hn bytes unused).
    + unfold subject_public_key_info_from_asn1. cbn [length Nat.eqb negb].
      change (idx [rsa_algorithm; BitString k u] 0) with (Ok rsa_algorithm).
      change (idx [rsa_algorithm; BitString k u] 1) with (Ok (BitString k u)).
      cbn [bind]. rewrite algorithm_ok, rsa_oid_eqb. cbn [negb].
      apply N.eqb_neq in Hu. now rewrite Hu.
    + rewrite spki_ok. apply try_from_errors in Hr.
      * rewrite Hr. reflexivity.
      * inversion Hv as [| | | | |? HF]; subst. inversion HF as [|? ? _ HF1]; subst.
        inversion HF1 as [|? ? Hk _]; subst. now inversion Hk.
    + rewrite spki_ok. apply try_from_complete in L. rewrite L. cbn [bind].
      apply public_from_defect in Hd. now rewrite Hd.
Qed.

Lemma private_import_error p e : bytes (pem_data p) ->
  private_key_try_from p = Ok (RErr e) <->
  pem_defect (text "PRIVATE KEY") NotPrivateKeyLabel private_key_info_defect e p.
Proof.
  intros Hb. unfold private_key_try_from, pem_defect.
  destruct (list_eq_dec N.eq_dec (pem_label p) (text "PRIVATE KEY")) as [El|El].
  2:{ destruct (str_eqb (pem_label p) private_label) eqn:E; cbn [negb].
      - apply str_eqb_iff in E. contradiction.
      - split; [now intros [= <-]|now intros ->]. }
  rewrite El. change (str_eqb (text "PRIVATE KEY") private_label) with true. cbn [negb]. split.
  - destruct (asn1_try_from (pem_data p)) as [[a|e']|] eqn:Ek; try discriminate; cbn [bind]; intros H.
    + right. apply try_from_iff in Ek; auto. exists a. split; auto.
      destruct (private_key_info_from_asn1 a) as [[pr|e']|] eqn:Ep; try discriminate.
      cbn [bind] in H. injection H as ->. apply info_defect; auto. eapply lax_value; eauto.
    + injection H as <-. left. exists e'. split; auto. now apply try_from_errors.
  - intros [(e' & -> & Hr)|(a & L & Hd)].
    + apply try_from_errors in Hr; auto. rewrite Hr. reflexivity.
    + apply info_defect in Hd; [|eapply lax_value; eauto].
      apply try_from_complete in L. rewrite L. cbn [bind]. now rewrite Hd.
Qed.

Lemma public_import_error p e : bytes (pem_data p) ->
  public_key_try_from p = Ok (RErr e) <->
  pem_defect (text "PUBLIC KEY") NotPublicKeyLabel subject_public_key_info_defect e p.
Proof.
  intros Hb. unfold public_key_try_from, pem_defect.
  destruct (list_eq_dec N.eq_dec (pem_label p) (text "PUBLIC KEY")) as [El|El].
  2:{ destruct (str_eqb (pem_label p) public_label) eqn:E; cbn [negb].
      - apply str_eqb_iff in E. contradiction.
      - split; [now intros [= <-]|now intros ->]. }
  rewrite El. change (str_eqb (text "PUBLIC KEY") public_label) with true. cbn [negb]. split.
  - destruct (asn1_try_from (pem_data p)) as [[a|e']|] eqn:Ek; try discriminate; cbn [bind]; intros H.
    + right. apply try_from_iff in Ek; auto. exists a. split; auto.
      destruct (subject_public_key_info_from_asn1 a) as [[[n' e0]|e']|] eqn:Ep; try discriminate.
      cbn [bind] in H. injection H as ->. apply spki_defect; auto. eapply lax_value; eauto.
    + injection H as <-. left. exists e'. split; auto. now apply try_from_errors.
  - intros [(e' & -> & Hr)|(a & L & Hd)].
    + apply try_from_errors in Hr; auto. rewrite Hr. reflexivity.
    + apply spki_defect in Hd; [|eapply lax_value; eauto].
      apply try_from_complete in L. rewrite L. cbn [bind]. now rewrite Hd.
Qed.
