(** * C135: how many ciphertexts decrypt_message accepts *)
From Verif Require Import Base BaseLemmas ModelSha ModelBig ModelRsa SpecEndian SpecBig SpecRsa SpecOaep
  SpecMsg SpecAccept ProofEndian ProofBig ProofRsaMath ProofRsa ProofOaep ProofSha ProofMsg ProofAccept ProofAcceptOaep.
From Coq Require Import ZifyBool ZifyNat ZifyN.
Local Open Scope N_scope.
Local Open Scope list_scope.

Lemma accepted_below n em m : canonical n -> n <> [] -> block (length n) em ->
  ps_decode rsa_padding [] em (length n) = Ok (ROk m) -> be_num em < num n.
Proof.
  intros C Hne (L & B) E. destruct (modulus_length n C Hne) as (_ & Bn & _).
  destruct em as [|x em]; [destruct n; [easy|discriminate L]|].
  destruct (N.eq_dec x 0) as [->|Hx].
  - rewrite be_num_zero_cons. inversion B; subst. pose proof (ProofMsg.be_num_lt em ltac:(auto)) as Lt.
    cbn [length] in L. replace (length n - 1)%nat with (length em) in Bn by lia. lia.
  - cbn [ps_decode rsa_padding] in E. rewrite oaep_decode_first_byte in E by exact Hx. discriminate E.
Qed.

Lemma number_decrypt_message capf p q enc dec : matching p q enc dec -> sized capf dec ->
  let k := length (rsa_modulo dec) in
  number_of (fun ct => block k ct /\ be_num ct < num (rsa_modulo dec) /\
                       exists m, decrypt_message capf dec ct rsa_padding = Ok m)
            (2 ^ 256 * ((256 ^ N.of_nat (k - 65) - 1) / 255)).
Proof.
  intros (Pp & Pq & Hne & Hmod & Hn & Hk) Sd k.
  pose proof (sized_nonempty _ _ Sd) as Nn. pose proof (sized_small _ _ Sd) as Sm. fold k in Sm.
  assert (Cn : canonical (rsa_modulo dec)) by apply Sd. rewrite Hmod in Hn.
  assert (Hk' : key_pair p q (num (rsa_exponent dec)) (num (rsa_exponent enc))).
  { unfold key_pair in *. now rewrite N.mul_comm. }
  set (e := num (rsa_exponent enc)) in *. set (d := num (rsa_exponent dec)) in *.
  set (n := rsa_modulo dec) in *.
  assert (Bd : forall v x, rsa_power v x (num n) < 256 ^ N.of_nat k) by (intros; now apply rsa_power_bound).
  assert (Bn : forall v x, rsa_power v x (num n) < num n).
  { intros. unfold rsa_power. apply N.mod_lt. pose proof (canonical_val_pos n Cn Nn). change num with from_le. lia. }
  assert (R1 : forall v, v < num n -> rsa_power (rsa_power v e (num n)) d (num n) = v).
  { intros v Hv. rewrite Hn in *. rewrite rsa_round_trip by auto. now apply N.mod_small. }
  assert (R2 : forall v, v < num n -> rsa_power (rsa_power v d (num n)) e (num n) = v).
  { intros v Hv. rewrite Hn in *. rewrite rsa_round_trip by auto. now apply N.mod_small. }
  assert (D : forall ct, block k ct -> decrypt_message capf dec ct rsa_padding =
    (let* r := ps_decode rsa_padding [] (be_bytes k (rsa_power (be_num ct) d (num n))) k in runwrap r)).
  { intros ct (L & B). rewrite decrypt_message_spec; [|exact Sd|exact B|rewrite L; apply Sd].
    fold d n. rewrite L, (proj2 (N.ltb_lt _ _) (Bd _ _)). reflexivity. }
  destruct (number_rsa_padding [] k ltac:(constructor) ltac:(reflexivity) Sm) as (HN & _).
  eapply (number_map _ _ (fun em => be_bytes k (rsa_power (be_num em) e (num n))) _ HN).
  - intros x y (Hx & mx & Ex) (Hy & my & Ey) E.
    apply (accepted_below n x mx Cn Nn Hx) in Ex. apply (accepted_below n y my Cn Nn Hy) in Ey.
    apply (f_equal be_num) in E. rewrite !be_num_bytes in E by apply Bd.
    apply (f_equal (fun v => rsa_power v d (num n))) in E. rewrite !R1 in E by assumption.
    rewrite <- (be_bytes_num x), <- (be_bytes_num y) by (apply Hx || apply Hy).
    rewrite (proj1 Hx), (proj1 Hy), E. reflexivity.
  - intros ct. split.
    + intros (Hb & Hv & m & E). rewrite (D ct Hb) in E.
      exists (be_bytes k (rsa_power (be_num ct) d (num n))). split; [split|].
      * split; [apply be_bytes_length|apply be_bytes_bytes].
      * destruct (ps_decode _ _ _ _) as [[a|err]|]; try discriminate E. eauto.
      * rewrite be_num_bytes by apply Bd. rewrite R2 by exact Hv.
        rewrite <- (proj1 Hb). symmetry. apply be_bytes_num. apply Hb.
    + intros (em & (Hb & m & E) & ->).
      pose proof (accepted_below n em m Cn Nn Hb E) as Hv.
      assert (HB : block k (be_bytes k (rsa_power (be_num em) e (num n)))).
      { split; [apply be_bytes_length|apply be_bytes_bytes]. }
      split; [exact HB|]. rewrite be_num_bytes by apply Bd. split; [apply Bn|].
      exists m. rewrite (D _ HB). rewrite be_num_bytes by apply Bd. rewrite R1 by exact Hv.
      rewrite <- (proj1 Hb) at 1. rewrite be_bytes_num by apply Hb. now rewrite E.
Qed.
