From Coq Require Import ZifyBool ZifyNat ZifyN.
From Verif Require Import Base BaseLemmas ModelPad ModelBlock SpecPad SpecBlock ProofPad.
Ltac Zify.zify_post_hook ::= Z.div_mod_to_equations.

Lemma blocks_exist n l : (1 <= n)%nat -> (length l mod n = 0)%nat ->
  exists bs, blocks_of n l bs /\ (length bs * n = length l)%nat.
Proof.
  intros Hn Hl. destruct (chunks_exact_spec n l) as (cs & r & _ & H2 & H3 & H4); [lia|].
  assert (Hc := concat_length_const _ _ H3).
  assert (Hr : r = []).
  { apply (f_equal (@length N)) in H2 as Hl2. rewrite app_length, Hc in Hl2.
    rewrite Hl2, Nat.add_comm, Nat.mod_add, Nat.mod_small in Hl by lia.
    now destruct r. }
  subst r. rewrite app_nil_r in H2. subst l. exists cs. repeat split; auto.
Qed.

Lemma blocks_unique n l bs bs' : (1 <= n)%nat ->
  blocks_of n l bs -> blocks_of n l bs' -> bs = bs'.
Proof.
  intros Hn [H1 H2] [H1' H2'].
  destruct (chunks_unique n bs bs' [] []); auto; cbn [length]; try lia.
  now rewrite !app_nil_r, H2.
Qed.

Lemma blocks_length n l bs : blocks_of n l bs -> length l = (length bs * n)%nat.
Proof. intros [H <-]. now apply concat_length_const. Qed.

Lemma pkcs_message_length n p : (1 <= n)%nat ->
  length (pkcs_message n p) = ((length p / n + 1) * n)%nat.
Proof.
  intros Hn. unfold pkcs_message. rewrite app_length, repeat_length.
  pose proof (Nat.mod_upper_bound (length p) n ltac:(lia)).
  pose proof (Nat.div_mod (length p) n ltac:(lia)). nia.
Qed.

Lemma pkcs_message_blocks n p : (1 <= n)%nat ->
  exists bs, blocks_of n (pkcs_message n p) bs /\ length bs = (length p / n + 1)%nat.
Proof.
  intros Hn. destruct (blocks_exist n (pkcs_message n p)) as (bs & H1 & H2); auto.
  - rewrite pkcs_message_length by auto. apply Nat.mod_mul. lia.
  - exists bs. split; auto. rewrite pkcs_message_length in H2 by auto. nia.
Qed.

(** The loop of [encrypt]. *)
Definition enc_body {S} n (cipher : block_cipher) (mode : cipher_mode S) :=
  fun (block : list N) (st : S) =>
      let! block := olift (to_array n block) in
      let! (st, output_block) := olift (cm_encrypt_block mode cipher st block) in
      let! _ := oemit output_block in
      oret st.

Lemma enc_loop {S} n cipher (mode : cipher_mode S) bs st :
  Forall (fun b => length b = n) bs ->
  forO bs (enc_body n cipher mode) st =
  let (os, r) := run_mode (cm_encrypt_block mode cipher) st bs in (concat os, r).
Proof.
  intros H. revert st. induction H as [|b bs Hb Hbs IH]; intros st; cbn [forO run_mode]; auto.
  unfold enc_body at 1. rewrite to_array_ok by auto. cbn [olift obind].
  destruct (cm_encrypt_block mode cipher st b) as [[st' o]|r]; cbn [olift obind app oemit oret]; auto.
  rewrite IH. destruct (run_mode _ st' bs) as [os r]. cbn [concat app]. now rewrite app_nil_r.
Qed.

Lemma run_mode_app {S} (f : S -> list N -> res (S * list N)) st bs1 bs2 :
  run_mode f st (bs1 ++ bs2) =
  match run_mode f st bs1 with
  | (os, Ok st') => let (os', r) := run_mode f st' bs2 in (os ++ os', r)
  | (os, Panic r) => (os, Panic r)
  end.
Proof.
  revert st; induction bs1 as [|b bs1 IH]; intros st; cbn [app run_mode].
  - now destruct (run_mode f st bs2).
  - destruct (f st b) as [[st' o]|]; auto. rewrite IH.
    destruct (run_mode f st' bs1) as [os [st''|r]]; auto.
    now destruct (run_mode f st'' bs2).
Qed.

Lemma be_encrypt_eq {S} n cipher (mode : cipher_mode S) st p bs :
  (1 <= n <= 255)%nat -> blocks_of n (pkcs_message n p) bs ->
  be_encrypt n cipher mode st p =
  let (os, r) := run_mode (cm_encrypt_block mode cipher) st bs in (concat os, discard r).
Proof.
  intros Hn Hbs. unfold be_encrypt.
  destruct (chunks_exact_spec n p) as (cs & r & E & H2 & H3 & H4); [lia|].
  rewrite E. cbn [olift obind app]. rewrite pkcs_pad_padded by lia. cbn [olift obind app].
  assert (Hm : (length p mod n = length r)%nat).
  { rewrite H2, app_length, (concat_length_const _ _ H3), Nat.add_comm.
    rewrite Nat.mod_add by lia. now apply Nat.mod_small. }
  assert (Hb : bs = cs ++ [pkcs_padded n r]).
  { eapply blocks_unique; [|eassumption|]. lia. split.
    - apply Forall_app; split; auto. constructor; auto. unfold pkcs_padded.
      rewrite app_length, repeat_length. lia.
    - rewrite concat_app. cbn [concat]. rewrite app_nil_r.
      unfold pkcs_message, pkcs_padded. rewrite Hm, app_assoc. now rewrite <- H2. }
  subst bs. change (forO cs _ st) with (forO cs (enc_body n cipher mode) st).
  rewrite enc_loop by auto. rewrite run_mode_app.
  destruct (run_mode _ st cs) as [os [st'|r']]; cbn [obind]; auto.
  cbn [run_mode]. destruct (cm_encrypt_block mode cipher st' (pkcs_padded n r)) as [[st'' o]|r'];
    cbn [olift obind app oemit discard].
  - rewrite concat_app. cbn [concat]. now rewrite app_nil_r.
  - now rewrite concat_app.
Qed.

Lemma be_encrypt_length {S} n cipher (mode : cipher_mode S) (I : S -> Prop) st p c :
  (1 <= n <= 255)%nat -> I st ->
  (forall st b st' o, I st -> length b = n ->
     cm_encrypt_block mode cipher st b = Ok (st', o) -> I st' /\ length o = n) ->
  be_encrypt n cipher mode st p = (c, Ok tt) ->
  length c = ((length p / n + 1) * n)%nat.
Proof.
  intros Hn Hi Hc E. destruct (pkcs_message_blocks n p) as (bs & Hbs & Hl); [lia|].
  rewrite (be_encrypt_eq n cipher mode st p bs) in E by auto. rewrite <- Hl.
  destruct Hbs as [Hbs _]. clear - Hi Hc E Hbs.
  revert st Hi c E. induction bs as [|b bs IH]; intros st Hi c E; cbn [run_mode] in E.
  - now injection E as <-.
  - destruct (cm_encrypt_block mode cipher st b) as [[st' o]|] eqn:Eb; [|discriminate].
    inversion Hbs; subst. apply Hc in Eb as [Hi' Ho]; auto.
    specialize (IH H2 st' Hi'). destruct (run_mode _ st' bs) as [os r].
    injection E as <- Er. cbn [concat length]. rewrite app_length.
    rewrite (IH (concat os)) by (now rewrite Er). lia.
Qed.

Lemma be_encrypt_total {S} n cipher (mode : cipher_mode S) (I : S -> Prop) st p :
  (1 <= n <= 255)%nat -> bytes p -> I st ->
  (forall st b, I st -> length b = n -> bytes b ->
     exists st' o, cm_encrypt_block mode cipher st b = Ok (st', o) /\ I st') ->
  exists c, be_encrypt n cipher mode st p = (c, Ok tt).
Proof.
  intros Hn Hp Hi Hc. destruct (pkcs_message_blocks n p) as (bs & Hbs & Hl); [lia|].
  rewrite (be_encrypt_eq n cipher mode st p bs) by auto.
  assert (Hb : Forall bytes bs).
  { assert (Hm : bytes (pkcs_message n p)).
    { apply Forall_app; split; auto. apply Forall_repeat. red. lia. }
    destruct Hbs as [_ Hbs]. rewrite <- Hbs in Hm. clear - Hm.
    induction bs; auto. cbn in Hm. apply Forall_app in Hm as [H1 H2]. auto. }
  destruct Hbs as [Hbs _]. clear - Hi Hb Hbs Hc.
  revert st Hi; induction bs as [|b bs IH]; intros st Hi; cbn [run_mode].
  - eauto.
  - inversion Hb; inversion Hbs; subst. destruct (Hc st b) as (st' & o & -> & Hi'); auto.
    destruct (IH H6 H2 st' Hi') as [c E]. destruct (run_mode _ st' bs) as [os r].
    injection E as E1 E2. cbn [concat]. rewrite E2. eauto.
Qed.

(** ** Decryption *)

Definition pend (o : option (list N)) : list (list N) :=
  match o with Some x => [x] | None => [] end.

Definition dec_body {S} n (cipher : block_cipher) (mode : cipher_mode S) :=
  fun (block : list N) '((st, next_output) : S * option (list N)) =>
        let! block := olift (to_array n block) in
        let! (st, output_block) := olift (cm_decrypt_block mode cipher st block) in
        let! _ := match next_output with
                  | Some o => oemit o
                  | None => oret tt
                  end in
        oret (st, Some output_block).

Fixpoint last_o (l : list (list N)) : option (list N) :=
  match l with [] => None | [x] => Some x | _ :: l' => last_o l' end.

Lemma removelast_pend next (o : list N) os :
  concat (pend next) ++ concat (removelast (o :: os)) =
  concat (removelast (pend next ++ o :: os)).
Proof.
  rewrite removelast_app by discriminate. now rewrite concat_app.
Qed.

Lemma last_o_app l1 o l2 : last_o (l1 ++ o :: l2) = last_o (o :: l2).
Proof.
  induction l1; auto. cbn [app]. change (last_o (a :: l1 ++ o :: l2)) with
    (match l1 ++ o :: l2 with [] => Some a | _ => last_o (l1 ++ o :: l2) end).
  destruct (l1 ++ o :: l2) eqn:E; auto. destruct l1; discriminate.
Qed.

Lemma dec_loop {S} n cipher (mode : cipher_mode S) bs st next :
  Forall (fun b => length b = n) bs ->
  forO bs (dec_body n cipher mode) (st, next) =
  let (os, r) := run_mode (cm_decrypt_block mode cipher) st bs in
  (concat (removelast (pend next ++ os)),
   match r with Ok st' => Ok (st', last_o (pend next ++ os)) | Panic r => Panic r end).
Proof.
  intros H. revert st next. induction H as [|b bs Hb Hbs IH]; intros st next; cbn [forO run_mode].
  - destruct next; reflexivity.
  - unfold dec_body at 1. rewrite to_array_ok by auto. cbn [olift obind].
    destruct (cm_decrypt_block mode cipher st b) as [[st' o]|r] eqn:E; cbn [olift obind app].
    + transitivity (obind (concat (pend next), Ok (st', Some o)) (forO bs (dec_body n cipher mode))).
      { f_equal. destruct next; cbn; rewrite ?app_nil_r; reflexivity. }
      cbn [obind]. rewrite IH. destruct (run_mode _ st' bs) as [os r].
      cbn [pend app]. rewrite removelast_pend, last_o_app.
      reflexivity.
    + destruct next; reflexivity.
Qed.

Lemma last_o_some (os : list (list N)) :
  os <> [] -> exists o os', os = os' ++ [o] /\ last_o os = Some o /\ removelast os = os'.
Proof.
  intros H. exists (last os []), (removelast os). split; [|split]; auto.
  now apply app_removelast_last.
  induction os as [|a os IH]; [congruence|]. destruct os; auto.
  change (last_o (a :: l :: os)) with (last_o (l :: os)).
  change (last (a :: l :: os) []) with (last (l :: os) []).
  apply IH. discriminate.
Qed.

Lemma run_mode_length {S} (f : S -> list N -> res (S * list N)) st bs os st' :
  run_mode f st bs = (os, Ok st') -> length os = length bs.
Proof.
  revert st os; induction bs as [|b bs IH]; intros st os; cbn [run_mode].
  - now intros [= <- <-].
  - destruct (f st b) as [[st1 o]|]; [|discriminate].
    destruct (run_mode f st1 bs) as [os' r] eqn:E. intros [= <- ->].
    cbn. f_equal. eauto.
Qed.

Lemma be_decrypt_bad_length {S} n cipher (mode : cipher_mode S) st c :
  n = 0%nat \/ c = [] \/ (length c mod n <> 0)%nat ->
  be_decrypt n cipher mode st c =
    ([], Panic (if (n =? 0)%nat then PExplicit else if (length c =? 0)%nat then PUnwrap
                else PExplicit)).
Proof.
  intros H. unfold be_decrypt. destruct (Nat.eqb_spec n 0) as [->|Hn]; [reflexivity|].
  destruct H as [->|[->|Hm]]; [congruence| |].
  - assert (E : @chunks_exact N n [] = Ok ([], [])).
    { change (@nil N) with (concat (@nil (list N)) ++ []) at 1.
      apply chunks_exact_concat; auto; cbn; lia. }
    rewrite E. reflexivity.
  - destruct (chunks_exact_spec n c) as (cs & r & E & H2 & H3 & H4); [lia|].
    rewrite E. cbn [olift obind app]. destruct r.
    2:{ destruct (Nat.eqb_spec (length c) 0) as [H0|H0]; [|reflexivity].
        rewrite H0, Nat.mod_0_l in Hm by auto. congruence. }
    exfalso. apply Hm. rewrite H2, app_nil_r, (concat_length_const _ _ H3).
    apply Nat.mod_mul; auto.
Qed.

Lemma be_decrypt_eq {S} n cipher (mode : cipher_mode S) st c bs :
  (1 <= n)%nat -> blocks_of n c bs -> bs <> [] ->
  Forall (fun o => length o = n) (fst (run_mode (cm_decrypt_block mode cipher) st bs)) ->
  match run_mode (cm_decrypt_block mode cipher) st bs with
  | (os, Panic r) =>
      be_decrypt n cipher mode st c = (concat (removelast os), Panic r)
  | (os, Ok _) => exists os' o, os = os' ++ [o] /\ length o = n /\
      (last o 0 <= N.of_nat n ->
       be_decrypt n cipher mode st c =
         (concat os' ++ firstn (n - N.to_nat (last o 0%N)) o, Ok tt)) /\
      (N.of_nat n < last o 0 ->
       be_decrypt n cipher mode st c = (concat os', Panic PExplicit))
  end.
Proof.
  intros Hn [Hbs Hc] Hne Hlen. unfold be_decrypt.
  assert (E : chunks_exact n c = Ok (bs, [])).
  { rewrite <- Hc. rewrite <- (app_nil_r (concat bs)). apply chunks_exact_concat; auto; cbn; lia. }
  rewrite E. cbn [olift obind app].
  change (forO bs _ (st, None)) with (forO bs (dec_body n cipher mode) (st, None)).
  rewrite dec_loop by auto. cbn [pend app].
  destruct (run_mode _ st bs) as [os [st'|r]] eqn:Er; [|reflexivity].
  destruct (last_o_some os) as (o & os' & H1 & H2 & H3).
  { intros ->. apply run_mode_length in Er. now destruct bs. }
  exists os', o. split; auto.
  assert (Ho : length o = n).
  { cbn [fst] in Hlen. rewrite H1 in Hlen. apply Forall_app in Hlen as [_ Hl]. now inversion Hl. }
  split; auto. rewrite H2, H3. cbn [unwrap obind olift].
  pose proof (pkcs_unpad_eq n o ltac:(lia) Ho) as Eu. split.
  - intros Hk. rewrite (proj2 (N.leb_le _ _) Hk) in Eu. rewrite Eu. cbn [olift obind].
    rewrite slice_to_ok by lia. cbn [obind olift oemit app]. reflexivity.
  - intros Hk. rewrite (proj2 (N.leb_gt _ _) Hk) in Eu. rewrite Eu. cbn [olift obind app].
    now rewrite app_nil_r.
Qed.

(** ** Round trip *)


Lemma mode_inverse_run {S} n cipher (mode : cipher_mode S) R se sd bs :
  mode_inverse n cipher mode R -> R se sd ->
  Forall (fun b => length b = n) bs -> Forall bytes bs ->
  exists cs se' sd',
    run_mode (cm_encrypt_block mode cipher) se bs = (cs, Ok se') /\
    Forall (fun b => length b = n) cs /\
    run_mode (cm_decrypt_block mode cipher) sd cs = (bs, Ok sd').
Proof.
  intros HR. revert se sd. induction bs as [|b bs IH]; intros se sd Hs H1 H2.
  - exists [], se, sd. cbn. auto.
  - inversion H1; inversion H2; subst.
    destruct (HR se sd b) as (se1 & c & sd1 & E1 & E2 & E3 & E4); auto.
    destruct (IH se1 sd1) as (cs & se' & sd' & F1 & F2 & F3); auto.
    exists (c :: cs), se', sd'. cbn [run_mode]. rewrite E1, F1.
    split; auto. split; auto. rewrite E3, F3. auto.
Qed.

Lemma pkcs_message_app_blocks n p : (1 <= n <= 255)%nat -> bytes p ->
  exists bs q, blocks_of n (pkcs_message n p) (bs ++ [pkcs_padded n q]) /\
     (length q < n)%nat /\ p = concat bs ++ q /\ Forall bytes (bs ++ [pkcs_padded n q]).
Proof.
  intros Hn Hp.
  destruct (chunks_exact_spec n p) as (cs & r & E & H2 & H3 & H4); [lia|].
  exists cs, r.
  assert (Hm : (length p mod n = length r)%nat).
  { rewrite H2, app_length, (concat_length_const _ _ H3), Nat.add_comm.
    rewrite Nat.mod_add by lia. now apply Nat.mod_small. }
  assert (Hb : blocks_of n (pkcs_message n p) (cs ++ [pkcs_padded n r])).
  { split.
    - apply Forall_app; split; auto. constructor; auto. unfold pkcs_padded.
      rewrite app_length, repeat_length. lia.
    - rewrite concat_app. cbn [concat]. rewrite app_nil_r.
      unfold pkcs_message, pkcs_padded. rewrite Hm, app_assoc. now rewrite <- H2. }
  split; auto. split; auto. split; auto.
  destruct Hb as [_ Hb].
  assert (Hmb : bytes (pkcs_message n p)).
  { apply Forall_app; split; auto. apply Forall_repeat. red. lia. }
  rewrite <- Hb in Hmb. clear - Hmb. revert Hmb. generalize (cs ++ [pkcs_padded n r]).
  induction l; auto. cbn. intros Hm. apply Forall_app in Hm as [? ?]. auto.
Qed.

Lemma be_roundtrip {S} n cipher (mode : cipher_mode S) R se sd p :
  (1 <= n <= 255)%nat -> bytes p -> mode_inverse n cipher mode R -> R se sd ->
  exists c, be_encrypt n cipher mode se p = (c, Ok tt) /\
            be_decrypt n cipher mode sd c = (p, Ok tt).
Proof.
  intros Hn Hp HR Hs.
  destruct (pkcs_message_app_blocks n p Hn Hp) as (bs & q & Hb & Hq & Hpq & Hby).
  destruct (mode_inverse_run n cipher mode R se sd (bs ++ [pkcs_padded n q]))
    as (cs & se' & sd' & E1 & E2 & E3); auto. apply Hb.
  exists (concat cs). split.
  - rewrite (be_encrypt_eq n cipher mode se p _ Hn Hb), E1. reflexivity.
  - unfold be_decrypt.
    assert (E : chunks_exact n (concat cs) = Ok (cs, [])).
    { rewrite <- (app_nil_r (concat cs)). apply chunks_exact_concat; auto; cbn; lia. }
    rewrite E. cbn [olift obind app].
    change (forO cs _ (sd, None)) with (forO cs (dec_body n cipher mode) (sd, None)).
    rewrite dec_loop by auto. rewrite E3. cbn [pend app].
    rewrite removelast_last.
    replace (last_o (bs ++ [pkcs_padded n q])) with (Some (pkcs_padded n q))
      by (symmetry; apply last_o_app).
    cbn [unwrap obind olift].
    assert (Hl : length (pkcs_padded n q) = n).
    { unfold pkcs_padded. rewrite app_length, repeat_length. lia. }
    rewrite pkcs_unpad_eq by (auto; lia).
    assert (Hlast : last (pkcs_padded n q) 0 = N.of_nat (n - length q)).
    { unfold pkcs_padded. apply last_app_repeat. lia. }
    rewrite Hlast. rewrite (proj2 (N.leb_le _ _)) by lia. cbn [olift obind].
    rewrite slice_to_ok by lia. cbn [obind olift oemit app].
    rewrite Hpq. repeat f_equal.
    unfold pkcs_padded. apply firstn_app_exact. lia.
Qed.


Lemma ecb_inverse n cipher : cipher_inverse n cipher ->
  mode_inverse n cipher ecb_mode (fun _ _ => True).
Proof.
  intros H se sd b _ Hb1 Hb2. destruct (H b Hb1 Hb2) as (c & H1 & H2 & H3 & H4).
  exists se, c, sd. cbn. rewrite H1. cbn. rewrite H4. auto.
Qed.

Lemma ecb_roundtrip n cipher p : (1 <= n <= 255)%nat -> bytes p ->
  cipher_inverse n cipher ->
  exists c, be_encrypt n cipher ecb_mode tt p = (c, Ok tt) /\
            be_decrypt n cipher ecb_mode tt c = (p, Ok tt).
Proof.
  intros. apply (be_roundtrip n cipher ecb_mode (fun _ _ => True)); auto.
  now apply ecb_inverse.
Qed.

(** C10: an accepted ciphertext that is never produced. *)
Lemma ecb_malleable n cipher b c : (1 <= n <= 255)%nat ->
  cipher_inverse n cipher -> length b = n -> bytes b -> last b 0 = 0 ->
  bc_encrypt cipher b = Ok c -> length c = n ->
  be_decrypt n cipher ecb_mode tt c = (b, Ok tt) /\
  forall p, bytes p -> fst (be_encrypt n cipher ecb_mode tt p) <> c.
Proof.
  intros Hn HC Hb Hby Hl Ec Hc.
  destruct (HC b Hb Hby) as (c' & H1 & _ & _ & H4).
  rewrite Ec in H1. injection H1 as <-.
  assert (Hdec : be_decrypt n cipher ecb_mode tt c = (b, Ok tt)).
  { unfold be_decrypt.
    assert (E : chunks_exact n c = Ok ([c], [])).
    { pose proof (chunks_exact_concat n [c] []) as E. cbn [concat] in E. rewrite !app_nil_r in E.
      apply E; auto; cbn; lia. }
    rewrite E. cbn [olift obind app forO].
    rewrite to_array_ok by auto. cbn [olift obind app]. cbn [ecb_mode cm_decrypt_block].
    rewrite H4. cbn [bind olift obind app oret unwrap].
    rewrite pkcs_unpad_eq by (auto; lia). rewrite Hl. cbn [N.leb N.compare].
    destruct (N.leb_spec 0 (N.of_nat n)); [|lia]. cbn [olift obind].
    rewrite slice_to_ok by (cbn; lia). cbn [obind olift oemit app].
    replace (n - N.to_nat 0)%nat with n by lia. rewrite firstn_all2 by lia. reflexivity. }
  split; auto. intros p Hp Heq.
  destruct (ecb_roundtrip n cipher p Hn Hp HC) as (c' & E1 & E2).
  rewrite E1 in Heq. cbn in Heq. subst c'.
  rewrite Hdec in E2. injection E2 as <-.
  (* encrypting a whole block produces two blocks *)
  assert (Hlen : forall st b0 st' o, length b0 = n -> bytes b0 ->
     cm_encrypt_block ecb_mode cipher st b0 = Ok (st', o) -> length o = n).
  { intros st b0 st' o Hb0 Hb0' E. cbn in E.
    destruct (HC b0 Hb0 Hb0') as (c0 & F1 & F2 & _). rewrite F1 in E. cbn in E.
    now injection E as _ <-. }
  destruct (pkcs_message_app_blocks n b Hn Hp) as (bs & q & Hbs & Hq & Hpq & Hby').
  destruct (mode_inverse_run n cipher ecb_mode (fun _ _ => True) tt tt (bs ++ [pkcs_padded n q]))
    as (cs & se' & sd' & F1 & F2 & F3); auto. now apply ecb_inverse. apply Hbs.
  rewrite (be_encrypt_eq n cipher ecb_mode tt b _ Hn Hbs), F1 in E1.
  injection E1 as E1. apply (f_equal (@length N)) in E1.
  rewrite (concat_length_const _ _ F2), Hc in E1.
  apply run_mode_length in F1. rewrite F1, app_length in E1. cbn [length] in E1.
  apply blocks_length in Hbs. rewrite app_length in Hbs. cbn [length] in Hbs.
  rewrite pkcs_message_length in Hbs by lia. rewrite Hb, Nat.div_same in Hbs by lia. nia.
Qed.

(** ** Stream cipher *)

Lemma sc_encrypt_eq {K} (next : key_iter K) k ks k' data :
  yields next k ks k' -> length ks = length data ->
  sc_encrypt next k data = Ok (xor_bytes ks data, k').
Proof.
  intros H. revert data. induction H as [k|k b k1 bs k2 E H IH]; intros [|d data] Hl;
    try discriminate; cbn [sc_encrypt xor_bytes]; auto.
  rewrite E. cbn [bind unwrap]. rewrite IH by (cbn in Hl; lia). reflexivity.
Qed.

Lemma sc_encrypt_ok_iff {K} (next : key_iter K) k data :
  (exists r, sc_encrypt next k data = Ok r) <->
  (exists ks k', yields next k ks k' /\ length ks = length data).
Proof.
  split.
  - intros [r E]. revert k r E. induction data as [|d data IH]; intros k r E.
    + exists [], k. split; [constructor|auto].
    + cbn [sc_encrypt] in E. apply bind_ok_inv in E as ([o k1] & E1 & E).
      apply bind_ok_inv in E as (b & E2 & E).
      apply bind_ok_inv in E as (r' & E3 & E).
      destruct (IH _ _ E3) as (ks & k' & H1 & H2).
      exists (b :: ks), k'. split; [|cbn; lia]. econstructor; eauto.
      destruct o; [|discriminate]. injection E2 as ->. auto.
  - intros (ks & k' & H1 & H2). eexists. eapply sc_encrypt_eq; eauto.
Qed.

Lemma sc_encrypt_app {K} (next : key_iter K) k d1 d2 :
  sc_encrypt next k (d1 ++ d2) =
  let* (c1, k1) := sc_encrypt next k d1 in
  let* (c2, k2) := sc_encrypt next k1 d2 in
  Ok (c1 ++ c2, k2).
Proof.
  revert k; induction d1 as [|d d1 IH]; intros k; cbn [app sc_encrypt bind].
  - destruct (sc_encrypt next k d2) as [[? ?]|]; reflexivity.
  - destruct (next k) as [[[b|] k1]|]; cbn [bind unwrap]; auto.
    rewrite IH. destruct (sc_encrypt next k1 d1) as [[c1 k2]|]; cbn [bind]; auto.
    destruct (sc_encrypt next k2 d2) as [[c2 k3]|]; reflexivity.
Qed.


Lemma sc_pieces_concat {K} (next : key_iter K) k ds :
  sc_encrypt next k (concat ds) =
  let* (cs, k') := sc_pieces next k ds in Ok (concat cs, k').
Proof.
  revert k; induction ds as [|d ds IH]; intros k; cbn [concat sc_pieces bind]; auto.
  rewrite sc_encrypt_app. destruct (sc_encrypt next k d) as [[c k1]|]; cbn [bind]; auto.
  rewrite IH. destruct (sc_pieces next k1 ds) as [[cs k2]|]; reflexivity.
Qed.

Lemma xor_bytes_length a b : length a = length b -> length (xor_bytes a b) = length a.
Proof.
  revert b; induction a; intros [|y b] H; cbn in *; try lia. f_equal. apply IHa. lia.
Qed.

Lemma xor_bytes_involutive a b : length a = length b -> xor_bytes a (xor_bytes a b) = b.
Proof.
  revert b; induction a; intros [|y b] H; cbn [xor_bytes]; auto; try discriminate.
  rewrite IHa by (cbn in H; lia). f_equal.
  now rewrite <- N.lxor_assoc, N.lxor_nilpotent, N.lxor_0_l.
Qed.

Lemma sc_involution {K} (next : key_iter K) k data c k' :
  sc_encrypt next k data = Ok (c, k') ->
  length c = length data /\ sc_encrypt next k c = Ok (data, k').
Proof.
  intros E. destruct (proj1 (sc_encrypt_ok_iff next k data)) as (ks & k'' & H1 & H2); eauto.
  rewrite (sc_encrypt_eq next k ks k'' data) in E by auto. injection E as <- <-.
  rewrite xor_bytes_length by auto. split; auto.
  rewrite (sc_encrypt_eq next k ks k''); [|auto|rewrite xor_bytes_length; auto].
  now rewrite xor_bytes_involutive.
Qed.

Lemma xor_bytes_bytes a b : bytes a -> bytes b -> bytes (xor_bytes a b).
Proof.
  intros Ha. revert b. induction Ha; intros [|y b] Hb; cbn [xor_bytes]; try constructor.
  - inversion Hb; subst. now apply lxor_byte.
  - inversion Hb; subst. now apply IHHa.
Qed.

(** CBC. *)
Lemma cbc_inverse n cipher : cipher_inverse n cipher ->
  mode_inverse n cipher cbc_mode (fun s s' => s = s' /\ length s = n /\ bytes s).
Proof.
  intros H se sd b (<- & Hl & Hs) Hb1 Hb2.
  destruct (H (xor_bytes se b)) as (c & H1 & H2 & H3 & H4).
  - rewrite xor_bytes_length; lia.
  - now apply xor_bytes_bytes.
  - exists c, c, c. cbn. rewrite H1. cbn. rewrite H4. cbn.
    rewrite xor_bytes_involutive by lia. repeat split; auto.
Qed.

Lemma cbc_roundtrip n cipher iv p : (1 <= n <= 255)%nat -> bytes p ->
  cipher_inverse n cipher -> length iv = n -> bytes iv ->
  exists c, be_encrypt n cipher cbc_mode iv p = (c, Ok tt) /\
            be_decrypt n cipher cbc_mode iv c = (p, Ok tt).
Proof.
  intros. apply (be_roundtrip n cipher cbc_mode
    (fun s s' => s = s' /\ length s = n /\ bytes s)); auto.
  now apply cbc_inverse.
Qed.

(** ** Blocks of any size *)

Lemma wide_blocks n p : (1 <= n)%nat ->
  exists bs q, blocks_of n (wide_message n p)
      (bs ++ [q ++ repeat (N.of_nat (n - length q) mod 256) (n - length q)]) /\
    chunks_exact n p = Ok (bs, q) /\
    (length q < n)%nat /\ p = concat bs ++ q /\ (length p mod n = length q)%nat.
Proof.
  intros Hn. destruct (chunks_exact_spec n p) as (cs & r & E & H2 & H3 & H4); [lia|].
  exists cs, r.
  assert (Hm : (length p mod n = length r)%nat).
  { rewrite H2, app_length, (concat_length_const _ _ H3), Nat.add_comm.
    rewrite Nat.mod_add by lia. now apply Nat.mod_small. }
  split; [|auto]. split.
  - apply Forall_app; split; auto. constructor; auto.
    rewrite app_length, repeat_length. lia.
  - rewrite concat_app. cbn [concat]. rewrite app_nil_r.
    unfold wide_message. rewrite Hm, app_assoc. now rewrite <- H2.
Qed.

Lemma wide_encrypt {S} n cipher (mode : cipher_mode S) st p bs :
  (1 <= n)%nat -> blocks_of n (wide_message n p) bs ->
  be_encrypt n cipher mode st p =
  let (os, r) := run_mode (cm_encrypt_block mode cipher) st bs in (concat os, discard r).
Proof.
  intros Hn Hbs. destruct (wide_blocks n p Hn) as (cs & q & Hb & E & Hq & Hp & Hm).
  rewrite (blocks_unique n _ _ _ Hn Hbs Hb). destruct Hb as [Hb _].
  apply Forall_app in Hb as [Hcs _]. clear Hbs. unfold be_encrypt.
  rewrite E. cbn [olift obind app]. rewrite pkcs_pad_eq by lia. cbn [olift obind app].
  change (forO cs _ st) with (forO cs (enc_body n cipher mode) st).
  rewrite enc_loop by auto. rewrite run_mode_app.
  destruct (run_mode _ st cs) as [os [st'|r']]; cbn [obind]; auto.
  cbn [run_mode]. destruct (cm_encrypt_block mode cipher st' _) as [[st'' o]|r'];
    cbn [olift obind app oemit discard].
  - rewrite concat_app. cbn [concat]. now rewrite app_nil_r.
  - now rewrite !app_nil_r.
Qed.

Lemma zero_encrypt {S} cipher (mode : cipher_mode S) st p :
  be_encrypt 0 cipher mode st p = ([], Panic PExplicit).
Proof. reflexivity. Qed.

Lemma wide_bytes n p : bytes p -> bytes (wide_message n p).
Proof.
  intros H. apply Forall_app; split; auto. apply Forall_repeat. red. apply N.mod_lt. discriminate.
Qed.

Lemma bytes_concat_inv bs : bytes (concat bs) -> Forall bytes bs.
Proof.
  induction bs; auto. cbn. intros H. apply Forall_app in H as [? ?]. auto.
Qed.

Lemma firstn_app_repeat {A} (q : list A) (x : A) k j : (j <= k)%nat ->
  firstn (length q + j) (q ++ repeat x k) = q ++ repeat x j.
Proof.
  intros H. rewrite firstn_app_2. f_equal.
  replace k with (j + (k - j))%nat by lia. rewrite repeat_app.
  apply firstn_app_exact. now rewrite repeat_length.
Qed.

Lemma wide_roundtrip {S} n cipher (mode : cipher_mode S) R se sd p :
  (1 <= n)%nat -> bytes p -> mode_inverse n cipher mode R -> R se sd ->
  let k := (n - length p mod n)%nat in
  exists c, be_encrypt n cipher mode se p = (c, Ok tt) /\
    be_decrypt n cipher mode sd c =
      (p ++ repeat (N.of_nat k mod 256) (k - k mod 256), Ok tt).
Proof.
  intros Hn Hp HR Hs k.
  destruct (wide_blocks n p Hn) as (bs & q & Hb & E0 & Hq & Hpq & Hm).
  assert (Hk : k = (n - length q)%nat) by (unfold k; now rewrite Hm).
  rewrite <- Hk in Hb. clearbody k. set (x := N.of_nat k mod 256) in *.
  assert (Hx : x = N.of_nat (k mod 256)).
  { unfold x. zify. lia. }
  set (lb := q ++ repeat x k) in *.
  destruct (mode_inverse_run n cipher mode R se sd (bs ++ [lb]))
    as (cs & se' & sd' & E1 & E2 & E3); auto.
  { apply Hb. }
  { apply bytes_concat_inv. rewrite (proj2 Hb). now apply wide_bytes. }
  exists (concat cs). split.
  - rewrite (wide_encrypt n cipher mode se p _ Hn Hb), E1. reflexivity.
  - assert (Hl : length lb = n) by (unfold lb; rewrite app_length, repeat_length; lia).
    unfold be_decrypt.
    assert (E : chunks_exact n (concat cs) = Ok (cs, [])).
    { rewrite <- (app_nil_r (concat cs)). apply chunks_exact_concat; auto; cbn; lia. }
    rewrite E. cbn [olift obind app].
    change (forO cs _ (sd, None)) with (forO cs (dec_body n cipher mode) (sd, None)).
    rewrite dec_loop by auto. rewrite E3. cbn [pend app].
    rewrite removelast_last.
    replace (last_o (bs ++ [lb])) with (Some lb) by (symmetry; apply last_o_app).
    cbn [unwrap obind olift].
    rewrite pkcs_unpad_eq by (auto; lia).
    assert (Hlast : last lb 0 = x) by (unfold lb; apply last_app_repeat; lia).
    assert (Hkm : (k mod 256 <= k)%nat) by (apply Nat.mod_le; lia).
    rewrite Hlast, Hx. rewrite (proj2 (N.leb_le _ _)) by lia. cbn [olift obind].
    rewrite slice_to_ok by lia. cbn [obind olift oemit app].
    rewrite Hpq, <- app_assoc, Nat2N.id, <- Hx. repeat f_equal.
    unfold lb. replace (n - k mod 256)%nat with (length q + (k - k mod 256))%nat by lia.
    apply firstn_app_repeat. lia.
Qed.

Lemma wide_roundtrip_iff {S} n cipher (mode : cipher_mode S) R se sd p :
  (1 <= n)%nat -> bytes p -> mode_inverse n cipher mode R -> R se sd ->
  ((exists c, be_encrypt n cipher mode se p = (c, Ok tt) /\
              be_decrypt n cipher mode sd c = (p, Ok tt)) <->
   (n - length p mod n <= 255)%nat).
Proof.
  intros Hn Hp HR Hs.
  destruct (wide_roundtrip n cipher mode R se sd p Hn Hp HR Hs) as (c & E1 & E2).
  set (k := (n - length p mod n)%nat) in *. clearbody k.
  split.
  - intros (c' & F1 & F2). rewrite E1 in F1. injection F1 as <-. rewrite E2 in F2.
    apply (f_equal (fun x => length (fst x))) in F2. cbn [fst] in F2.
    rewrite app_length, repeat_length in F2.
    assert (k mod 256 < 256)%nat by (apply Nat.mod_upper_bound; discriminate). lia.
  - intros Hk. exists c. split; auto. rewrite E2, Nat.mod_small by lia.
    rewrite Nat.sub_diag. cbn [repeat]. now rewrite app_nil_r.
Qed.
