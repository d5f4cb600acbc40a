(** * C134: how many blocks are accepted *)
From Verif Require Import Base BaseLemmas ModelPad ModelBlock SpecPad SpecBlock SpecAccept ProofPad ProofBlock
  ModelAes ProofAesKey.
From Coq Require Import ZifyBool ZifyNat ZifyN.
Local Open Scope N_scope.

(** ** Counting *)
Lemma nodup_join {A} (l l' : list A) : NoDup l -> NoDup l' -> (forall x, In x l -> In x l' -> False) -> NoDup (l ++ l').
Proof.
  intros H H' HD. induction H as [|x l Hx H IH]; [exact H'|]. cbn. constructor.
  - rewrite in_app_iff. intros [K|K]; [contradiction|]. exact (HD x (or_introl eq_refl) K).
  - apply IH. intros y Hy. apply HD. now right.
Qed.

Lemma nodup_map {A B} (f : A -> B) l : NoDup l ->
  (forall x y, In x l -> In y l -> f x = f y -> x = y) -> NoDup (map f l).
Proof.
  induction 1 as [|x l Hx H IH]; intros HI; [constructor|]. cbn. constructor.
  - intros K. apply in_map_iff in K as (y & E & Hy). apply Hx.
    rewrite (HI x y); auto; [now left|now right].
  - apply IH. intros a b Ha Hb. apply HI; now right.
Qed.

Lemma nodup_prod {A B} (l : list A) (l' : list B) : NoDup l -> NoDup l' -> NoDup (list_prod l l').
Proof.
  intros H H'. induction H as [|x l Hx H IH]; [constructor|]. cbn. apply nodup_join; auto.
  - apply nodup_map; auto. congruence.
  - intros [a b] K1 K2. apply in_map_iff in K1 as (y & E & _). injection E as <- <-.
    apply in_prod_iff in K2 as (K2 & _). contradiction.
Qed.

Lemma number_unique {A} (P : A -> Prop) j k : number_of P j -> number_of P k -> j = k.
Proof.
  intros (l & H1 & H2 & <-) (l' & H1' & H2' & <-). f_equal. apply Nat.le_antisymm.
  - apply NoDup_incl_length; auto. intros x Hx. now apply H2', H2.
  - apply NoDup_incl_length; auto. intros x Hx. now apply H2, H2'.
Qed.

Lemma number_iff {A} (P Q : A -> Prop) j k : number_of P j -> (forall x, Q x <-> P x) -> j = k -> number_of Q k.
Proof.
  intros (l & H1 & H2 & H3) H <-. exists l. split; [exact H1|]. split; [|exact H3].
  intros x. rewrite H2. symmetry. apply H.
Qed.

Lemma number_pair {A B} (P : A -> Prop) (Q : B -> Prop) j k : number_of P j -> number_of Q k ->
  number_of (fun x => P (fst x) /\ Q (snd x)) (j * k).
Proof.
  intros (l & H1 & H2 & <-) (l' & H1' & H2' & <-). exists (list_prod l l').
  split; [now apply nodup_prod|]. split.
  - intros [a b]. rewrite in_prod_iff, H2, H2'. reflexivity.
  - rewrite prod_length. lia.
Qed.

Lemma number_map {A B} (P : A -> Prop) (Q : B -> Prop) (f : A -> B) k : number_of P k ->
  (forall x y, P x -> P y -> f x = f y -> x = y) -> (forall c, Q c <-> exists b, P b /\ c = f b) -> number_of Q k.
Proof.
  intros (l & H1 & H2 & H3) HI HQ. exists (map f l). split; [|split].
  - apply nodup_map; auto. intros x y Hx Hy. apply HI; now apply H2.
  - intros c. rewrite in_map_iff, HQ. split.
    + intros (b & <- & Hb). exists b. split; [now apply H2|reflexivity].
    + intros (b & Hb & ->). exists b. split; [reflexivity|now apply H2].
  - now rewrite map_length.
Qed.

Lemma number_union {A} (P Q : A -> Prop) j k : number_of P j -> number_of Q k ->
  (forall x, P x -> Q x -> False) -> number_of (fun x => P x \/ Q x) (j + k).
Proof.
  intros (l & H1 & H2 & <-) (l' & H1' & H2' & <-) HD. exists (l ++ l'). split; [|split].
  - apply nodup_join; auto. intros x Hx Hx'. apply (HD x); [now apply H2|now apply H2'].
  - intros x. now rewrite in_app_iff, H2, H2'.
  - rewrite app_length. lia.
Qed.

Lemma number_below k : number_of (fun b => b < k) k.
Proof.
  exists (map N.of_nat (seq 0 (N.to_nat k))). split; [|split].
  - apply nodup_map; [apply seq_NoDup|]. intros x y _ _ E. lia.
  - intros x. rewrite in_map_iff. split.
    + intros (y & <- & Hy). apply in_seq in Hy. lia.
    + intros Hx. exists (N.to_nat x). split; [lia|]. apply in_seq. lia.
  - rewrite map_length, seq_length. lia.
Qed.

(** ** Blocks *)
Lemma number_snoc (P : list N -> Prop) (Q : N -> Prop) j k : number_of P j -> number_of Q k ->
  number_of (fun l => exists p b, l = p ++ [b] /\ P p /\ Q b) (j * k).
Proof.
  intros HP HQ. apply (number_map (fun x => P (fst x) /\ Q (snd x)) _ (fun x => fst x ++ [snd x]) _ (number_pair P Q j k HP HQ)).
  - intros [p b] [p' b'] _ _ E. cbn in E. apply app_inj_tail in E as (-> & ->). reflexivity.
  - intros c. split.
    + intros (p & b & -> & H1 & H2). exists (p, b). auto.
    + intros ([p b] & (H1 & H2) & ->). exists p, b. auto.
Qed.

Lemma block_snoc n l : block (S n) l <-> exists p b, l = p ++ [b] /\ block n p /\ b < 256.
Proof.
  split.
  - intros (HL & HB). destruct l as [|x l _] using rev_ind; [discriminate HL|].
    exists l, x. rewrite app_length in HL. cbn in HL. apply Forall_app in HB as (HB & HX).
    split; [reflexivity|]. split; [split; [lia|exact HB]|]. now inversion HX.
  - intros (p & b & -> & (HL & HB) & Hb). split.
    + rewrite app_length. cbn. lia.
    + apply Forall_app. split; [exact HB|]. constructor; [exact Hb|constructor].
Qed.

Lemma pow_succ (b : N) (n : nat) : b ^ N.of_nat (S n) = b ^ N.of_nat n * b.
Proof. rewrite Nat2N.inj_succ, N.pow_succ_r'. apply N.mul_comm. Qed.

Lemma number_blocks n : number_of (block n) (256 ^ N.of_nat n).
Proof.
  induction n as [|n IH].
  - exists [[]]. split; [repeat constructor; intros []|]. split; [|reflexivity].
    intros x. split.
    + intros [<-|[]]. split; [reflexivity|constructor].
    + intros (HL & _). destruct x; [now left|discriminate HL].
  - eapply number_iff; [exact (number_snoc _ _ _ _ IH (number_below 256))|exact (block_snoc n)|].
    symmetry. apply pow_succ.
Qed.

Lemma number_shorter n : number_of (fun p => (length p < n)%nat /\ bytes p) ((256 ^ N.of_nat n - 1) / 255).
Proof.
  assert (H : exists g, number_of (fun p => (length p < n)%nat /\ bytes p) g /\ 255 * g + 1 = 256 ^ N.of_nat n).
  { induction n as [|n (g & IH & Hg)].
    - exists 0. split; [|reflexivity]. exists []. split; [constructor|]. split; [|reflexivity].
      intros x. split; [intros []|]. intros (K & _). lia.
    - exists (256 ^ N.of_nat n + g). split.
      + eapply number_iff; [apply (number_union _ _ _ _ (number_blocks n) IH)| |reflexivity].
        * intros x (K & _) (K' & _). lia.
        * intros x. unfold block. split.
          -- intros (K & HB). destruct (Nat.eq_dec (length x) n); [left|right]; split; auto. lia.
          -- intros [(K & HB)|(K & HB)]; split; auto; lia.
      + rewrite pow_succ, <- Hg. lia. }
  destruct H as (g & H & E). replace ((256 ^ N.of_nat n - 1) / 255) with g; [exact H|].
  rewrite <- E, N.add_sub. rewrite N.mul_comm. symmetry. now apply N.div_mul.
Qed.

(** ** PKCS padding *)
Lemma number_pkcs n : (1 <= n)%nat ->
  number_of (fun b => block n b /\ exists k, pkcs_unpad n b = Ok k)
            (N.min (N.of_nat n + 1) 256 * 256 ^ (N.of_nat n - 1)).
Proof.
  intros Hn. destruct n as [|n]; [lia|].
  eapply number_iff; [exact (number_snoc _ _ _ _ (number_blocks n) (number_below (N.min (N.of_nat (S n) + 1) 256)))| |].
  - intros l. split.
    + intros (HB & HK). pose proof HB as HB'. apply block_snoc in HB' as (p & b & -> & Hp & Hb).
      exists p, b. split; [reflexivity|]. split; [exact Hp|].
      apply (pkcs_unpad_accepts (S n)) in HK; [|exact Hn|exact (proj1 HB)].
      rewrite last_last in HK. lia.
    + intros (p & b & -> & Hp & Hb).
      assert (HB : block (S n) (p ++ [b])) by (apply block_snoc; exists p, b; repeat split; try apply Hp; lia).
      split; [exact HB|]. apply (pkcs_unpad_accepts (S n)); [exact Hn|exact (proj1 HB)|].
      rewrite last_last. lia.
  - rewrite N.mul_comm. f_equal. f_equal. lia.
Qed.

Lemma number_pkcs_genuine n : (1 <= n <= 255)%nat ->
  number_of (fun b => block n b /\ pkcs_genuine n b) ((256 ^ N.of_nat n - 1) / 255).
Proof.
  intros Hn. eapply (number_map _ _ (pkcs_padded n) _ (number_shorter n)).
  - intros x y (Hx & _) (Hy & _) E.
    destruct (pkcs_roundtrip n x Hn Hx) as (b & B1 & _ & B2 & B3).
    destruct (pkcs_roundtrip n y Hn Hy) as (c & C1 & _ & C2 & C3).
    rewrite pkcs_pad_padded in B1, C1 by lia. injection B1 as <-. injection C1 as <-.
    rewrite <- E in C2, C3. rewrite B3 in C3. injection C3 as C3. rewrite C3 in B2. congruence.
  - intros c. split.
    + intros ((HL & HB) & p & Hp & ->). exists p. split; [|reflexivity]. split; [exact Hp|].
      unfold pkcs_padded in HB. apply Forall_app in HB. apply HB.
    + intros (p & (Hp & HB) & ->). split; [split|].
      * unfold pkcs_padded. rewrite app_length, repeat_length. lia.
      * unfold pkcs_padded. apply Forall_app. split; [exact HB|]. apply Forall_forall.
        intros x Hx. apply repeat_spec in Hx as ->. red. lia.
      * exists p. auto.
Qed.

(** ** Bit padding *)
Lemma bit_accepts n b : (exists r, bit_unpad n b = Ok r) <-> In 128 b.
Proof.
  destruct (bit_unpad_panics n b) as (H & _). split.
  - intros (r & E). destruct (in_dec N.eq_dec 128 b) as [K|K]; [exact K|].
    apply H in K as (p & K). congruence.
  - intros K. destruct (bit_unpad n b) as [r|p] eqn:E; [eauto|].
    exfalso. apply (proj1 H); eauto.
Qed.

Lemma number_bit n : number_of (fun b => block n b /\ exists r, bit_unpad n b = Ok r)
  (256 ^ N.of_nat n - 255 ^ N.of_nat n).
Proof.
  assert (H : exists g, number_of (fun b => block n b /\ In 128 b) g /\ g + 255 ^ N.of_nat n = 256 ^ N.of_nat n).
  { induction n as [|n (g & IH & Hg)].
    - exists 0. split; [|reflexivity]. exists []. split; [constructor|]. split; [|reflexivity].
      intros x. split; [intros []|]. intros ((K & _) & I). destruct x; [destruct I|discriminate K].
    - exists (256 ^ N.of_nat n * 1 + g * 255). split.
      + assert (Q1 : number_of (fun b => b = 128) 1).
        { exists [128]. split; [repeat constructor; intros []|]. split; [|reflexivity].
          intros x. cbn. split; [intros [<-|[]]; reflexivity|intros ->; now left]. }
        assert (Q2 : number_of (fun b => b < 256 /\ b <> 128) 255).
        { apply (number_map (fun b => b < 255) _ (fun b => if b <? 128 then b else b + 1) _ (number_below 255)).
          - intros x y Hx Hy. destruct (N.ltb_spec x 128), (N.ltb_spec y 128); lia.
          - intros c. split.
            + intros (K1 & K2). destruct (N.ltb_spec c 128).
              * exists c. destruct (N.ltb_spec c 128); lia.
              * exists (c - 1). destruct (N.ltb_spec (c - 1) 128); lia.
            + intros (b & Hb & ->). destruct (N.ltb_spec b 128); lia. }
        eapply number_iff; [apply (number_union _ _ _ _ (number_snoc _ _ _ _ (number_blocks n) Q1) (number_snoc _ _ _ _ IH Q2))| |reflexivity].
        * intros x (p & b & -> & _ & ->) (p' & b' & E & _ & _ & K). apply app_inj_tail in E as (_ & E). congruence.
        * intros x. split.
          -- intros (HB & HI). apply block_snoc in HB as (p & b & -> & Hp & Hb).
             destruct (N.eq_dec b 128) as [->|K]; [left; exists p, 128; auto|]. right. exists p, b.
             split; [reflexivity|]. split; [|auto]. split; [exact Hp|].
             apply in_app_iff in HI as [HI|[HI|[]]]; [exact HI|]. congruence.
          -- intros [(p & b & -> & Hp & ->)|(p & b & -> & (Hp & HI) & Hb & _)].
             ++ split; [apply block_snoc; exists p, 128; split; [reflexivity|split; [exact Hp|lia]]|]. apply in_app_iff. right. now left.
             ++ split; [apply block_snoc; exists p, b; auto|]. apply in_app_iff. now left.
      + rewrite !pow_succ, <- Hg. lia. }
  destruct H as (g & H & E). eapply number_iff; [exact H| |lia].
  intros b. now rewrite bit_accepts.
Qed.

Lemma number_bit_genuine n :
  number_of (fun b => block n b /\ exists p, (length p < n)%nat /\ b = bit_padded n p) ((256 ^ N.of_nat n - 1) / 255).
Proof.
  eapply (number_map _ _ (bit_padded n) _ (number_shorter n)).
  - intros x y (Hx & _) (Hy & _) E.
    destruct (bit_roundtrip n x Hx) as (b & B1 & _ & B2).
    destruct (bit_roundtrip n y Hy) as (c & C1 & _ & C2).
    rewrite (proj1 (bit_pad_exact n x)) in B1 by assumption. rewrite (proj1 (bit_pad_exact n y)) in C1 by assumption. injection B1 as <-. injection C1 as <-.
    rewrite <- E, B2 in C2. injection C2 as C2 C3. rewrite C3 in C2. now apply app_inv_tail in C2.
  - intros c. split.
    + intros ((HL & HB) & p & Hp & ->). exists p. split; [|reflexivity]. split; [exact Hp|].
      unfold bit_padded in HB. apply Forall_app in HB. apply HB.
    + intros (p & (Hp & HB) & ->). split; [split|].
      * unfold bit_padded. rewrite app_length. cbn [length]. rewrite repeat_length. lia.
      * unfold bit_padded. apply Forall_app. split; [exact HB|]. constructor; [red; lia|].
        apply Forall_forall. intros x Hx. apply repeat_spec in Hx as ->. red. lia.
      * exists p. auto.
Qed.

(** ** Ciphertexts *)
Lemma cut_blocks n m : forall l, length l = (n * m)%nat -> bytes l ->
  exists bs, concat bs = l /\ Forall (block n) bs.
Proof.
  induction m as [|m IH]; intros l HL HB.
  - exists []. split; [|constructor]. destruct l; [reflexivity|]. cbn in HL. lia.
  - destruct (IH (skipn n l)) as (bs & E & HF).
    + rewrite skipn_length. lia.
    + now apply Forall_skipn.
    + exists (firstn n l :: bs). cbn. rewrite E, firstn_skipn. split; [reflexivity|].
      constructor; [|exact HF]. split; [rewrite firstn_length; nia|]. now apply Forall_firstn.
Qed.

Lemma ecb_run n cipher bs : cipher_inverse n (turned cipher) -> Forall (block n) bs ->
  exists os, run_mode (cm_decrypt_block ecb_mode cipher) tt bs = (os, Ok tt) /\
    Forall2 (fun b o => bc_decrypt cipher b = Ok o /\ block n o) bs os.
Proof.
  intros HT. induction 1 as [|b bs (HL & HB) _ (os & E & HF)].
  - exists []. split; [reflexivity|constructor].
  - destruct (HT b HL HB) as (o & Eo & Lo & Bo & _). cbn [turned bc_encrypt] in Eo.
    exists (o :: os). split; [|constructor; [repeat split; assumption|exact HF]].
    cbn [run_mode ecb_mode cm_decrypt_block]. rewrite Eo. cbn [bind].
    change (fun s block => let* b := bc_decrypt cipher block in Ok (s, b)) with (cm_decrypt_block ecb_mode cipher).
    now rewrite E.
Qed.

Lemma ecb_accepts n cipher m pre l o : (1 <= n)%nat -> cipher_inverse n (turned cipher) ->
  block (n * m) pre -> block n l -> bc_decrypt cipher l = Ok o ->
  ((exists p, be_decrypt n cipher ecb_mode tt (pre ++ l) = (p, Ok tt)) <-> last o 0 <= N.of_nat n).
Proof.
  intros Hn HT (PL & PB) Hl Ho. destruct (cut_blocks n m pre PL PB) as (bs & E & HF).
  destruct (ecb_run n cipher (bs ++ [l]) HT) as (os & ER & H2).
  { apply Forall_app. split; [exact HF|]. constructor; [exact Hl|constructor]. }
  assert (HO : Forall (fun o => length o = n) os).
  { clear - H2. induction H2 as [|? ? ? ? (_ & K & _) _ IH]; constructor; assumption. }
  pose proof (be_decrypt_eq n cipher ecb_mode tt (pre ++ l) (bs ++ [l]) Hn) as K.
  rewrite ER in K. cbn [fst] in K.
  destruct K as (os' & o' & Eos & Lo & K1 & K2).
  - split; [|rewrite concat_app, E; cbn; now rewrite app_nil_r].
    apply Forall_app. split; [|constructor; [exact (proj1 Hl)|constructor]].
    eapply Forall_impl; [|exact HF]. intros a Ha. exact (proj1 Ha).
  - intros C. destruct bs; discriminate C.
  - exact HO.
  - assert (o' = o).
    { rewrite Eos in H2. apply Forall2_app_inv_l in H2 as (x & y & _ & H2 & Ex).
      inversion H2 as [|? z ? w (Hz & _) Hw]; subst. inversion Hw; subst.
      apply app_inj_tail in Ex as (_ & <-). congruence. }
    subst o'. split.
    + intros (p & Ep). destruct (N.le_gt_cases (last o 0) (N.of_nat n)) as [C|C]; [exact C|].
      rewrite (K2 C) in Ep. discriminate Ep.
    + intros C. eexists. exact (K1 C).
Qed.

Definition encrypted (cipher : block_cipher) (b : list N) : list N :=
  match bc_encrypt cipher b with Ok c => c | Panic _ => [] end.

Lemma number_ecb n cipher m : (1 <= n)%nat -> cipher_inverse n cipher -> cipher_inverse n (turned cipher) ->
  number_of (fun c => block (n * (m + 1)) c /\ exists p, be_decrypt n cipher ecb_mode tt c = (p, Ok tt))
            (N.min (N.of_nat n + 1) 256 * 256 ^ (N.of_nat (n * (m + 1)) - 1)).
Proof.
  intros Hn HE HT.
  assert (H : number_of (fun c => block (n * (m + 1)) c /\ exists p, be_decrypt n cipher ecb_mode tt c = (p, Ok tt))
    (256 ^ N.of_nat (n * m) * (N.min (N.of_nat n + 1) 256 * 256 ^ (N.of_nat n - 1)))).
  { eapply (number_map _ _ (fun x => fst x ++ encrypted cipher (snd x)) _
      (number_pair _ _ _ _ (number_blocks (n * m)) (number_pkcs n Hn))).
    - intros [p b] [p' b'] ((HL & _) & (HB & _)) ((HL' & _) & (HB' & _)) E. cbn [fst snd] in *.
      assert (Ep : p = p').
      { apply (f_equal (firstn (n * m))) in E.
        rewrite <- HL in E at 1. rewrite <- HL' in E.
        rewrite !firstn_app, !Nat.sub_diag, !firstn_all in E. cbn [firstn] in E. now rewrite !app_nil_r in E. }
      subst p'. apply app_inv_head in E. f_equal.
      destruct (HE b (proj1 HB) (proj2 HB)) as (c & C1 & _ & _ & C2).
      destruct (HE b' (proj1 HB') (proj2 HB')) as (c' & C1' & _ & _ & C2').
      unfold encrypted in E. rewrite C1, C1' in E. subst c'. congruence.
    - intros c. split.
      + intros ((CL & CB) & HA).
        assert (Hp : block (n * m) (firstn (n * m) c)).
        { split; [rewrite firstn_length; nia|now apply Forall_firstn]. }
        assert (Hl : block n (skipn (n * m) c)).
        { split; [rewrite skipn_length; nia|now apply Forall_skipn]. }
        destruct (HT _ (proj1 Hl) (proj2 Hl)) as (o & O1 & O2 & O3 & O4).
        cbn [turned bc_encrypt bc_decrypt] in O1, O4.
        exists (firstn (n * m) c, o). cbn [fst snd]. unfold encrypted. rewrite O4, firstn_skipn.
        split; [|reflexivity]. split; [exact Hp|]. split; [split; assumption|].
        rewrite <- (firstn_skipn (n * m) c) in HA.
        apply (ecb_accepts n cipher m _ _ o Hn HT Hp Hl O1) in HA.
        now apply (pkcs_unpad_accepts n).
      + intros ([p b] & (Hp & HB & HK) & ->). cbn [fst snd] in *.
        destruct (HE b (proj1 HB) (proj2 HB)) as (c & C1 & C2 & C3 & C4).
        unfold encrypted. rewrite C1. split.
        * destruct Hp as (PL & PB). split; [rewrite app_length; nia|]. apply Forall_app. now split.
        * apply (ecb_accepts n cipher m p c b Hn HT Hp (conj C2 C3) C4).
          apply (pkcs_unpad_accepts n); auto. apply HB. }
  eapply number_iff; [exact H|reflexivity|].
  rewrite N.mul_comm, <- N.mul_assoc, <- N.pow_add_r. do 2 f_equal. lia.
Qed.

Lemma number_aes nk key c m : nk = 4%nat \/ nk = 6%nat \/ nk = 8%nat ->
  length key = (4 * nk)%nat -> bytes key -> aes_make nk key = Ok c ->
  number_of (fun ct => block (16 * (m + 1)) ct /\ exists p, be_decrypt 16 (aes_cipher c) ecb_mode tt ct = (p, Ok tt))
            (17 * 256 ^ (16 * N.of_nat m + 15)).
Proof.
  intros Hnk Hl Hb Hc.
  replace (17 * 256 ^ (16 * N.of_nat m + 15)) with
    (N.min (N.of_nat 16 + 1) 256 * 256 ^ (N.of_nat (16 * (m + 1)) - 1)).
  - apply number_ecb; [lia|exact (aes_cipher_inverse nk key c Hnk Hl Hb Hc)|].
    intros b B1 B2. destruct (aes_inverse nk key b Hnk Hl Hb B1 B2) as (c' & e & d & E1 & _ & _ & _ & _ & E2).
    assert (c' = c) by congruence. subst c'. exists d. exact E2.
  - replace (N.of_nat (16 * (m + 1)) - 1) with (16 * N.of_nat m + 15) by lia. reflexivity.
Qed.
