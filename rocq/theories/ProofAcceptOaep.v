(** * C135: how many strings OAEP decoding accepts *)
From Verif Require Import Base BaseLemmas ModelSha ModelRsa SpecSha SpecOaep SpecAccept ProofOaep ProofAccept.
From Coq Require Import ZifyBool ZifyNat ZifyN.
Local Open Scope N_scope.

Section Oaep.
Context (hasher : list N -> res (list N)) (H : list N -> list N) (hn : nat) (limit : N).
Context (Himp : implements hasher H hn limit) (Hhn : (0 < hn)%nat).
Context (label : list N) (k : nat).
Context (Bl : bytes label) (Hs : oaep_sizes hn limit label k).

Lemma mask_facts seed : length seed = hn -> bytes seed -> (hn + 1 <= k)%nat ->
  length (mgf1_spec H hn seed (k - hn - 1)) = (k - hn - 1)%nat /\ bytes (mgf1_spec H hn seed (k - hn - 1)).
Proof using Himp Hhn Hs.
  intros Ls Bs Hk. destruct Hs as (L1 & L2 & L3).
  destruct (mgf1_db hasher H hn limit Himp Hhn seed k Ls Bs L2 L3 Hk) as (_ & E). exact E.
Qed.

Lemma em_parts seed m : length seed = hn -> bytes seed -> bytes m -> oaep_fits hn m k ->
  let mdb := xor_bytes (data_block H hn label m k) (mgf1_spec H hn seed (k - hn - 1)) in
  length mdb = (k - hn - 1)%nat /\ bytes mdb /\ length (mgf1_spec H hn mdb hn) = hn.
Proof using Himp Hhn Hs Bl.
  intros Ls Bs Bm F. pose proof F as F'. red in F'. destruct (mask_facts seed Ls Bs) as (M1 & M2); [lia|].
  pose proof Hs as (L1 & L2 & L3).
  pose proof (data_block_length hasher H hn limit Himp Hhn label m k Bl L1 F) as D.
  cbv zeta. set (mdb := xor_bytes _ _).
  assert (L : length mdb = (k - hn - 1)%nat) by (unfold mdb; rewrite xor_bytes_length; congruence).
  assert (B : bytes mdb) by (apply xor_bytes_bytes; [exact (data_block_bytes hasher H hn limit Himp label m k Bl L1 Bm)|exact M2]).
  split; [exact L|]. split; [exact B|].
  apply (mgf1_seed hasher H hn limit Himp Hhn mdb B). lia.
Qed.

Lemma spec_seed seed seed' m : length seed = hn -> bytes seed -> length seed' = hn -> bytes seed' ->
  bytes m -> oaep_fits hn m k -> oaep_spec H hn seed label m k = oaep_spec H hn seed' label m k -> seed = seed'.
Proof using Himp Hhn Hs Bl.
  intros Ls Bs Ls' Bs' Bm F E.
  destruct (em_parts seed m Ls Bs Bm F) as (A1 & A2 & A3). destruct (em_parts seed' m Ls' Bs' Bm F) as (B1 & B2 & B3).
  unfold oaep_spec in E. cbv zeta in *.
  set (d := xor_bytes _ (mgf1_spec H hn seed (k - hn - 1))) in *.
  set (d' := xor_bytes _ (mgf1_spec H hn seed' (k - hn - 1))) in *.
  cbn [app] in E. apply (f_equal (@tl N)) in E. cbn [tl] in E.
  assert (LX : length (xor_bytes seed (mgf1_spec H hn d hn)) = hn) by (rewrite xor_bytes_length; congruence).
  assert (LX' : length (xor_bytes seed' (mgf1_spec H hn d' hn)) = hn) by (rewrite xor_bytes_length; congruence).
  assert (Ed : d = d').
  { apply (f_equal (skipn hn)) in E. rewrite !skipn_app, LX, LX', !Nat.sub_diag in E.
    rewrite (skipn_all2 (xor_bytes seed _)), (skipn_all2 (xor_bytes seed' _)) in E by lia. exact E. }
  rewrite <- Ed in *. apply app_inv_tail in E.
  rewrite <- (xor_bytes_cancel seed (mgf1_spec H hn d hn)) by congruence.
  rewrite E. apply xor_bytes_cancel. congruence.
Qed.

Lemma encoded_bytes seed m em : length seed = hn -> bytes seed -> oaep_fits hn m k -> bytes em ->
  em = oaep_spec H hn seed label m k -> bytes m.
Proof using Himp Hhn Hs Bl.
  intros Ls Bs F Bem E. pose proof F as F'. red in F'.
  destruct (mask_facts seed Ls Bs) as (M1 & M2); [lia|]. pose proof Hs as (L1 & _).
  pose proof (data_block_length hasher H hn limit Himp Hhn label m k Bl L1 F) as D.
  rewrite E in Bem. unfold oaep_spec in Bem. cbv zeta in Bem.
  apply Forall_app in Bem as (_ & Bem). apply Forall_app in Bem as (_ & Bem).
  assert (BD : bytes (data_block H hn label m k)).
  { rewrite <- (xor_bytes_cancel (data_block H hn label m k) (mgf1_spec H hn seed (k - hn - 1))) by congruence.
    now apply xor_bytes_bytes. }
  unfold data_block in BD. apply Forall_app in BD as (_ & BD). apply Forall_app in BD as (_ & BD).
  apply Forall_app in BD as (_ & BD). exact BD.
Qed.

Lemma fits_shorter m : oaep_fits hn m k <-> (length m < k - 2 * hn - 1)%nat.
Proof using. clear. unfold oaep_fits. lia. Qed.

Lemma number_oaep_accepted :
  number_of (fun em => block k em /\ exists m, oaep_decode hn hasher label em k = Ok (ROk m))
            (256 ^ N.of_nat hn * ((256 ^ N.of_nat (k - 2 * hn - 1) - 1) / 255)).
Proof using Himp Hhn Hs Bl.
  eapply (number_map _ _ (fun x => oaep_spec H hn (fst x) label (snd x) k) _
    (number_pair _ _ _ _ (number_blocks hn) (number_shorter (k - 2 * hn - 1)))).
  - intros [s m] [s' m'] ((Ls & Bs) & (Hm & Bm)) ((Ls' & Bs') & (Hm' & Bm')) E. cbn [fst snd] in *.
    apply fits_shorter in Hm, Hm'.
    pose proof (oaep_spec_length hasher H hn limit Himp Hhn s label m k Ls Bs Bl Bm Hs Hm) as L.
    assert (m = m').
    { apply (oaep_encodes_unique hasher H hn limit Himp Hhn label m m' (oaep_spec H hn s label m k) Bl).
      - apply (oaep_spec_bytes hasher H hn limit Himp Hhn); auto.
      - rewrite L. exact Hs.
      - exists s. rewrite L. auto.
      - exists s'. rewrite L. auto. }
    subst m'. f_equal. now apply (spec_seed s s' m).
  - intros em. split.
    + intros ((L & B) & m & E). rewrite <- L in E at 1.
      apply (oaep_decode_iff hasher H hn limit Himp Hhn) in E; [|exact Bl|exact B|now rewrite L].
      destruct E as (s & Ls & Bs & F & E). rewrite L in F, E. exists (s, m). cbn [fst snd].
      split; [|exact E]. split; [now split|]. split; [now apply fits_shorter|].
      exact (encoded_bytes s m em Ls Bs F B E).
    + intros ([s m] & ((Ls & Bs) & (Hm & Bm)) & ->). cbn [fst snd] in *. apply fits_shorter in Hm.
      pose proof (oaep_spec_length hasher H hn limit Himp Hhn s label m k Ls Bs Bl Bm Hs Hm) as L.
      pose proof (oaep_spec_bytes hasher H hn limit Himp Hhn s label m k Ls Bs Bl Bm Hs Hm) as B.
      split; [now split|]. exists m. rewrite <- L at 2.
      apply (oaep_decode_iff hasher H hn limit Himp Hhn); [exact Bl|exact B|now rewrite L|].
      exists s. rewrite L. auto.
Qed.

Lemma number_oaep_produced :
  number_of (fun em => exists m, bytes m /\ oaep_encode hn hasher label m k = Ok em)
            ((256 ^ N.of_nat (k - 2 * hn - 1) - 1) / 255).
Proof using Himp Hhn Hs Bl.
  assert (L42 : length (repeat 42 hn) = hn) by apply repeat_length.
  assert (B42 : bytes (repeat 42 hn)).
  { apply Forall_forall. intros x Hx. apply repeat_spec in Hx as ->. reflexivity. }
  eapply (number_map _ _ (fun m => oaep_spec H hn (repeat 42 hn) label m k) _ (number_shorter (k - 2 * hn - 1))).
  - intros m m' (Hm & Bm) (Hm' & Bm') E. apply fits_shorter in Hm, Hm'.
    pose proof (oaep_spec_length hasher H hn limit Himp Hhn _ label m k L42 B42 Bl Bm Hs Hm) as L.
    apply (oaep_encodes_unique hasher H hn limit Himp Hhn label m m' (oaep_spec H hn (repeat 42 hn) label m k) Bl).
    + apply (oaep_spec_bytes hasher H hn limit Himp Hhn); auto.
    + rewrite L. exact Hs.
    + exists (repeat 42 hn). rewrite L. auto.
    + exists (repeat 42 hn). rewrite L. auto.
  - intros em. split.
    + intros (m & Bm & E). destruct (Nat.le_gt_cases (length m + 2 * hn + 2) k) as [F|F].
      * exists m. rewrite (oaep_encode_ok hasher H hn limit Himp Hhn label m k Bl Bm Hs F) in E.
        apply Ok_inj in E. split; [|now symmetry]. split; [now apply fits_shorter|exact Bm].
      * rewrite (oaep_encode_too_long hasher H hn limit Himp Hhn label m k Bl (proj1 Hs)) in E; [discriminate E|].
        unfold oaep_fits. lia.
    + intros (m & (Hm & Bm) & ->). apply fits_shorter in Hm. exists m. split; [exact Bm|].
      exact (oaep_encode_ok hasher H hn limit Himp Hhn label m k Bl Bm Hs Hm).
Qed.
End Oaep.

Lemma number_rsa_padding label k : bytes label -> N.of_nat (length label) < 2 ^ 61 -> N.of_nat k <= 2 ^ 37 + 1 ->
  number_of (fun em => block k em /\ exists m, ps_decode rsa_padding label em k = Ok (ROk m))
            (2 ^ 256 * ((256 ^ N.of_nat (k - 65) - 1) / 255)) /\
  number_of (fun em => exists m, bytes m /\ ps_encode rsa_padding label m k = Ok em)
            ((256 ^ N.of_nat (k - 65) - 1) / 255).
Proof.
  intros Bl L K. pose proof (rsa_sizes label k L K) as Hs.
  assert (H32 : (0 < 32)%nat) by lia.
  replace (k - 65)%nat with (k - 2 * 32 - 1)%nat by lia. split.
  - change (2 ^ 256) with (256 ^ N.of_nat 32).
    exact (number_oaep_accepted sha256 sha256_spec 32 (2 ^ 61) sha256_implements H32 label k Bl Hs).
  - exact (number_oaep_produced sha256 sha256_spec 32 (2 ^ 61) sha256_implements H32 label k Bl Hs).
Qed.
