(** * Proofs: multicollisions *)
From Verif Require Import Base BaseLemmas ModelSha ModelMd SpecEndian SpecWord SpecMd SpecSha SpecMerkle SpecMulti
  ProofEndian ProofWord ProofMd ProofSha ProofSha2 ProofHash ProofMerkle ProofKeys.
From Coq Require Import ZifyBool ZifyNat ZifyN.
Ltac Zify.zify_post_hook ::= idtac.
Local Open Scope N_scope.

Lemma choices_length ps : length (choices ps) = (2 ^ length ps)%nat.
Proof.
  induction ps as [|[a b] ps IH]; [reflexivity|].
  cbn [choices length Nat.pow]. rewrite app_length, !map_length, IH. lia.
Qed.

Lemma app_head_nodup (a : list N) l : NoDup l -> NoDup (map (fun m => a ++ m) l).
Proof.
  intros D. induction D as [|x l NI D IH]; cbn [map]; [constructor|]. constructor; [|exact IH].
  intros I. apply in_map_iff in I. destruct I as (y & E & I). apply app_inv_head in E. now subst y.
Qed.

Lemma NoDup_app_intro {X} (l l' : list X) : NoDup l -> NoDup l' -> (forall x, In x l -> In x l' -> False) -> NoDup (l ++ l').
Proof.
  intros D D' H. induction D as [|x l NI D IH]; [exact D'|]. cbn [app]. constructor.
  - intros I. apply in_app_or in I. destruct I as [I|I]; [now apply NI|]. now apply (H x (or_introl eq_refl)).
  - apply IH. intros y Iy. apply H. now right.
Qed.

Section Chain.
  Context {A : Type} (f : A -> list N -> res A) (g : A -> list N -> A) (P : A -> Prop) (n : nat) (Hn : (0 < n)%nat).
  Context (step : forall s b, P s -> length b = n -> bytes b -> f s b = Ok (g s b) /\ P (g s b)).

  Lemma groups_wf q (b : list N) : length b = (q * n)%nat -> bytes b ->
    Forall (fun c => length c = n) (groups n b) /\ Forall bytes (groups n b).
  Proof using Hn.
    intros L B. split; [|now apply groups_bytes]. now destruct (concat_groups n q b Hn L) as (_ & _ & F).
  Qed.

  Lemma chain_wf h ps : chain f n h ps ->
    Forall bytes (choices ps) /\ Forall (fun m => length m = chain_length ps) (choices ps) /\ NoDup (choices ps).
  Proof using Type.
    intros C. induction C as [h|h s q a b ps Hne La Lb Ba Bb Ra Rb C (IB & IL & ID)].
    - split; [repeat constructor|]. split; [repeat constructor|]. constructor; [intros []|constructor].
    - unfold chain_length in *. cbn [choices map concat fst]. rewrite app_length. split; [|split].
      + apply Forall_app. split; apply Forall_map; (eapply Forall_impl; [|exact IB]); intros m Bm;
          apply Forall_app; split; assumption.
      + apply Forall_app. split; apply Forall_map; (eapply Forall_impl; [|exact IL]); intros m Lm;
          cbv beta in Lm |- *; rewrite app_length; clear - Lm La Lb; lia.
      + apply NoDup_app_intro.
        * now apply app_head_nodup.
        * now apply app_head_nodup.
        * intros x I I'. apply in_map_iff in I. apply in_map_iff in I'.
          destruct I as (y & E & Iy). destruct I' as (z & E' & Iz). subst x. apply Hne.
          symmetry. refine (proj1 (app_inv_len b a z y E' _)).
          rewrite Forall_forall in IL. now rewrite (IL y Iy), (IL z Iz).
  Qed.

  Lemma chain_state h ps : chain f n h ps -> P h -> exists s, forall m r, In m (choices ps) ->
    (exists q, length r = (q * n)%nat) -> fold_left g (groups n (m ++ r)) h = fold_left g (groups n r) s.
  Proof using step Hn.
    intros C. induction C as [h|h s q a b ps Hne La Lb Ba Bb Ra Rb C IH]; intros Ph.
    - exists h. intros m r [E|[]] _. subst m. reflexivity.
    - destruct (groups_wf q a La Ba) as [F1 F2]. destruct (run_eq f g P n step _ h Ph F1 F2) as [E Ps].
      destruct (groups_wf q b Lb Bb) as [F3 F4]. destruct (run_eq f g P n step _ h Ph F3 F4) as [E' _].
      rewrite E in Ra. rewrite E' in Rb. apply Ok_inj in Ra. apply Ok_inj in Rb. rewrite Ra in Ps.
      destruct (IH Ps) as [t Ht]. exists t. intros m r I R.
      destruct (chain_wf s ps C) as (_ & IL & _). rewrite Forall_forall in IL.
      assert (M : forall m', In m' (choices ps) -> exists q, length (m' ++ r) = (q * n)%nat).
      { intros m' I'. rewrite app_length, (IL m' I'). clear - C R.
        assert (exists q, chain_length ps = (q * n)%nat) as [q Q].
        { induction C as [|? ? q a b ps ? L ? ? ? ? ? C [q' IH]]; [now exists O|].
          exists (q + q')%nat. unfold chain_length in *. cbn [map concat fst]. rewrite app_length, L, IH. lia. }
        destruct R as [q' R]. exists (q + q')%nat. rewrite Q, R. lia. }
      cbn [choices] in I. apply in_app_or in I.
      destruct I as [I|I]; apply in_map_iff in I; destruct I as (m' & E1 & I); subst m; rewrite <- app_assoc.
      + rewrite (groups_app n q a) by auto. rewrite fold_left_app, Ra. now apply Ht.
      + rewrite (groups_app n q b) by auto. rewrite fold_left_app, Rb. now apply Ht.
  Qed.

  Context (tail : nat -> list N) (Hmul : forall k, exists q, (k + length (tail k) = q * n)%nat).

  Lemma blocks_same h ps x : chain f n h ps -> P h -> exists s, forall m, In m (choices ps) ->
    fold_left g (blocks n tail (m ++ x)) h = s.
  Proof using step Hn Hmul.
    intros C Ph. destruct (chain_state h ps C Ph) as [s Hs].
    destruct (chain_wf h ps C) as (_ & IL & _). rewrite Forall_forall in IL.
    exists (fold_left g (groups n (x ++ tail (chain_length ps + length x)%nat)) s).
    intros m I. unfold blocks. rewrite <- app_assoc, app_length, (IL m I). apply Hs; [exact I|].
    assert (exists q, chain_length ps = (q * n)%nat) as [q Q].
    { clear - C. induction C as [|? ? q a b ps ? L ? ? ? ? ? C [q' IH]]; [now exists O|].
      exists (q + q')%nat. unfold chain_length in *. cbn [map concat fst]. rewrite app_length, L, IH. lia. }
    destruct (Hmul (chain_length ps + length x)%nat) as [q' Q']. exists (q' - q)%nat. rewrite app_length. nia.
  Qed.

  Lemma multi (hash : list N -> res (list N)) (out : A -> list N) h ps x (bound : N) :
    (forall m, bytes m -> N.of_nat (length m) < bound -> hash m = Ok (out (fold_left g (blocks n tail m) h))) ->
    chain f n h ps -> P h -> bytes x -> N.of_nat (chain_length ps + length x) < bound ->
    multicollision hash ps x.
  Proof using step Hn Hmul.
    intros Hh C Ph Bx L. destruct (blocks_same h ps x C Ph) as [s Hs].
    destruct (chain_wf h ps C) as (IB & IL & ID). rewrite Forall_forall in IB, IL.
    split; [|split; [exact ID|apply choices_length]].
    exists (out s). intros m I. rewrite Hh.
    - now rewrite (Hs m I).
    - apply Forall_app. split; [now apply IB|exact Bx].
    - rewrite app_length, (IL m I). exact L.
  Qed.
End Chain.

(** ** Two hash functions side by side *)
Lemma joux hash ps x (other : list N -> list N) (L : list (list N)) :
  multicollision hash ps x -> (forall m, In m (choices ps) -> In (other (m ++ x)) L) -> (length L < 2 ^ length ps)%nat ->
  exists m m', In m (choices ps) /\ In m' (choices ps) /\ m <> m' /\
    hash (m ++ x) = hash (m' ++ x) /\ other (m ++ x) = other (m' ++ x).
Proof.
  intros ([d Hd] & ND & Len) HL Hlt.
  destruct (repeated (list_eq_dec N.eq_dec) (map (fun m => other (m ++ x)) (choices ps))) as (a & l1 & l2 & l3 & E).
  { intros D. assert (I : incl (map (fun m => other (m ++ x)) (choices ps)) L).
    { intros y Iy. apply in_map_iff in Iy. destruct Iy as (m & Em & Im). subst y. now apply HL. }
    pose proof (NoDup_incl_length D I) as B. rewrite map_length, Len in B. clear - B Hlt. lia. }
  apply map_eq_app in E. destruct E as (k1 & k2 & Ek & E1 & E2).
  apply map_eq_cons in E2. destruct E2 as (m & k3 & Ek2 & Em & E3).
  apply map_eq_app in E3. destruct E3 as (k4 & k5 & Ek3 & E4 & E5).
  apply map_eq_cons in E5. destruct E5 as (m' & k6 & Ek5 & Em' & E6). subst k2 k3 k5.
  assert (I : In m (choices ps)) by (rewrite Ek; apply in_or_app; right; now left).
  assert (I' : In m' (choices ps)).
  { rewrite Ek. apply in_or_app. right. right. apply in_or_app. right. now left. }
  exists m, m'. split; [exact I|]. split; [exact I'|]. split; [|split].
  - intros Eq. subst m'. rewrite Ek in ND. apply NoDup_remove_2 in ND. apply ND.
    apply in_or_app. right. apply in_or_app. right. now left.
  - now rewrite (Hd m I), (Hd m' I').
  - now rewrite Em, Em'.
Qed.

(** ** The hash functions *)
Lemma sha1_multi ps x : chain sha1_process_chunk 64 INITIAL_HASH_SHA1 ps -> bytes x ->
  N.of_nat (chain_length ps + length x) < 2 ^ 61 -> multicollision sha1 ps x.
Proof.
  intros C Bx L.
  apply (multi sha1_process_chunk sha1_compress h5_ok 64 ltac:(lia) (fun s b => sha1_process_eq s b)
    (sha_tail 64 8) (sha_tail_mul 64 8 ltac:(lia)) sha1 (fun s => concat (map (be_bytes 4) s)) INITIAL_HASH_SHA1 ps x (2 ^ 61));
    [|exact C|exact h5_init|exact Bx|exact L].
  intros m Bm Lm. rewrite sha1_conforms by auto. reflexivity.
Qed.

Lemma sha2_multi kind k init j hash bound ps x :
  (0 < s2_word kind)%nat -> (16 <= s2_rounds kind)%nat -> length k = s2_rounds kind -> h8_ok (s2_bits kind) init ->
  (forall m, bytes m -> N.of_nat (length m) < bound -> hash m = Ok (concat (map (be_bytes (s2_word kind)) (firstn j
     (fold_left (sha2_compress kind k) (groups (16 * s2_word kind) (sha_pad (16 * s2_word kind) (2 * s2_word kind) m)) init))))) ->
  chain (model_process kind k) (16 * s2_word kind) init ps -> bytes x ->
  N.of_nat (chain_length ps + length x) < bound -> multicollision hash ps x.
Proof.
  intros Hw Hr Lk Hi Hh C Bx L.
  exact (multi (model_process kind k) (sha2_compress kind k) (h8_ok (s2_bits kind)) (16 * s2_word kind) ltac:(lia)
    (fun s b Ps Lb Bb => sha2_process_eq kind k s b Hw Hr Lk Ps Lb Bb)
    (sha_tail (16 * s2_word kind) (2 * s2_word kind)) (sha_tail_mul (16 * s2_word kind) (2 * s2_word kind) ltac:(lia)) hash
    (fun s => concat (map (be_bytes (s2_word kind)) (firstn j s))) init ps x bound Hh C Hi Bx L).
Qed.

Lemma sha256_multi ps x : chain sha2_process_chunk 64 INITIAL_HASH_256 ps -> bytes x ->
  N.of_nat (chain_length ps + length x) < 2 ^ 61 -> multicollision sha256 ps x.
Proof.
  rewrite process_256.
  refine (sha2_multi sha256_kind ROUND_CONSTANTS INITIAL_HASH_256 8 sha256 (2 ^ 61) ps x wordpos_256 rounds_256 klen_256 init_ok_256 _).
  intros m Bm Lm. rewrite sha256_conforms by auto. unfold sha256_spec, sha2_spec. now rewrite <- round_constants, <- initial_256.
Qed.
Lemma sha224_multi ps x : chain sha2_process_chunk 64 INITIAL_HASH_224 ps -> bytes x ->
  N.of_nat (chain_length ps + length x) < 2 ^ 61 -> multicollision sha224 ps x.
Proof.
  rewrite process_256.
  refine (sha2_multi sha256_kind ROUND_CONSTANTS INITIAL_HASH_224 7 sha224 (2 ^ 61) ps x wordpos_256 rounds_256 klen_256 init_ok_224 _).
  intros m Bm Lm. rewrite sha224_conforms by auto. unfold sha224_spec, sha2_spec. now rewrite <- round_constants, <- initial_224.
Qed.
Lemma sha512_multi ps x : chain sha2_process_big_chunk 128 INITIAL_HASH_512 ps -> bytes x ->
  N.of_nat (chain_length ps + length x) < 2 ^ 125 -> multicollision sha512 ps x.
Proof.
  rewrite process_512.
  refine (sha2_multi sha512_kind ROUND_CONSTANTS_BIG INITIAL_HASH_512 8 sha512 (2 ^ 125) ps x wordpos_512 rounds_512 klen_512 init_ok_512 _).
  intros m Bm Lm. rewrite sha512_conforms by auto. unfold sha512_spec, sha2_spec. now rewrite <- round_constants_big, <- initial_512.
Qed.
Lemma sha384_multi ps x : chain sha2_process_big_chunk 128 INITIAL_HASH_384 ps -> bytes x ->
  N.of_nat (chain_length ps + length x) < 2 ^ 125 -> multicollision sha384 ps x.
Proof.
  rewrite process_512.
  refine (sha2_multi sha512_kind ROUND_CONSTANTS_BIG INITIAL_HASH_384 6 sha384 (2 ^ 125) ps x wordpos_512 rounds_512 klen_512 init_ok_384 _).
  intros m Bm Lm. rewrite sha384_conforms by auto. unfold sha384_spec, sha2_spec. now rewrite <- round_constants_big, <- initial_384.
Qed.

Lemma md_multi step ops hash ps x :
  (forall m, N.of_nat (length m) < 2 ^ 61 -> hash m = Ok (md_spec step ops m)) ->
  chain (fun st b => Ok (md_compress step ops st b)) 64 md_init ps -> bytes x ->
  N.of_nat (chain_length ps + length x) < 2 ^ 61 -> multicollision hash ps x.
Proof.
  intros Hh C Bx L.
  apply (multi (fun st b => Ok (md_compress step ops st b)) (md_compress step ops) (fun _ => True) 64 ltac:(lia)
    (fun s b _ _ _ => conj eq_refl I) md_tail md_tail_mul hash md_output md_init ps x (2 ^ 61));
    [|exact C|exact I|exact Bx|exact L].
  intros m _ Lm. rewrite Hh by exact Lm. reflexivity.
Qed.
Lemma md4_multi ps x : chain (fun st b => Ok (md_compress md4_step md4_ops st b)) 64 md_init ps -> bytes x ->
  N.of_nat (chain_length ps + length x) < 2 ^ 61 -> multicollision md4_hash ps x.
Proof. exact (md_multi md4_step md4_ops md4_hash ps x (fun m => md4_conforms m)). Qed.
Lemma md5_multi ps x : chain (fun st b => Ok (md_compress md5_step md5_ops st b)) 64 md_init ps -> bytes x ->
  N.of_nat (chain_length ps + length x) < 2 ^ 61 -> multicollision md5_hash ps x.
Proof. exact (md_multi md5_step md5_ops md5_hash ps x (fun m => md5_conforms m)). Qed.

(** ** The chain for MD4 *)
Lemma list_neqb (a b : list N) : (if list_eq_dec N.eq_dec a b then true else false) = false -> a <> b.
Proof. destruct (list_eq_dec N.eq_dec a b); [discriminate|auto]. Qed.
Lemma bytes_check (l : list N) : forallb (fun x => x <? 256) l = true -> bytes l.
Proof. intros H. apply Forall_forall. intros x I. rewrite forallb_forall in H. specialize (H x I). unfold byte. lia. Qed.

Lemma md4_chain_ok : chain (fun st b => Ok (md_compress md4_step md4_ops st b)) 64 md_init md4_chain.
Proof.
  unfold md4_chain. rewrite (surjective_pairing md4_pair).
  eapply (chain_cons _ _ _ _ 1);
    [apply list_neqb; vm_compute; reflexivity|vm_compute; reflexivity|vm_compute; reflexivity
    |apply bytes_check; vm_compute; reflexivity|apply bytes_check; vm_compute; reflexivity
    |vm_compute; reflexivity|vm_compute; reflexivity|].
  eapply (chain_cons _ _ _ _ 1);
    [apply list_neqb; vm_compute; reflexivity|vm_compute; reflexivity|vm_compute; reflexivity
    |apply bytes_check; vm_compute; reflexivity|apply bytes_check; vm_compute; reflexivity
    |vm_compute; reflexivity|vm_compute; reflexivity|].
  eapply (chain_cons _ _ _ _ 1);
    [apply list_neqb; vm_compute; reflexivity|vm_compute; reflexivity|vm_compute; reflexivity
    |apply bytes_check; vm_compute; reflexivity|apply bytes_check; vm_compute; reflexivity
    |vm_compute; reflexivity|vm_compute; reflexivity|].
  apply chain_nil.
Qed.

Lemma md4_eight x : bytes x -> N.of_nat (length x) < 2 ^ 60 ->
  exists ms d, length ms = 8%nat /\ NoDup ms /\ forall m, In m ms -> md4_hash (m ++ x) = Ok d.
Proof.
  intros Bx L. destruct (md4_multi md4_chain x md4_chain_ok Bx) as ([d Hd] & ND & Len).
  { replace (chain_length md4_chain) with 192%nat by (vm_compute; reflexivity).
    change (2 ^ 61) with (2 * 2 ^ 60). assert (192 < 2 ^ 60) by reflexivity. clear - L H.
    rewrite Nat2N.inj_add. change (N.of_nat 192) with 192. lia. }
  exists (choices md4_chain), d. split; [exact Len|]. split; [exact ND|exact Hd].
Qed.
