(** * The hashes that decoding computes, for C132 *)
From Verif Require Import Base BaseLemmas ModelSha ModelBig ModelRsa ModelOracle ModelHashed SpecEndian SpecBig SpecSha
  SpecRsa SpecOaep SpecMsg SpecManger SpecHashed ProofEndian ProofBig ProofRsa ProofRsaMath ProofAsn1 ProofKey ProofOaep ProofMsg ProofManger.
From Coq Require Import ZifyBool ZifyNat ZifyN.
Local Open Scope N_scope.
Local Open Scope list_scope.

(** ** Without the record it is the model *)

Lemma er_hbind {A B} (m : hr A) (f : A -> hr B) : snd (hbind m f) = bind (snd m) (fun a => snd (f a)).
Proof. destruct m as [e [a|p]]; [|reflexivity]. cbn [hbind snd bind]. now destruct (f a). Qed.

Lemma bind_ext {A B} (m : res A) (f g : A -> res B) : (forall a, f a = g a) -> bind m f = bind m g.
Proof. intros E. destruct m; [apply E|reflexivity]. Qed.

Lemma er_mgf1_loop {P : profile} fuel hasher sl hc out c size :
  snd (h_mgf1_loop fuel hasher sl hc out c size) = mgf1_loop fuel hasher sl hc out c size.
Proof.
  revert hc out c. induction fuel as [|fuel IH]; intros hc out c; cbn [h_mgf1_loop mgf1_loop];
    destruct (length out <? size)%nat; try reflexivity.
  rewrite er_hbind. apply bind_ext. intros hc'. rewrite er_hbind. apply bind_ext. intros h.
  cbv zeta. rewrite er_hbind. apply bind_ext. intros c'. apply IH.
Qed.

Lemma er_mgf1 {P : profile} hasher seed size : snd (h_mgf1 hasher seed size) = mgf1 hasher seed size.
Proof.
  unfold h_mgf1, mgf1. cbv zeta. rewrite er_hbind, er_mgf1_loop. apply bind_ext. reflexivity.
Qed.

Lemma er_oaep_decode {P : profile} hn hasher label em k :
  snd (h_oaep_decode hn hasher label em k) = oaep_decode hn hasher label em k.
Proof.
  unfold h_oaep_decode, oaep_decode.
  rewrite er_hbind; apply bind_ext; intros b0. destruct (negb (b0 =? 0)); [reflexivity|].
  rewrite er_hbind; apply bind_ext; intros lh. rewrite er_hbind; apply bind_ext; intros ms.
  rewrite er_hbind; apply bind_ext; intros mdb.
  rewrite er_hbind, er_mgf1; apply bind_ext; intros sm. rewrite er_hbind; apply bind_ext; intros seed.
  rewrite er_hbind; apply bind_ext; intros k1. rewrite er_hbind; apply bind_ext; intros k2.
  rewrite er_hbind, er_mgf1; apply bind_ext; intros dm. rewrite er_hbind; apply bind_ext; intros db.
  rewrite er_hbind; apply bind_ext; intros db0. destruct (negb (bytes_eqb db0 lh)); [reflexivity|].
  rewrite er_hbind; apply bind_ext; intros rest. destruct (position _ rest) as [i|]; [|reflexivity].
  rewrite er_hbind; apply bind_ext; intros s. destruct (negb (s =? 1)); [reflexivity|].
  rewrite er_hbind; apply bind_ext; reflexivity.
Qed.

Lemma er_decrypt_message {P : profile} capf key ct :
  snd (h_decrypt_message capf key ct) = decrypt_message capf key ct rsa_padding.
Proof.
  unfold h_decrypt_message, decrypt_message. cbv zeta.
  rewrite er_hbind; apply bind_ext; intros c. rewrite er_hbind; apply bind_ext; intros d.
  rewrite er_hbind; apply bind_ext; intros s. rewrite er_hbind; apply bind_ext; intros m.
  rewrite er_hbind, er_oaep_decode; apply bind_ext; reflexivity.
Qed.

(** ** The hashes of decoding *)

Lemma fst_hlift {A B} (r : res A) (f : A -> hr B) :
  fst (hbind (hlift r) f) = match r with Ok a => fst (f a) | Panic _ => [] end.
Proof. destruct r as [a|p]; [|reflexivity]. cbn [hbind hlift]. now destruct (f a). Qed.

Lemma fst_hbind {A B} (m : hr A) (f : A -> hr B) a : snd m = Ok a ->
  fst (hbind m f) = fst m ++ fst (f a).
Proof. destruct m as [e r]. cbn [snd]. intros ->. cbn [hbind fst]. now destruct (f a). Qed.

Section Hashes.
Context (hasher : list N -> res (list N)) (H : list N -> list N) (hn : nat) (limit : N).
Context (Himp : implements hasher H hn limit) (Hhn : (0 < hn)%nat).

Lemma mgf1_loop_hashes fuel seed hc c size nb : bytes seed -> N.of_nat (length seed) + 4 < limit ->
  firstn (length seed) hc = seed -> length hc = (length seed + 4)%nat ->
  nb = ((size + hn - 1) / hn)%nat -> N.of_nat nb < 2 ^ 32 -> (c <= nb)%nat -> (nb <= fuel + c)%nat ->
  fst (h_mgf1_loop fuel hasher (length seed) hc (mask H seed c) (N.of_nat c) size) =
  repeat (length seed + 4)%nat (nb - c).
Proof using Himp Hhn.
  intros B L F Lh Hnb H32. revert hc c F Lh. induction fuel as [|fuel IH]; intros hc c F Lh C1 C2.
  - cbn [h_mgf1_loop]. rewrite (mask_length hasher H hn limit) by auto. assert (c = nb) as -> by lia.
    rewrite Nat.sub_diag. destruct (Nat.ltb_spec (nb * hn) size) as [X|X]; reflexivity.
  - destruct (Nat.eq_dec c nb) as [->|Hne].
    + cbn [h_mgf1_loop]. rewrite (mask_length hasher H hn limit) by auto. rewrite Nat.sub_diag.
      destruct (Nat.ltb_spec (nb * hn) size) as [X|X]; [|reflexivity]. apply ceil_div in X; auto. lia.
    + cbn [h_mgf1_loop]. rewrite (mask_length hasher H hn limit) by auto.
      assert (S1 : (c * hn < size)%nat) by (apply ceil_div; lia). rewrite (proj2 (Nat.ltb_lt _ _) S1).
      rewrite copy_range_ok by (rewrite ?to_be_length; lia). rewrite fst_hlift.
      rewrite F, skipn_all, app_nil_r, to_be_be_bytes.
      destruct (content_hash hasher H hn limit Himp Hhn seed (N.of_nat c) B L) as (E & _ & _).
      erewrite fst_hbind by (unfold hcall; cbn [snd]; exact E).
      unfold hcall. cbn [fst]. rewrite fst_hlift, cadd_ok by lia.
      rewrite <- mask_snoc. replace (N.of_nat c + 1) with (N.of_nat (S c)) by lia.
      rewrite IH; try lia.
      * replace (nb - c)%nat with (S (nb - S c)) by lia. cbn [repeat app]. f_equal.
        rewrite app_length, <- to_be_be_bytes, to_be_length. lia.
      * now rewrite firstn_app, firstn_all, Nat.sub_diag, app_nil_r.
      * rewrite app_length, <- to_be_be_bytes, to_be_length. lia.
Qed.

Lemma mgf1_hashes seed size : bytes seed -> N.of_nat (length seed) + 4 < limit ->
  N.of_nat size <= (2 ^ 32 - 1) * N.of_nat hn ->
  fst (h_mgf1 hasher seed size) = repeat (length seed + 4)%nat ((size + hn - 1) / hn).
Proof using Himp Hhn.
  intros B L S. unfold h_mgf1.
  assert (E : fst (h_mgf1_loop size hasher (length seed) (seed ++ [0; 0; 0; 0]) [] 0 size) =
    repeat (length seed + 4)%nat ((size + hn - 1) / hn)).
  { change (@nil N) with (mask H seed 0). change 0 with (N.of_nat 0) at 5.
    rewrite (mgf1_loop_hashes size seed _ 0 size ((size + hn - 1) / hn)%nat); auto.
    - f_equal. lia.
    - now rewrite firstn_app, firstn_all, Nat.sub_diag, app_nil_r.
    - rewrite app_length. reflexivity.
    - change (2 ^ 32) with 4294967296 in *.
      destruct (N.lt_ge_cases (N.of_nat ((size + hn - 1) / hn)) 4294967296) as [|X]; auto.
      set (c := N.to_nat 4294967295). assert (Hc : N.of_nat c = 4294967295) by (unfold c; lia).
      clearbody c. assert (X1 : (c < (size + hn - 1) / hn)%nat) by lia. apply ceil_div in X1; auto. nia.
    - lia.
    - destruct (le_lt_dec ((size + hn - 1) / hn) size) as [|X]; [lia|]. apply ceil_div in X; nia. }
  destruct (h_mgf1_loop _ _ _ _ _ _ _) as [e [out|p]]; cbn [fst] in E; subst e; cbn [hbind hlift fst];
    rewrite ?app_nil_r; reflexivity.
Qed.

Lemma decode_hashes_ok label em : bytes label -> bytes em -> oaep_sizes hn limit label (length em) ->
  (hn + 1 <= length em)%nat ->
  fst (h_oaep_decode hn hasher label em (length em)) = decode_hashes hn label em.
Proof using Himp Hhn.
  intros Bl Be (L1 & L2 & L3) Le. destruct em as [|b em]; [cbn [length] in Le; lia|].
  unfold h_oaep_decode, decode_hashes. rewrite fst_hlift. change (idx (b :: em) 0) with (Ok b).
  cbn [hd]. destruct (b =? 0); cbn [negb]; [|reflexivity].
  destruct (Himp label Bl L1) as (El & _ & _).
  erewrite fst_hbind by (unfold hcall; cbn [snd]; exact El). unfold hcall at 1. cbn [fst].
  change ([length label] ++ ?x) with (length label :: x). f_equal.
  set (ms := firstn hn em). set (mdb := skipn hn em). cbn [length] in *.
  assert (Bt : bytes em) by now inversion Be.
  assert (Lms : length ms = hn) by (unfold ms; rewrite firstn_length; lia).
  assert (Lmdb : length mdb = (length em - hn)%nat) by (unfold mdb; now rewrite skipn_length).
  assert (Bms : bytes ms) by (apply Forall_firstn; auto).
  assert (Bmdb : bytes mdb) by (apply Forall_skipn; auto).
  assert (S1 : slice (b :: em) 1 (hn + 1) = Ok ms).
  { rewrite slice_ok by (cbn [length]; lia). cbn [skipn]. unfold ms. do 2 f_equal. lia. }
  assert (S2 : slice_from (b :: em) (hn + 1) = Ok mdb).
  { rewrite slice_from_ok by (cbn [length]; lia). unfold mdb. now replace (hn + 1)%nat with (S hn) by lia. }
  rewrite fst_hlift, S1, fst_hlift, S2.
  destruct (mgf1_seed hasher H hn limit Himp Hhn mdb Bmdb) as (M1 & M2 & M3); [lia|].
  erewrite fst_hbind by (rewrite er_mgf1; exact M1).
  rewrite mgf1_hashes; auto; [|lia|change (2 ^ 32) with 4294967296; lia].
  replace ((hn + hn - 1) / hn)%nat with 1%nat
    by (apply (Nat.div_unique _ _ _ (hn - 1)); lia).
  cbn [repeat app]. f_equal; [lia|].
  rewrite fst_hlift, xor_slices_ok by lia. rewrite fst_hlift, nsub_ok by lia. rewrite fst_hlift, nsub_ok by lia.
  set (seed := xor_bytes ms (mgf1_spec H hn mdb hn)).
  assert (Ls : length seed = hn) by (unfold seed; rewrite xor_bytes_length; lia).
  assert (Bs : bytes seed) by (apply xor_bytes_bytes; auto).
  destruct (mgf1_db hasher H hn limit Himp Hhn seed (S (length em)) Ls Bs L2 L3) as (D1 & D2 & D3); [lia|].
  erewrite fst_hbind by (rewrite er_mgf1; exact D1).
  rewrite mgf1_hashes; auto; [|lia|change (2 ^ 32) with 4294967296 in *; lia].
  rewrite Ls. match goal with |- ?x ++ ?t = _ => assert (T : t = []); [|rewrite T; apply app_nil_r] end.
  repeat match goal with
  | |- fst (hbind (hlift ?r) _) = _ => rewrite fst_hlift; destruct r; [|reflexivity]
  | |- fst (if ?c then _ else _) = _ => destruct c; [reflexivity|]
  | |- fst (match ?c with Some _ => _ | None => _ end) = _ => destruct c; [|reflexivity]
  end. reflexivity.
Qed.
End Hashes.

(** The first hash is that of the label. *)
Lemma nothing_decode {P : profile} hn hasher label em k : em <> [] ->
  nothing_hashed (fst (h_oaep_decode hn hasher label em k)) =
  first_byte_reported (oaep_decode hn hasher label em k).
Proof.
  intros E. destruct em as [|b em]; [congruence|]. unfold h_oaep_decode, oaep_decode.
  rewrite fst_hlift. change (idx (b :: em) 0) with (Ok b). cbn [bind].
  destruct (negb (b =? 0)); [reflexivity|]. unfold hcall at 1. cbn [hbind].
  destruct (hasher label) as [lh|p]; cbn [bind]; [|reflexivity].
  match goal with |- nothing_hashed (fst (let (e', r) := ?x in _)) = _ => destruct x as [e' r] end.
  cbn [fst app nothing_hashed].
  repeat match goal with
  | |- false = first_byte_reported (bind ?a _) => destruct a; cbn [bind first_byte_reported]; [|reflexivity]
  | |- false = first_byte_reported (if ?c then _ else _) => destruct c
  | |- false = first_byte_reported (match ?c with Some _ => _ | None => _ end) => destruct c
  end; reflexivity.
Qed.

(** ** The attack *)

(** The hashes of [decrypt_message] in the shape of [verbose_spec]. *)
Definition hash_reporting : padding_scheme (list nat) := {|
  ps_encode := fun _ _ _ => Ok [];
  ps_decode := fun label em k => Ok (RErr (fst (h_oaep_decode 32 sha256 label em k)))
|}.

Lemma h_decrypt_reporting capf key ct : fst (h_decrypt_message capf key ct) =
  match decrypt_message_verbose capf key ct hash_reporting with Ok (RErr l) => l | _ => [] end.
Proof.
  unfold h_decrypt_message, decrypt_message_verbose. cbv zeta.
  rewrite fst_hlift. destruct (big_from_be_bytes ct) as [c|e]; cbn [bind]; [|reflexivity].
  rewrite fst_hlift. destruct (rsa_decrypt capf key c) as [d|e]; cbn [bind]; [|reflexivity].
  rewrite fst_hlift. destruct (nsub _ _) as [s|e]; cbn [bind]; [|reflexivity].
  rewrite fst_hlift. destruct (copy_range _ _ _ _) as [m|e]; cbn [bind]; [|reflexivity].
  cbn [ps_decode hash_reporting]. destruct (h_oaep_decode 32 sha256 [] m (length m)) as [l [r|e]]; cbn [hbind hlift fst];
    rewrite ?app_nil_r; reflexivity.
Qed.

Lemma h_decrypt_hashes capf key ct : sized capf key -> bytes ct -> length ct = length (rsa_modulo key) ->
  fst (h_decrypt_message capf key ct) =
  fst (h_oaep_decode 32 sha256 []
    (be_bytes (length ct) (rsa_power (be_num ct) (num (rsa_exponent key)) (num (rsa_modulo key)))) (length ct)).
Proof.
  intros Hs Hb Hl. rewrite h_decrypt_reporting, verbose_spec by (auto; rewrite Hl; apply Hs).
  pose proof (sized_nonempty _ _ Hs) as Ne.
  pose proof (rsa_power_bound (be_num ct) (num (rsa_exponent key)) (rsa_modulo key) ltac:(apply Hs) Ne) as L.
  rewrite <- Hl in L. rewrite (proj2 (N.ltb_lt _ _) L). reflexivity.
Qed.

Lemma nothing_first_byte capf key ct : sized capf key -> bytes ct -> length ct = length (rsa_modulo key) ->
  nothing_hashed (fst (h_decrypt_message capf key ct)) =
  first_byte_reported (decrypt_message_verbose capf key ct rsa_padding).
Proof.
  intros Hs Hb Hl. rewrite h_decrypt_hashes by auto.
  pose proof (sized_nonempty _ _ Hs) as Ne.
  rewrite nothing_decode.
  - rewrite verbose_spec by (auto; rewrite Hl; apply Hs).
    pose proof (rsa_power_bound (be_num ct) (num (rsa_exponent key)) (rsa_modulo key) ltac:(apply Hs) Ne) as L.
    rewrite <- Hl in L. rewrite (proj2 (N.ltb_lt _ _) L). reflexivity.
  - intros E. apply (f_equal (@length N)) in E. rewrite be_bytes_length, Hl in E.
    destruct (rsa_modulo key); [congruence|discriminate].
Qed.

Lemma nothing_oracle capf key ct : sized capf key -> bytes ct -> length ct = length (rsa_modulo key) ->
  nothing_hashed (fst (h_decrypt_message capf key ct)) =
  (256 ^ N.of_nat (length ct - 1) <=?
   rsa_power (be_num ct) (num (rsa_exponent key)) (num (rsa_modulo key))).
Proof. intros. rewrite nothing_first_byte by auto. now apply oracle_ok. Qed.

Section Ext.
  Context (o o' : N -> bool) (E : forall f, o f = o' f) (n B : N).

  Lemma grow_ext fuel g q : grow o fuel g q = grow o' fuel g q.
  Proof using E. revert g q. induction fuel; intros g q; cbn [grow]; [reflexivity|]. rewrite E. now rewrite IHfuel. Qed.

  Lemma advance_ext fuel g f q : advance o fuel g f q = advance o' fuel g f q.
  Proof using E. revert f q. induction fuel; intros f q; cbn [advance]; [reflexivity|]. rewrite E. now rewrite IHfuel. Qed.

  Lemma refine_ext fuel g f j q : refine o n B fuel g f j q = refine o' n B fuel g f j q.
  Proof using E.
    revert f j q. induction fuel; intros f j q; cbn [refine]; [reflexivity|].
    rewrite E, advance_ext. destruct (advance o' _ _ _ _) as [f' q']. now rewrite !IHfuel.
  Qed.

  Lemma manger_ext : manger o n B = manger o' n B.
  Proof using E. unfold manger. rewrite grow_ext. destruct (grow o' _ _ _) as [g q]. apply refine_ext. Qed.
End Ext.

Lemma hashed_attack capf p q enc dec msg ct : matching p q enc dec -> sized capf enc -> sized capf dec ->
  bytes msg -> encrypt_message capf enc msg rsa_padding = Ok ct ->
  let n := num (rsa_modulo enc) in let k := length (rsa_modulo enc) in
  2 * 256 ^ N.of_nat (k - 1) <= n ->
  forall x c, manger (fun f => nothing_hashed (fst (h_decrypt_message capf dec
      (be_bytes k ((f ^ num (rsa_exponent enc) * be_num ct) mod n)))))
    n (256 ^ N.of_nat (k - 1)) = (x, c) ->
  ps_decode rsa_padding [] (be_bytes k x) k = Ok (ROk msg) /\ c <= 8 * N.of_nat k * 514.
Proof.
  intros M Se Sd B E n k Hn x c A. apply (attack_ok capf p q enc dec msg ct); auto.
  rewrite <- A. apply manger_ext. intros f. symmetry. apply nothing_first_byte; auto.
  - apply ProofKey.be_bytes_bytes.
  - rewrite be_bytes_length. destruct M as (_ & _ & _ & Hmod & _). unfold k. now rewrite Hmod.
Qed.
