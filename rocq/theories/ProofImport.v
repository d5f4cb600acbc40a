(** * Proofs: key import does not look at the numbers *)
From Coq Require Import String.
From Verif Require Import Base BaseLemmas ModelBig ModelRsa ModelPem ModelKey SpecEndian SpecBig SpecRsa SpecOaep SpecMsg
  SpecText SpecPem SpecAsn1 SpecKey SpecImport ProofEndian ProofBig ProofBig2 ProofBig3 ProofRsa ProofMsg ProofAsn1 ProofKey ProofFile.
From Coq Require Import ZifyBool ZifyNat ZifyN.
Local Open Scope N_scope.
Local Open Scope list_scope.

Lemma stands_for_eq k k' c c' : stands_for k c -> stands_for k' c' -> be_num c = be_num c' -> k = k'.
Proof. intros [C E] [C' E'] H. apply num_inj; [exact C|exact C'|congruence]. Qed.

Lemma private_stored data key v n e d p q dp dq qi : bytes data ->
  lax (private_key_info key) data -> lax (rsa_private_key v n e d p q dp dq qi) key ->
  exists k, private_key_try_from {| pem_label := text "PRIVATE KEY"; pem_data := data |} = Ok (ROk k) /\
    stands_for (priv_n k) n /\ stands_for (priv_d k) d.
Proof.
  intros B L1 L2. pose proof (info_key_bytes _ _ L1 B) as Hkb.
  pose proof (lax_value _ _ L2 Hkb) as Hv. apply integers_value in Hv.
  assert (Hn : bytes n /\ bytes d).
  { rewrite Forall_forall in Hv. split; apply Hv; cbn [In]; auto 10. }
  exists {| priv_n := big n; priv_d := big d |}. cbn [priv_n priv_d].
  assert (S : stands_for (big n) n /\ stands_for (big d) d).
  { split; apply big_num; apply Hn. }
  split; [|exact S]. apply private_import_iff; [exact B|]. split; [reflexivity|].
  exists key, v, n, e, d, p, q, dp, dq, qi. cbn [priv_n priv_d]. split; [exact L1|]. split; [exact L2|exact S].
Qed.

Lemma private_ignores data data' key key' v v' n n' e e' d d' p p' q q' dp dp' dq dq' qi qi' :
  bytes data -> bytes data' ->
  lax (private_key_info key) data -> lax (rsa_private_key v n e d p q dp dq qi) key ->
  lax (private_key_info key') data' -> lax (rsa_private_key v' n' e' d' p' q' dp' dq' qi') key' ->
  be_num n = be_num n' -> be_num d = be_num d' ->
  exists k, private_key_try_from {| pem_label := text "PRIVATE KEY"; pem_data := data |} = Ok (ROk k) /\
    private_key_try_from {| pem_label := text "PRIVATE KEY"; pem_data := data' |} = Ok (ROk k).
Proof.
  intros B B' L1 L2 L1' L2' En Ed.
  destruct (private_stored _ _ _ _ _ _ _ _ _ _ _ B L1 L2) as (k & E & Sn & Sd).
  destruct (private_stored _ _ _ _ _ _ _ _ _ _ _ B' L1' L2') as (k' & E' & Sn' & Sd').
  exists k. split; [exact E|]. rewrite E'. do 2 f_equal. destruct k as [kn kd], k' as [kn' kd'].
  cbn [priv_n priv_d] in *. f_equal.
  - apply (stands_for_eq kn' kn n' n); [exact Sn'|exact Sn|now symmetry].
  - apply (stands_for_eq kd' kd d' d); [exact Sd'|exact Sd|now symmetry].
Qed.

(** A file with any numbers is read, and the key is ready for use. *)
Lemma public_ready capf n e s : 1 < n -> N.size e <= 2 ^ 32 - 8 -> allocates capf (digits n + 4) ->
  size (public_key_der n e) < 2 ^ 64 -> pem_text s (text "PUBLIC KEY") (public_key_der n e) ->
  exists pub, import_public s = Ok (Some pub) /\ sized capf (rsa_from_public pub) /\
    num (rsa_exponent (rsa_from_public pub)) = e /\ num (rsa_modulo (rsa_from_public pub)) = n /\
    length (rsa_modulo (rsa_from_public pub)) = digits n.
Proof.
  intros H1 He Ha S1 T1. destruct (public_text _ _ _ S1 T1) as (pub & I1 & C1 & N1 & C2 & N2).
  exists pub. split; [exact I1|]. cbn [rsa_from_public rsa_modulo rsa_exponent].
  assert (L1 : length (pub_n pub) = digits n).
  { rewrite <- N1. apply canonical_digits; [exact C1|rewrite N1; lia]. }
  split; [|split; [exact N2|split; [exact N1|exact L1]]].
  split; [exact C2|]. split; [exact C1|]. split; [cbn [rsa_from_public rsa_modulo]; rewrite N1; exact H1|].
  cbn [rsa_from_public rsa_modulo rsa_exponent]. rewrite L1. split; [|exact Ha].
  apply canonical_countable; [exact C2|rewrite N2; exact He].
Qed.

Lemma power_one m n : m < n -> rsa_power m 1 n = m.
Proof. intros H. unfold rsa_power. rewrite N.pow_1_r. now apply N.mod_small. Qed.

Lemma bytes_back em ct k : be_num ct = be_num em -> bytes em -> length em = k -> be_bytes k (be_num ct) = em.
Proof. intros -> B <-. now apply be_bytes_num. Qed.

Lemma exponent_one capf n s msg : 1 < n -> allocates capf (digits n + 4) ->
  size (public_key_der n 1) < 2 ^ 64 -> pem_text s (text "PUBLIC KEY") (public_key_der n 1) ->
  bytes msg -> (length msg + 66 <= digits n)%nat ->
  exists pub ct, import_public s = Ok (Some pub) /\
    encrypt_message capf (rsa_from_public pub) msg rsa_padding = Ok ct /\
    ps_decode rsa_padding [] (be_bytes (digits n) (be_num ct)) (digits n) = Ok (ROk msg).
Proof.
  intros H1 Ha S T B F. destruct (public_ready capf n 1 s H1 ltac:(cbn; lia) Ha S T) as (pub & I & Z & Ee & En & L).
  exists pub. rewrite <- L in F.
  destruct (encrypt_rsa_padding capf _ msg Z B F) as (ct & E & _ & _ & Ec). exists ct.
  split; [exact I|]. split; [exact E|].
  pose proof (sized_small _ _ Z) as Sm. pose proof (sized_nonempty _ _ Z) as Hne.
  destruct (rsa_em_ok msg _ B F Sm) as (_ & El & Eb & _ & Ed).
  assert (C : canonical (rsa_modulo (rsa_from_public pub))) by apply Z.
  destruct (rsa_em_below msg _ B C Hne F Sm) as [Lt _].
  rewrite Ee, power_one in Ec by exact Lt. rewrite <- L.
  rewrite (bytes_back _ ct _ Ec Eb El). exact Ed.
Qed.

Lemma fold_digits_ge l : forall a, a <= fold_left (fun acc b => acc * 256 + b) l a.
Proof.
  induction l as [|x l IH]; intros a; [apply N.le_refl|]. cbn [fold_left].
  apply N.le_trans with (a * 256 + x); [lia|apply IH].
Qed.

Lemma one_bytes ct : hd 1 ct <> 0 -> be_num ct = 1 -> ct = [1].
Proof.
  intros H E. destruct ct as [|x ct]; [discriminate|]. cbn [hd] in H.
  unfold be_num in E. cbn [fold_left] in E.
  destruct ct as [|y ct]; cbn [fold_left] in E; [f_equal; lia|].
  pose proof (fold_digits_ge ct ((0 * 256 + x) * 256 + y)). lia.
Qed.

Lemma exponent_zero capf n s msg : 1 < n -> allocates capf (digits n + 4) ->
  size (public_key_der n 0) < 2 ^ 64 -> pem_text s (text "PUBLIC KEY") (public_key_der n 0) ->
  bytes msg -> (length msg + 66 <= digits n)%nat ->
  exists pub, import_public s = Ok (Some pub) /\
    encrypt_message capf (rsa_from_public pub) msg rsa_padding = Ok [1].
Proof.
  intros H1 Ha S T B F. destruct (public_ready capf n 0 s H1 ltac:(cbn; lia) Ha S T) as (pub & I & Z & Ee & En & L).
  exists pub. rewrite <- L in F.
  destruct (encrypt_rsa_padding capf _ msg Z B F) as (ct & E & _ & Hd & Ec).
  split; [exact I|]. rewrite E. f_equal. apply one_bytes; [exact Hd|].
  rewrite Ec, Ee, En. unfold rsa_power. rewrite N.pow_0_r. apply N.mod_small. exact H1.
Qed.

Lemma short_modulus capf n e s msg : (digits n < length msg + 66)%nat -> 0 < n -> N.size n <= 2 ^ 32 - 8 ->
  size (public_key_der n e) < 2 ^ 64 -> pem_text s (text "PUBLIC KEY") (public_key_der n e) -> bytes msg ->
  exists pub, import_public s = Ok (Some pub) /\
    encrypt_message capf (rsa_from_public pub) msg rsa_padding = Panic PExplicit.
Proof.
  intros F Hn Hs S T B. destruct (public_text _ _ _ S T) as (pub & I1 & C1 & N1 & C2 & N2).
  exists pub. split; [exact I1|].
  assert (L : length (pub_n pub) = digits n).
  { rewrite <- N1. apply canonical_digits; [exact C1|rewrite N1; exact Hn]. }
  rewrite encrypt_too_short; cbn [rsa_from_public rsa_modulo]; [|exact C1| |exact B|].
  - destruct (pub_n pub); [cbn in N1; subst n; discriminate Hn|reflexivity].
  - apply canonical_countable; [exact C1|rewrite N1; exact Hs].
  - rewrite L. exact F.
Qed.

Lemma zero_modulus capf e s msg :
  size (public_key_der 0 e) < 2 ^ 64 -> pem_text s (text "PUBLIC KEY") (public_key_der 0 e) -> bytes msg ->
  exists pub, import_public s = Ok (Some pub) /\
    encrypt_message capf (rsa_from_public pub) msg rsa_padding = Panic POverflow.
Proof.
  intros S T B. destruct (public_text _ _ _ S T) as (pub & I1 & C1 & N1 & C2 & N2).
  exists pub. split; [exact I1|].
  assert (E : pub_n pub = []).
  { apply num_inj; [exact C1|split; [constructor|discriminate]|exact N1]. }
  rewrite encrypt_too_short; cbn [rsa_from_public rsa_modulo]; rewrite ?E; [reflexivity| | |exact B|].
  - split; [constructor|discriminate].
  - reflexivity.
  - cbn [length]. lia.
Qed.
