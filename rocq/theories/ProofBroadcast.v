(** * Proofs: ciphertexts above the modulus, several ciphertexts of one message *)
From Verif Require Import Base BaseLemmas ModelSha ModelBig ModelRsa SpecEndian SpecBig SpecSha SpecRsa
  SpecOaep SpecMsg SpecBroadcast ProofEndian ProofBig ProofBig2 ProofBig3 ProofRsaMath ProofRsa ProofOaep ProofMsg
  ProofAsn1 ProofKey ProofMsgWitness.
From Coq Require Import ZifyBool ZifyNat ZifyN.
Local Open Scope N_scope.
Local Open Scope list_scope.

(** ** Only the residue of a ciphertext counts *)

Lemma decrypt_residue {E} capf key ct ct' (ps : padding_scheme E) : sized capf key ->
  bytes ct -> bytes ct' -> length ct = length ct' -> allocates capf (length ct + 4) ->
  be_num ct mod num (rsa_modulo key) = be_num ct' mod num (rsa_modulo key) ->
  decrypt_message capf key ct ps = decrypt_message capf key ct' ps.
Proof.
  intros Hs B B' L A R. rewrite decrypt_message_spec by auto.
  rewrite decrypt_message_spec by (auto; now rewrite <- L). rewrite <- L.
  assert (N0 : num (rsa_modulo key) <> 0) by (destruct Hs as (_ & _ & N1 & _); lia).
  replace (rsa_power (be_num ct') (num (rsa_exponent key)) (num (rsa_modulo key)))
    with (rsa_power (be_num ct) (num (rsa_exponent key)) (num (rsa_modulo key))); [reflexivity|].
  unfold rsa_power. rewrite <- (pow_mod_idemp (be_num ct)), <- (pow_mod_idemp (be_num ct')) by exact N0.
  now rewrite R.
Qed.

Lemma second_ciphertext capf p q enc dec msg ct j : matching p q enc dec -> sized capf enc -> sized capf dec ->
  bytes msg -> encrypt_message capf enc msg rsa_padding = Ok ct -> length ct = length (rsa_modulo enc) ->
  be_num ct + j * num (rsa_modulo enc) < 256 ^ N.of_nat (length ct) ->
  decrypt_message capf dec (be_bytes (length ct) (be_num ct + j * num (rsa_modulo enc))) rsa_padding = Ok msg.
Proof.
  intros M Se Sd B E L F. pose proof M as (_ & _ & _ & Hmod & _).
  rewrite <- (message_roundtrip capf p q enc dec msg ct M Se Sd B E L).
  assert (Bc : bytes ct).
  { assert (F' : (length msg + 66 <= length (rsa_modulo enc))%nat) by (apply (encrypt_cases capf enc); eauto).
    destruct (encrypt_rsa_padding capf enc msg Se B F') as (ct' & E' & Bc & _). rewrite E in E'.
    apply Ok_inj in E'. now subst ct'. }
  apply decrypt_residue; auto.
  - apply ProofKey.be_bytes_bytes.
  - apply be_bytes_length.
  - rewrite be_bytes_length, L, Hmod. apply Sd.
  - rewrite be_num_be_bytes by exact F. rewrite <- Hmod. apply N.mod_add.
    destruct Se as (_ & _ & N1 & _). lia.
Qed.

(** ** The Chinese remainder theorem: at most one solution below the product *)

Lemma coprime_mul a b c : N.gcd a b = 1 -> N.gcd a c = 1 -> N.gcd a (b * c) = 1.
Proof.
  intros H1 H2. apply N.divide_1_r. rewrite <- H2. apply N.gcd_greatest; [apply N.gcd_divide_l|].
  apply (N.gauss _ b); [apply N.gcd_divide_r|].
  apply N.divide_1_r. rewrite <- H1. apply N.gcd_greatest.
  - apply N.divide_trans with (N.gcd a (b * c)); apply N.gcd_divide_l.
  - apply N.gcd_divide_r.
Qed.

Lemma coprime_product a ns : Forall (fun b => N.gcd a b = 1) ns -> N.gcd a (product ns) = 1.
Proof.
  induction 1 as [|b ns H _ IH]; [apply N.gcd_1_r|]. cbn [product fold_right]. now apply coprime_mul.
Qed.

Lemma product_divides ns x : pairwise_coprime ns -> Forall (fun n => N.divide n x) ns -> N.divide (product ns) x.
Proof.
  intros P. induction P as [|n ns H P IH]; intros D; [apply N.divide_1_l|].
  inversion D as [|? ? [k Dk] D']; subst. cbn [product fold_right]. fold (product ns).
  destruct (N.gauss (product ns) n k) as [j Hj].
  - rewrite N.mul_comm. now apply IH.
  - rewrite N.gcd_comm. now apply coprime_product.
  - subst k. exists j. ring.
Qed.

Lemma congruent_divide n x y : n <> 0 -> x mod n = y mod n -> y <= x -> N.divide n (x - y).
Proof.
  intros H E L. exists (x / n - y / n).
  pose proof (N.div_mod x n H) as Ex. pose proof (N.div_mod y n H) as Ey.
  pose proof (N.div_le_mono y x n H L) as Ld.
  rewrite N.mul_sub_distr_r, (N.mul_comm (x / n)), (N.mul_comm (y / n)). lia.
Qed.

Lemma crt_le ns x y : pairwise_coprime ns -> Forall (fun n => n <> 0) ns ->
  Forall (fun n => x mod n = y mod n) ns -> y <= x -> x < product ns -> x = y.
Proof.
  intros P Z C L Lx. assert (D : N.divide (product ns) (x - y)).
  { apply product_divides; auto. clear - Z C L. induction C as [|n ns C _ IH]; [constructor|].
    inversion Z; subst. constructor; auto. now apply congruent_divide. }
  destruct (N.eq_dec (x - y) 0) as [E|E]; [lia|]. apply N.divide_pos_le in D; lia.
Qed.

Lemma solution_unique ns cs x y : pairwise_coprime ns -> Forall (fun n => n <> 0) ns ->
  solves x ns cs -> solves y ns cs -> x < product ns -> y < product ns -> x = y.
Proof.
  intros P Z Sx Sy Lx Ly.
  assert (C : Forall (fun n => x mod n = y mod n) ns).
  { clear - Sx Sy. revert Sy. induction Sx as [|n c ns cs H _ IH]; intros Sy; [constructor|].
    inversion Sy; subst. constructor; [congruence|auto]. }
  destruct (N.le_ge_cases y x) as [L|L].
  - now apply (crt_le ns).
  - symmetry. apply (crt_le ns); auto. eapply Forall_impl; [|exact C]. intros n H. now symmetry.
Qed.

(** ** One message for several recipients *)

Definition recipient capf e k key : Prop :=
  sized capf key /\ num (rsa_exponent key) = e /\ length (rsa_modulo key) = k.

Lemma power_below_product b ns e : Forall (fun n => b < n) ns -> e <= N.of_nat (length ns) -> 1 <= e ->
  b ^ e < product ns.
Proof.
  intros F L E1. assert (H : b ^ N.of_nat (length ns) < product ns \/ ns = []).
  { clear L. induction F as [|n ns H F IH]; [now right|]. left. cbn [length product fold_right]. fold (product ns).
    rewrite Nat2N.inj_succ, N.pow_succ_r'. destruct IH as [IH| ->].
    - apply N.mul_lt_mono; auto.
    - cbn. lia. }
  destruct H as [H| ->]; [|cbn in L; lia].
  destruct (N.eq_dec b 0) as [->|B0].
  - rewrite N.pow_0_l by lia. lia.
  - apply N.le_lt_trans with (b ^ N.of_nat (length ns)); [|exact H]. now apply N.pow_le_mono_r.
Qed.

Lemma root_unique e r s : e <> 0 -> r ^ e = s ^ e -> r = s.
Proof.
  intros H E. destruct (N.lt_trichotomy r s) as [L|[L|L]]; auto;
    apply (N.pow_lt_mono_l _ _ e) in L; auto; lia.
Qed.

Lemma broadcast capf e k keys cts msg : Forall (recipient capf e k) keys -> pairwise_coprime (moduli keys) ->
  1 <= e <= N.of_nat (length keys) -> bytes msg ->
  Forall2 (fun key ct => encrypt_message capf key msg rsa_padding = Ok ct) keys cts ->
  (exists x r, x < product (moduli keys) /\ solves x (moduli keys) (map be_num cts) /\ r ^ e = x) /\
  forall x r, x < product (moduli keys) -> solves x (moduli keys) (map be_num cts) -> r ^ e = x ->
    ps_decode rsa_padding [] (be_bytes k r) k = Ok (ROk msg).
Proof.
  intros R P He B E.
  destruct keys as [|key0 keys']; [cbn in He; lia|]. remember (key0 :: keys') as keys eqn:Ek.
  assert (R0 : recipient capf e k key0) by (rewrite Ek in R; now inversion R).
  assert (F : (length msg + 66 <= k)%nat).
  { rewrite Ek in E. inversion E as [|? ct ? ? E0]; subst. destruct R0 as (S0 & _ & L0). rewrite <- L0.
    apply (encrypt_cases capf key0); eauto. }
  assert (Sm : N.of_nat k <= 2 ^ 37 + 1).
  { destruct R0 as (S0 & _ & L0). rewrite <- L0. now apply (sized_small capf). }
  destruct (rsa_em_ok msg k B F Sm) as (_ & El & Eb & _ & Ed).
  remember (be_num (rsa_em msg k)) as m eqn:Em.
  assert (Lm : Forall (fun n => m < n) (moduli keys)).
  { apply Forall_forall. intros n Hn. apply in_map_iff in Hn as (key & <- & Hk).
    rewrite Forall_forall in R. destruct (R key Hk) as (Sk & _ & Lk).
    assert (Cn : canonical (rsa_modulo key)) by apply Sk. pose proof (sized_nonempty _ _ Sk) as Ne.
    rewrite Em, <- Lk. apply rsa_em_below; [exact B|exact Cn|exact Ne|rewrite Lk; exact F|rewrite Lk; exact Sm]. }
  assert (Z : Forall (fun n => n <> 0) (moduli keys)).
  { eapply Forall_impl; [|exact Lm]. intros n Hn. cbv beta in *. lia. }
  assert (Ls : length (moduli keys) = length keys) by apply map_length.
  assert (Lp : m ^ e < product (moduli keys)) by (apply power_below_product; [exact Lm|rewrite Ls; apply He|apply He]).
  assert (S : solves (m ^ e) (moduli keys) (map be_num cts)).
  { clear Lp Lm Z Ls He Ek P. induction E as [|key ct keys cts E1 E IH]; [constructor|].
    apply Forall_cons_iff in R as [Rk R'].
    constructor; [|now apply IH].
    destruct Rk as (Sk & Ee & Lk). destruct (encrypt_rsa_padding capf key msg Sk B) as (ct' & E' & _ & _ & V).
    { now rewrite Lk. }
    rewrite E1 in E'. apply Ok_inj in E'. subst ct'. rewrite V, Lk, Ee. fold (rsa_em msg (length (rsa_modulo key))). rewrite Em. reflexivity. }
  split.
  - exists (m ^ e), m. auto.
  - intros x r Lx Sx Rx. assert (Ex : x = m ^ e) by (apply (solution_unique (moduli keys) (map be_num cts)); auto).
    subst x. apply root_unique in Ex; [|lia]. rewrite Ex, Em.
    rewrite <- El at 1. rewrite be_bytes_num by auto. exact Ed.
Qed.

(** ** Two exponents for one modulus *)

Lemma two_exponents n m e1 e2 a b w c1 c2 : 1 < n -> m < n -> a * e1 = b * e2 + 1 ->
  c1 = rsa_power m e1 n -> c2 = rsa_power m e2 n -> (w * c2) mod n = 1 -> (c1 ^ a * w ^ b) mod n = m.
Proof.
  intros N1 Lt Hab V1 V2 Hw. assert (N0 : n <> 0) by lia.
  rewrite <- (N.mod_small m n) at 1 by exact Lt. rewrite V1. unfold rsa_power in V2 |- *.
  rewrite <- N.mul_mod_idemp_l, pow_mod_idemp, N.mul_mod_idemp_l by exact N0.
  rewrite <- N.pow_mul_r, (N.mul_comm e1), Hab, N.pow_add_r, N.pow_1_r.
  replace (m ^ (b * e2) * m * w ^ b) with (m * (m ^ e2 * w) ^ b)
    by (rewrite N.pow_mul_l, <- N.pow_mul_r, (N.mul_comm e2 b); ring).
  rewrite <- N.mul_mod_idemp_r, <- pow_mod_idemp by exact N0.
  replace ((m ^ e2 * w) mod n) with 1.
  - rewrite N.pow_1_l, (N.mod_1_l n N1), N.mul_1_r. reflexivity.
  - rewrite <- N.mul_mod_idemp_l by exact N0. rewrite <- V2, N.mul_comm. now rewrite Hw.
Qed.

Lemma common_modulus capf key1 key2 msg ct1 ct2 a b w : sized capf key1 -> sized capf key2 ->
  rsa_modulo key1 = rsa_modulo key2 -> bytes msg ->
  encrypt_message capf key1 msg rsa_padding = Ok ct1 -> encrypt_message capf key2 msg rsa_padding = Ok ct2 ->
  a * num (rsa_exponent key1) = b * num (rsa_exponent key2) + 1 ->
  (w * be_num ct2) mod num (rsa_modulo key1) = 1 ->
  let k := length (rsa_modulo key1) in
  ps_decode rsa_padding [] (be_bytes k ((be_num ct1 ^ a * w ^ b) mod num (rsa_modulo key1))) k = Ok (ROk msg).
Proof.
  intros S1 S2 Hm B E1 E2 Hab Hw k.
  assert (F : (length msg + 66 <= k)%nat) by (apply (encrypt_cases capf key1); eauto).
  destruct (encrypt_rsa_padding capf key1 msg S1 B F) as (c1 & E1' & _ & _ & V1).
  destruct (encrypt_rsa_padding capf key2 msg S2 B) as (c2 & E2' & _ & _ & V2); [now rewrite <- Hm|].
  rewrite E1 in E1'. rewrite E2 in E2'. apply Ok_inj in E1'. apply Ok_inj in E2'. subst c1 c2.
  rewrite <- Hm in V2.
  pose proof (sized_nonempty _ _ S1) as Ne. pose proof (sized_small _ _ S1) as Sm.
  assert (Cn : canonical (rsa_modulo key1)) by apply S1.
  assert (N1 : 1 < num (rsa_modulo key1)) by apply S1.
  destruct (rsa_em_below msg _ B Cn Ne F Sm) as [Lt _].
  destruct (rsa_em_ok msg k B F Sm) as (_ & El & Eb & _ & Ed). fold k in V1, V2, Lt.
  rewrite (two_exponents _ (be_num (rsa_em msg k)) (num (rsa_exponent key1)) (num (rsa_exponent key2)) a b w
    (be_num ct1) (be_num ct2) N1 Lt Hab V1 V2 Hw).
  rewrite <- El at 1. rewrite be_bytes_num by exact Eb. exact Ed.
Qed.

(** ** Different messages have different ciphertexts *)

Lemma encrypt_message_injective capf p q enc dec msg msg' ct : matching p q enc dec ->
  sized capf enc -> sized capf dec -> bytes msg -> bytes msg' ->
  encrypt_message capf enc msg rsa_padding = Ok ct -> encrypt_message capf enc msg' rsa_padding = Ok ct -> msg = msg'.
Proof.
  intros (Pp & Pq & Hne & Hmod & Hn & Hk) Se Sd B B' E E'.
  pose proof (sized_nonempty _ _ Se) as Ne. pose proof (sized_small _ _ Se) as Sm.
  assert (Cn : canonical (rsa_modulo enc)) by apply Se.
  assert (D : forall x, bytes x -> encrypt_message capf enc x rsa_padding = Ok ct ->
    ps_decode rsa_padding [] (be_bytes (length (rsa_modulo enc))
      (rsa_power (be_num ct) (num (rsa_exponent dec)) (p * q))) (length (rsa_modulo enc)) = Ok (ROk x)).
  { intros x Bx Ex. assert (F : (length x + 66 <= length (rsa_modulo enc))%nat) by (apply (encrypt_cases capf enc); eauto).
    destruct (encrypt_rsa_padding capf enc x Se Bx F) as (c & Ec & _ & _ & V). rewrite Ex in Ec.
    apply Ok_inj in Ec. subst c. rewrite V, Hn, rsa_round_trip by auto.
    destruct (rsa_em_below x _ Bx Cn Ne F Sm) as [Lt _].
    destruct (rsa_em_ok x _ Bx F Sm) as (_ & El & Eb & _ & Ed).
    rewrite N.mod_small by (rewrite <- Hn; exact Lt). rewrite <- El at 1. rewrite be_bytes_num by auto. exact Ed. }
  pose proof (D msg B E) as D1. rewrite (D msg' B' E') in D1. apply Ok_inj in D1. congruence.
Qed.

(** ** Witnesses *)

Lemma above_modulus_accepted : exists capf p q enc dec ct msg, matching p q enc dec /\ sized capf enc /\ sized capf dec /\
  bytes ct /\ length ct = length (rsa_modulo enc) /\ num (rsa_modulo enc) <= be_num ct /\
  decrypt_message capf dec ct rsa_padding = Ok msg.
Proof.
  assert (B : bytes []) by constructor.
  destruct (encrypt_rsa_padding (fun k => k) (rsa_from_public wit_public) [] wit_sized_public B) as (ct & E & Bc & Hc & Vc).
  { apply Nat.leb_le. vm_compute. reflexivity. }
  change (length (rsa_modulo (rsa_from_public wit_public))) with 67%nat in Vc.
  change (rsa_exponent (rsa_from_public wit_public)) with [3] in Vc. change (num [3]) with 3 in Vc.
  change (rsa_modulo (rsa_from_public wit_public)) with wit_n in Vc.
  assert (Le : (length ct <= 67)%nat).
  { apply minimal_length; [exact Bc|exact Hc|]. rewrite Vc. change 67%nat with (length wit_n). apply rsa_power_bound.
    - apply (proj1 (proj2 wit_sized_public)).
    - discriminate. }
  assert (L : length ct = 67%nat).
  { pose proof wit_full as W. rewrite <- Vc in W. pose proof (be_num_lt ct Bc) as Lt.
    assert (66 < length ct)%nat; [|lia]. apply Nat.nle_gt. intros X.
    assert (256 ^ N.of_nat (length ct) <= 256 ^ 66) by (apply N.pow_le_mono_r; lia). lia. }
  assert (F : be_num ct + 1 * num (rsa_modulo (rsa_from_public wit_public)) < 256 ^ N.of_nat (length ct)).
  { rewrite L. change (rsa_modulo (rsa_from_public wit_public)) with wit_n.
    assert (Lc : be_num ct < num wit_n) by (rewrite Vc; apply N.mod_lt; vm_compute; discriminate).
    apply N.lt_trans with (num wit_n + 1 * num wit_n); [apply N.add_lt_mono_r; exact Lc|]. vm_compute. reflexivity. }
  exists (fun k => k), wit_p, wit_q, (rsa_from_public wit_public), (rsa_from_private wit_private),
    (be_bytes (length ct) (be_num ct + 1 * num (rsa_modulo (rsa_from_public wit_public)))), [].
  split; [exact wit_matching|]. split; [exact wit_sized_public|]. split; [exact wit_sized_private|].
  split; [apply ProofKey.be_bytes_bytes|]. split; [rewrite be_bytes_length; exact L|].
  split; [rewrite be_num_be_bytes by exact F; rewrite N.mul_1_l; rewrite N.add_comm; apply N.le_add_r|].
  apply (second_ciphertext _ wit_p wit_q); auto using wit_matching, wit_sized_public, wit_sized_private.
Qed.

(** Three moduli of 67 bytes without common factors. *)
Definition wit_key (i : N) : rsa_encryption := {| rsa_exponent := [3]; rsa_modulo := to_le 67 (256 ^ 66 + i) |}.

Lemma wit_recipients : Forall (recipient (fun k => k) 3 67) [wit_key 1; wit_key 2; wit_key 3] /\
  pairwise_coprime (moduli [wit_key 1; wit_key 2; wit_key 3]).
Proof.
  split.
  - apply Forall_forall. intros key H.
    assert (X : (rsa_exponent key = [3] /\ length (rsa_modulo key) = 67%nat) /\
      (forallb (fun b => b <? 256) (rsa_modulo key) && negb (last (rsa_modulo key) 1 =? 0))%bool = true /\
      1 <? num (rsa_modulo key) = true).
    { destruct H as [<-|[<-|[<-|[]]]]; (split; [split; reflexivity|]); split; vm_compute; reflexivity. }
    destruct X as ((E1 & E2) & E3 & E4). split; [|split; [rewrite E1; reflexivity|exact E2]].
    split; [rewrite E1; apply canonical_check; reflexivity|]. split; [now apply canonical_check|].
    split; [now apply N.ltb_lt|]. split; [rewrite E1; reflexivity|]. rewrite E2. exact wit_allocates.
  - assert (X : forallb (fun p => N.gcd (num (rsa_modulo (wit_key (fst p)))) (num (rsa_modulo (wit_key (snd p)))) =? 1)
      [(1, 2); (1, 3); (2, 3)] = true) by (vm_compute; reflexivity).
    rewrite forallb_forall in X.
    assert (Y : forall a b, In (a, b) [(1, 2); (1, 3); (2, 3)] ->
      N.gcd (num (rsa_modulo (wit_key a))) (num (rsa_modulo (wit_key b))) = 1).
    { intros a b H. apply X in H. now apply N.eqb_eq in H. }
    unfold moduli. cbn [map]. constructor; [|constructor; [|constructor; [|constructor]]];
      repeat constructor; apply Y; cbn [In]; auto.
Qed.
