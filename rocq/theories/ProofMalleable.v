(** * Malleability of the stream cipher, of ECB and of RSA without padding *)
From Verif Require Import Base BaseLemmas ModelPad ModelBlock ModelRc ModelBig ModelRsa SpecPad SpecBlock SpecRc SpecBig SpecRsa
  SpecMalleable ProofPad ProofBlock ProofRc4 ProofBig ProofBig3 ProofRsa.
Local Open Scope N_scope.

(** ** Stream cipher *)

Lemma xor_bytes_comm a b : length a = length b -> xor_bytes a b = xor_bytes b a.
Proof.
  revert b. induction a; intros [|y b] L; cbn [xor_bytes length] in *; auto. now rewrite N.lxor_comm, IHa by lia.
Qed.

Lemma xor_bytes_cancel k a b : length k = length a -> length k = length b ->
  xor_bytes (xor_bytes k a) (xor_bytes k b) = xor_bytes a b.
Proof.
  revert a b. induction k as [|x k IH]; intros [|y a] [|z b] La Lb; cbn [xor_bytes length] in *; auto; try lia.
  rewrite IH by lia. f_equal.
  rewrite (N.lxor_comm x y), N.lxor_assoc, <- (N.lxor_assoc x x z), N.lxor_nilpotent, N.lxor_0_l. reflexivity.
Qed.

Lemma xor_bytes_assoc a b c : length a = length b -> length b = length c ->
  xor_bytes a (xor_bytes b c) = xor_bytes (xor_bytes a b) c.
Proof.
  revert b c. induction a as [|x a IH]; intros [|y b] [|z c] La Lb; cbn [xor_bytes length] in *; auto; try lia.
  rewrite IH by lia. now rewrite N.lxor_assoc.
Qed.

Section Stream.
Context {K : Type} (next : key_iter K).

Lemma stream_reuse k p1 p2 c1 c2 k1 k2 :
  sc_encrypt next k p1 = Ok (c1, k1) -> sc_encrypt next k p2 = Ok (c2, k2) -> length p1 = length p2 ->
  xor_bytes c1 c2 = xor_bytes p1 p2.
Proof.
  intros E1 E2 L. destruct (proj1 (sc_encrypt_ok_iff next k p1)) as (ks & k' & Y & Lk); eauto.
  rewrite (sc_encrypt_eq next k ks k') in E1 by auto. apply Ok_inj in E1. injection E1 as <- <-.
  rewrite (sc_encrypt_eq next k ks k') in E2 by (auto; congruence). apply Ok_inj in E2. injection E2 as <- <-.
  apply xor_bytes_cancel; congruence.
Qed.

Lemma stream_flip k p c k' e : sc_encrypt next k p = Ok (c, k') -> length e = length p ->
  sc_encrypt next k (xor_bytes c e) = Ok (xor_bytes p e, k').
Proof.
  intros E L. destruct (proj1 (sc_encrypt_ok_iff next k p)) as (ks & k'' & Y & Lk); eauto.
  rewrite (sc_encrypt_eq next k ks k'') in E by auto. apply Ok_inj in E. injection E as <- <-.
  rewrite <- xor_bytes_assoc by congruence.
  rewrite (sc_encrypt_eq next k ks k''); auto.
  - rewrite xor_bytes_involutive; auto. rewrite xor_bytes_length; congruence.
  - rewrite xor_bytes_length by (rewrite xor_bytes_length; congruence). reflexivity.
Qed.
End Stream.

Lemma rc4_malleable key p1 p2 e : key <> [] -> bytes key -> length p1 = length p2 -> length e = length p1 ->
  exists ks c1 c2, rc4_new key = Ok ks /\ rc4_encrypt ks p1 = Ok c1 /\ rc4_encrypt ks p2 = Ok c2 /\
    xor_bytes c1 c2 = xor_bytes p1 p2 /\ rc4_decrypt ks (xor_bytes c1 e) = Ok (xor_bytes p1 e).
Proof.
  intros Hk Hb L Le. destruct (rc4_encrypt_eq key p1 Hk Hb) as (ks & E & E1 & _ & Lc).
  destruct (rc4_encrypt_eq key p2 Hk Hb) as (ks2 & E' & E2 & _ & _).
  rewrite E in E'. apply Ok_inj in E'. subst ks2.
  destruct (rc4_stream_length key (length p1) Hk Hb) as [Ls _].
  exists ks. eexists. eexists. split; [exact E|]. split; [exact E1|]. split; [exact E2|].
  rewrite <- L. split; [apply xor_bytes_cancel; congruence|].
  set (c1 := xor_bytes _ p1) in *.
  destruct (rc4_encrypt_eq key (xor_bytes c1 e) Hk Hb) as (ks3 & E3 & _ & D & _).
  rewrite E in E3. apply Ok_inj in E3. subst ks3. rewrite D. f_equal.
  rewrite xor_bytes_length by congruence. rewrite Lc. unfold c1.
  rewrite <- xor_bytes_assoc by congruence. apply xor_bytes_involutive.
  rewrite xor_bytes_length; congruence.
Qed.

(** ** ECB *)

Lemma decrypt_padded {S} n cipher (mode : cipher_mode S) sd cs bs q sd' : (1 <= n <= 255)%nat ->
  Forall (fun c => length c = n) cs ->
  run_mode (cm_decrypt_block mode cipher) sd cs = (bs ++ [pkcs_padded n q], Ok sd') ->
  (length q < n)%nat ->
  be_decrypt n cipher mode sd (concat cs) = (concat bs ++ q, Ok tt).
Proof.
  intros Hn F E3 Hq. unfold be_decrypt.
  assert (E : chunks_exact n (concat cs) = Ok (cs, [])).
  { rewrite <- (app_nil_r (concat cs)). apply chunks_exact_concat; auto; cbn; lia. }
  rewrite E. cbn [olift obind app].
  change (forO cs _ (sd, None)) with (forO cs (dec_body n cipher mode) (sd, None)).
  rewrite dec_loop by auto. rewrite E3. cbn [pend app].
  rewrite removelast_last.
  replace (last_o (bs ++ [pkcs_padded n q])) with (Some (pkcs_padded n q))
    by (symmetry; apply last_o_app).
  cbn [unwrap obind olift].
  assert (Hl : length (pkcs_padded n q) = n).
  { unfold pkcs_padded. rewrite app_length, repeat_length. lia. }
  rewrite pkcs_unpad_eq by (auto; lia).
  assert (Hlast : last (pkcs_padded n q) 0 = N.of_nat (n - length q)).
  { unfold pkcs_padded. apply last_app_repeat. lia. }
  rewrite Hlast. rewrite (proj2 (N.leb_le _ _)) by lia. cbn [olift obind].
  rewrite slice_to_ok by lia. cbn [obind olift oemit app].
  repeat f_equal.
  unfold pkcs_padded. apply firstn_app_exact. lia.
Qed.

Definition pairs (n : nat) (cipher : block_cipher) : list (list N) -> list (list N) -> Prop :=
  Forall2 (fun b c => bc_encrypt cipher b = Ok c /\ length c = n /\ length b = n /\ bc_decrypt cipher c = Ok b).

Lemma pairs_exist n cipher bs : cipher_inverse n cipher -> Forall (fun b => length b = n) bs ->
  Forall bytes bs -> exists cs, pairs n cipher bs cs.
Proof.
  intros H. induction bs as [|b bs IH]; intros L B.
  - exists []. constructor.
  - inversion_clear L as [|? ? L1 L2]. inversion_clear B as [|? ? B1 B2].
    destruct (IH L2 B2) as [cs Hcs]. destruct (H b L1 B1) as (c & E1 & E2 & _ & E4).
    exists (c :: cs). constructor; auto.
Qed.

Lemma pairs_encrypt n cipher bs cs : pairs n cipher bs cs ->
  run_mode (cm_encrypt_block ecb_mode cipher) tt bs = (cs, Ok tt).
Proof.
  induction 1 as [|b c bs cs (E1 & _) H IH]; cbn [run_mode]; auto. cbn [ecb_mode cm_encrypt_block] in *.
  rewrite E1. cbn [bind]. now rewrite IH.
Qed.

Lemma pairs_decrypt n cipher bs cs : pairs n cipher bs cs ->
  run_mode (cm_decrypt_block ecb_mode cipher) tt cs = (bs, Ok tt).
Proof.
  induction 1 as [|b c bs cs (E1 & E2 & E3 & E4) H IH]; cbn [run_mode]; auto. cbn [ecb_mode cm_decrypt_block] in *.
  rewrite E4. cbn [bind]. now rewrite IH.
Qed.

Lemma pairs_nth n cipher bs cs : pairs n cipher bs cs -> length cs = length bs /\
  forall i, (i < length bs)%nat -> let b := nth i bs [] in let c := nth i cs [] in
    bc_encrypt cipher b = Ok c /\ length c = n /\ length b = n /\ bc_decrypt cipher c = Ok b.
Proof.
  induction 1 as [|b c bs cs H1 H IH]; cbn [length].
  - split; auto. intros i Hi. lia.
  - destruct IH as [L IH]. split; [congruence|]. intros [|i] Hi; cbn [nth]; [exact H1|apply IH; lia].
Qed.

Lemma pairs_blocks n cipher bs cs : pairs n cipher bs cs -> Forall (fun c => length c = n) cs.
Proof. induction 1 as [|b c bs cs (_ & L & _) H IH]; constructor; auto. Qed.

Lemma ecb_pairs n cipher p bs : (1 <= n <= 255)%nat -> bytes p -> cipher_inverse n cipher ->
  blocks_of n (pkcs_message n p) bs ->
  exists cs, pairs n cipher bs cs /\ be_encrypt n cipher ecb_mode tt p = (concat cs, Ok tt).
Proof.
  intros Hn Hp HC Hb. destruct (pkcs_message_app_blocks n p Hn Hp) as (bs' & q & Hb' & _ & _ & By).
  rewrite <- (blocks_unique n _ bs _ ltac:(lia) Hb Hb') in By.
  destruct (pairs_exist n cipher bs HC (proj1 Hb) By) as [cs Hcs]. exists cs. split; auto.
  rewrite (be_encrypt_eq n cipher ecb_mode tt p bs Hn Hb), (pairs_encrypt n cipher bs cs Hcs). reflexivity.
Qed.

Lemma ecb_equal_blocks n cipher p bs : (1 <= n <= 255)%nat -> bytes p -> cipher_inverse n cipher ->
  blocks_of n (pkcs_message n p) bs ->
  exists c cs, be_encrypt n cipher ecb_mode tt p = (c, Ok tt) /\ blocks_of n c cs /\ length cs = length bs /\
    forall i j, (i < length bs)%nat -> (j < length bs)%nat ->
      (nth i cs [] = nth j cs [] <-> nth i bs [] = nth j bs []).
Proof.
  intros Hn Hp HC Hb. destruct (ecb_pairs n cipher p bs Hn Hp HC Hb) as (cs & Hcs & E).
  exists (concat cs), cs. split; auto. split; [split; auto; eapply pairs_blocks; eauto|].
  destruct (pairs_nth n cipher bs cs Hcs) as [L H]. split; auto. intros i j Hi Hj.
  destruct (H i Hi) as (A1 & A2 & A3 & A4). destruct (H j Hj) as (B1 & B2 & B3 & B4).
  split; intros X.
  - rewrite X in A4. rewrite A4 in B4. now apply Ok_inj in B4.
  - rewrite X in A1. rewrite A1 in B1. now apply Ok_inj in B1.
Qed.

Lemma ecb_rearranged n cipher p bs : (1 <= n <= 255)%nat -> bytes p -> cipher_inverse n cipher ->
  blocks_of n (pkcs_message n p) bs ->
  exists c cs, be_encrypt n cipher ecb_mode tt p = (c, Ok tt) /\ blocks_of n c cs /\ length cs = length bs /\
    forall is, Forall (fun i => (i < length bs)%nat) is ->
      be_decrypt n cipher ecb_mode tt (pick cs is ++ last cs []) =
        (pick bs is ++ skipn (n * (length p / n)) p, Ok tt).
Proof.
  intros Hn Hp HC Hb. destruct (ecb_pairs n cipher p bs Hn Hp HC Hb) as (cs & Hcs & E).
  exists (concat cs), cs. split; auto. split; [split; auto; eapply pairs_blocks; eauto|].
  destruct (pairs_nth n cipher bs cs Hcs) as [L H]. split; auto. intros is Hi.
  destruct (pkcs_message_app_blocks n p Hn Hp) as (bs' & q & Hb' & Hq & Epq & By).
  pose proof (blocks_unique n _ bs _ ltac:(lia) Hb Hb') as Ebs.
  assert (Lb : (0 < length bs)%nat) by (rewrite Ebs, app_length; cbn; lia).
  set (js := is ++ [(length bs - 1)%nat]).
  assert (Hj : Forall (fun i => (i < length bs)%nat) js).
  { apply Forall_app. split; auto. constructor; auto. lia. }
  assert (P : pairs n cipher (map (fun i => nth i bs []) js) (map (fun i => nth i cs []) js)).
  { clear - H Hj. induction Hj as [|i js Hi Hj IH]; cbn [map]; constructor; auto. }
  assert (lastn : forall l : list (list N), length l = length bs -> nth (length bs - 1) l [] = last l []).
  { intros l Hl. rewrite <- Hl. clear - Lb Hl. rewrite <- Hl in Lb. destruct l as [|x l _] using rev_ind.
    - cbn in Lb. lia.
    - rewrite last_last, app_length. cbn [length]. rewrite app_nth2 by lia.
      replace (length l + 1 - 1 - length l)%nat with 0%nat by lia. reflexivity. }
  assert (EC : pick cs is ++ last cs [] = concat (map (fun i => nth i cs []) js)).
  { unfold js, pick. rewrite map_app, concat_app. cbn [map concat]. now rewrite app_nil_r, lastn. }
  assert (EB : map (fun i => nth i bs []) js = map (fun i => nth i bs []) is ++ [pkcs_padded n q]).
  { unfold js. rewrite map_app. cbn [map]. rewrite lastn by auto. now rewrite Ebs, last_last. }
  rewrite EC.
  apply pairs_decrypt in P as D. rewrite EB in D.
  rewrite (decrypt_padded n cipher ecb_mode tt _ _ q tt Hn (pairs_blocks _ _ _ _ P) D Hq).
  unfold pick. do 2 f_equal. symmetry. rewrite Epq.
  assert (Lc : length (concat bs') = (length bs' * n)%nat).
  { apply concat_length_const. destruct Hb' as [Hb' _]. now apply Forall_app in Hb' as [Hb' _]. }
  assert (Ld : (length (concat bs' ++ q) / n = length bs')%nat).
  { rewrite app_length, Lc, Nat.div_add_l, (Nat.div_small _ _ Hq) by lia. lia. }
  rewrite Ld, skipn_app, skipn_all2 by lia.
  replace (n * length bs' - length (concat bs'))%nat with 0%nat by lia. reflexivity.
Qed.

(** ** RSA *)

Lemma rsa_multiplicative capf k key m1 m2 m :
  canonical (rsa_exponent key) -> canonical (rsa_modulo key) ->
  canonical m1 -> canonical m2 -> canonical m ->
  1 < num (rsa_modulo key) -> countable (rsa_exponent key) ->
  (length m1 + 4 <= k)%nat -> (length m2 + 4 <= k)%nat -> (length m + 4 <= k)%nat ->
  (length (rsa_modulo key) + 4 <= k)%nat -> allocates capf k ->
  num m mod num (rsa_modulo key) = (num m1 * num m2) mod num (rsa_modulo key) ->
  exists c1 c2 c, rsa_encrypt capf key m1 = Ok c1 /\ rsa_encrypt capf key m2 = Ok c2 /\
    rsa_encrypt capf key m = Ok c /\ mul_mod capf c1 c2 (rsa_modulo key) = Ok c.
Proof.
  intros He Hn H1 H2 H Pn Ce L1 L2 L Ln Hal E.
  destruct (rsa_encrypt_spec capf k key m1) as (c1 & E1 & _ & C1 & V1); auto.
  destruct (rsa_encrypt_spec capf k key m2) as (c2 & E2 & _ & C2 & V2); auto.
  destruct (rsa_encrypt_spec capf k key m) as (c & E3 & _ & C3 & V3); auto.
  assert (Lc : forall c v, canonical c -> num c = rsa_power v (num (rsa_exponent key)) (num (rsa_modulo key)) ->
     (length c <= length (rsa_modulo key))%nat).
  { intros c' v Hc Hv. apply canonical_length_mono; auto using canonical_bytes. change num with from_le in *.
    rewrite Hv. unfold rsa_power. apply N.lt_le_incl, N.mod_lt. lia. }
  assert (Lc1 := Lc c1 _ C1 V1). assert (Lc2 := Lc c2 _ C2 V2).
  destruct (mul_mod_ok capf k c1 c2 (rsa_modulo key)) as (r & E4 & C4 & V4); auto; try lia.
  { change num with from_le in *. lia. }
  { eapply allocates_countable; eauto. lia. }
  exists c1, c2, c. split; [exact E1|]. split; [exact E2|]. split; [exact E3|]. rewrite E4. f_equal.
  apply num_inj; auto. rewrite V3. change (from_le r = num c1 * num c2 mod num (rsa_modulo key)) in V4.
  change (num r) with (from_le r). rewrite V4, V1, V2. unfold rsa_power.
  assert (Nz : num (rsa_modulo key) <> 0) by lia.
  rewrite <- N.mul_mod by auto. rewrite <- N.pow_mul_l.
  rewrite <- (pow_mod_idemp (num m1 * num m2)), <- (pow_mod_idemp (num m)) by auto. now rewrite E.
Qed.

Lemma canonical_exists x : exists a, canonical a /\ from_le a = x.
Proof.
  exists (trim_trailing_zeroes (to_le (N.to_nat (N.size x)) x)). split.
  - apply trim_canonical, to_le_bytes.
  - rewrite trim_val, from_le_to_le, N2Nat.id. apply N.mod_small.
    apply N.lt_le_trans with (2 ^ N.size x); [apply N.size_gt|]. apply N.pow_le_mono_l. lia.
Qed.

Lemma rsa_blinding capf k p q e d n m s c1 c2 :
  prime_N p -> prime_N q -> p <> q -> key_pair p q (num e) (num d) -> num n = p * q ->
  canonical n -> canonical d -> canonical e -> canonical m -> canonical s ->
  countable e -> countable d -> allocates capf k ->
  (length m + 4 <= k)%nat -> (length s + 4 <= k)%nat -> (length n + 4 <= k)%nat ->
  rsa_encrypt capf {| rsa_exponent := e; rsa_modulo := n |} m = Ok c1 ->
  rsa_encrypt capf {| rsa_exponent := e; rsa_modulo := n |} s = Ok c2 ->
  exists c r, mul_mod capf c1 c2 n = Ok c /\
    rsa_decrypt capf {| rsa_exponent := d; rsa_modulo := n |} c = Ok r /\ canonical r /\
    num r = (num m * num s) mod (p * q).
Proof.
  intros Pp Pq Npq KP En Cn Cd Ce Cm Cs Ke Kd Hal Lm Ls Ln E1 E2.
  set (x := (num m * num s) mod num n).
  assert (Pn : 1 < num n).
  { rewrite En. destruct Pp as [P1 _], Pq as [Q1 _]. clear - P1 Q1. nia. }
  destruct (canonical_exists x) as (y & Cy & Vy).
  assert (Ly : (length y <= length n)%nat).
  { apply canonical_length_mono; auto using canonical_bytes. change num with from_le in *. rewrite Vy.
    apply N.lt_le_incl, N.mod_lt. lia. }
  destruct (rsa_multiplicative capf k {| rsa_exponent := e; rsa_modulo := n |} m s y)
    as (a & b & c & F1 & F2 & F3 & F4); cbn [rsa_exponent rsa_modulo]; auto; try lia.
  { change (num y) with (from_le y). rewrite Vy. unfold x. apply N.mod_mod. lia. }
  rewrite E1 in F1. apply Ok_inj in F1. rewrite E2 in F2. apply Ok_inj in F2. subst a b.
  destruct (rsa_roundtrip_spec capf k p q e n d y) as (c' & G1 & _ & r & G2 & G3 & G4); auto; try lia.
  rewrite F3 in G1. apply Ok_inj in G1. subst c'.
  exists c, r. split; [exact F4|]. split; [exact G2|]. split; [exact G3|]. rewrite G4.
  change (num y) with (from_le y). rewrite Vy. unfold x. rewrite <- En. apply N.mod_mod. lia.
Qed.
