(** * Termination of the loops that are not over a list: RSA, MGF1, ASN.1 *)
From Coq Require Import ZifyBool ZifyNat ZifyN.
From Verif Require Import Base BaseLemmas SpecBig ProofBig ProofBig2 ProofBig3 ProofInverse ProofTerm.
From Verif Require Import ModelSha ModelBig ModelRsa ModelPem ModelKey ModelCost ModelOracle.
Ltac Zify.zify_post_hook ::= idtac.

Lemma post_upd_bytes l i v : bytes l -> byte v -> post bytes (upd l i v).
Proof.
  intros Hl Hv. unfold upd. destruct (_ <? _)%nat; cbn [post]; [|discriminate].
  apply Forall_app. split; [now apply Forall_firstn|]. constructor; [exact Hv|now apply Forall_skipn].
Qed.
Lemma mod256_byte x : byte (x mod 256).
Proof. apply N.mod_lt. discriminate. Qed.
Lemma bytes_zeros n : bytes (repeat 0 n).
Proof. apply Forall_repeat. unfold byte. lia. Qed.

Section Profile.
Context {P : profile}.

(** ** src/big/uint.rs *)
Lemma fine_bits_used a : fine (bits_used a).
Proof. unfold bits_used, ilog2_u8. fine. Qed.
Hint Resolve fine_bits_used : fine.
Lemma fine_is_set a i : fine (is_set a i).
Proof. unfold is_set. fine. Qed.
Hint Resolve fine_is_set : fine.
Lemma fine_update a i s : fine (update a i s).
Proof. unfold update. fine. Qed.
Lemma fine_cmp_loop a b l : fine (cmp_loop a b l).
Proof. induction l as [|i l IH]; cbn [cmp_loop]; fine. Qed.
Hint Resolve fine_cmp_loop : fine.
Lemma fine_big_cmp a b : fine (big_cmp a b).
Proof. unfold big_cmp. fine. Qed.
Hint Resolve fine_big_cmp : fine.
Lemma fine_big_le a b : fine (big_le a b).
Proof. unfold big_le. fine. Qed.
Lemma fine_big_lt a b : fine (big_lt a b).
Proof. unfold big_lt. fine. Qed.
Lemma fine_from_u128 v : fine (big_from_u128 v).
Proof. unfold big_from_u128. fine. Qed.
Hint Resolve fine_update fine_big_le fine_big_lt fine_from_u128 : fine.
Lemma fine_from_be_bytes b : fine (big_from_be_bytes b).
Proof. unfold big_from_be_bytes. fine. Qed.
Lemma fine_as_u128 a : fine (big_as_u128 a).
Proof. unfold big_as_u128. fine. Qed.
Lemma fine_add_u8_loop c bs : fine (add_u8_loop c bs).
Proof. revert c. induction bs as [|b bs IH]; intros c; cbn [add_u8_loop]; fine. Qed.
Hint Resolve fine_add_u8_loop : fine.
Lemma fine_add_assign_u8 a c : fine (add_assign_u8 a c).
Proof. unfold add_assign_u8. fine. Qed.
Lemma fine_add_assign a b : fine (add_assign a b).
Proof. unfold add_assign. fine. Qed.
Lemma fine_shr_assign a k : fine (shr_assign a k).
Proof. unfold shr_assign. fine. Qed.
Hint Resolve fine_from_be_bytes fine_as_u128 fine_add_assign_u8 fine_add_assign fine_shr_assign : fine.
Lemma fine_sub_assign_cap cap a b : fine (sub_assign_cap cap a b).
Proof. unfold sub_assign_cap. fine. Qed.
Lemma fine_sub_assign capf a b : fine (sub_assign capf a b).
Proof. apply fine_sub_assign_cap. Qed.
Hint Resolve fine_sub_assign : fine.
Lemma fine_rem_assign capf a m : fine (rem_assign capf a m).
Proof. unfold rem_assign. fine. Qed.
Hint Resolve fine_rem_assign : fine.

(** Bytes stay bytes. *)
Lemma post_add_u8_loop c bs : bytes bs -> post bytes (add_u8_loop c bs).
Proof.
  revert c. induction bs as [|b bs IH]; intros c H; cbn [add_u8_loop]; [exact H|].
  destruct (c =? 0); [exact H|]. apply fine_bind; [auto with fine|]. intros s. cbv zeta.
  inversion H as [|? ? Hb Hbs]; subst. eapply post_bind; [apply IH, Hbs|]. intros r Hr. cbv beta in Hr.
  constructor; [apply mod256_byte|exact Hr].
Qed.
Lemma post_add_assign_u8 a c : bytes a -> post bytes (add_assign_u8 a c).
Proof.
  intros H. unfold add_assign_u8. cbv zeta. eapply post_bind.
  - apply post_add_u8_loop. apply Forall_app. split; [exact H|apply (bytes_zeros 1)].
  - intros r Hr. cbn [post]. now apply trim_bytes.
Qed.
Lemma post_add_assign a b : bytes a -> post bytes (add_assign a b).
Proof.
  intros H. unfold add_assign. cbv zeta. apply fine_bind; [auto with fine|]. intros top.
  eapply post_bind with (Q := fun st : list N * N => bytes (fst st)).
  - apply post_forM.
    + cbn [fst]. apply Forall_app. split; [|apply (bytes_zeros 1)].
      apply Forall_app. split; [exact H|apply bytes_zeros].
    + intros i [l c] Hl. cbn [fst] in Hl. apply fine_bind; [auto with fine|]. intros li.
      apply fine_bind; [auto with fine|]. intros s.
      apply fine_bind; [fine|]. intros s'.
      eapply post_bind; [apply post_upd_bytes; [exact Hl|apply mod256_byte]|]. intros l' Hl'. exact Hl'.
  - intros [l c] Hl. cbn [fst] in Hl.
    eapply post_bind; [apply post_upd_bytes; [exact Hl|apply mod256_byte]|].
    intros l' Hl'. cbn [post]. now apply trim_bytes.
Qed.
Lemma post_sub_assign capf a b : bytes a -> post bytes (sub_assign capf a b).
Proof.
  intros H. unfold sub_assign, sub_assign_cap. apply fine_bind; [auto with fine|]. intros k.
  apply fine_bind; [auto with fine|]. intros o. cbv zeta.
  eapply post_bind; [apply post_add_assign_u8, H|]. intros s Hs.
  eapply post_bind; [apply post_add_assign, Hs|]. intros s2 Hs2.
  apply fine_bind; [auto with fine|]. intros bits.
  eapply post_bind with (Q := bytes).
  - apply post_forM; [exact Hs2|]. intros i s3 Hs3.
    pose proof (fine_update s3 (N.of_nat i) false) as F.
    destruct (update s3 (N.of_nat i) false) as [r|p] eqn:E; [|exact F].
    exact (update_bytes _ _ _ _ Hs3 E).
  - intros s3 Hs3. cbn [post]. now apply trim_bytes.
Qed.
Lemma post_rem_assign capf a m : bytes a -> post bytes (rem_assign capf a m).
Proof.
  intros H. unfold rem_assign. apply fine_bind; [auto with fine|]. intros rb.
  apply fine_bind; [auto with fine|]. intros ab. destruct (ab <? rb); [exact H|].
  apply fine_bind; [auto with fine|]. intros d. cbv zeta.
  eapply post_bind with (Q := fun st : list N * list N => bytes (fst st)).
  - apply post_forM; [exact H|]. intros i [x y] Hx. cbn [fst] in Hx.
    apply fine_bind; [auto with fine|]. intros le.
    eapply post_bind with (Q := bytes).
    + destruct le; [now apply post_sub_assign|exact Hx].
    + intros x' Hx'. apply fine_bind; [auto with fine|]. intros y'. exact Hx'.
  - intros [x y] Hx. exact Hx.
Qed.

(** ** [mul_mod] and [pow_mod], src/rsa/mod.rs *)
Lemma bits_used_canonical b k : bytes b -> bits_used b = Ok k -> b = [] \/ canonical b.
Proof.
  intros Hb E. destruct b as [|x b'] using rev_ind; [now left|]. right. clear IHb'.
  apply Forall_app in Hb as [Hb' Hx]. inversion Hx as [|? ? Hx' _]; subst.
  split; [apply Forall_app; split; [exact Hb'|repeat constructor; exact Hx']|].
  rewrite last_last. intros ->.
  assert (Ix : idx (b' ++ [0]) (length b') = Ok 0).
  { unfold idx. rewrite nth_error_app2, Nat.sub_diag by lia. reflexivity. }
  assert (L : (length (b' ++ [0%N]) - 1)%nat = length b') by (rewrite app_length; cbn [length]; lia).
  assert (Ns : nsub (length (b' ++ [0])) 1 = Ok (length b')).
  { unfold nsub. rewrite L. destruct (Nat.leb_spec 1 (length (b' ++ [0]))) as [_|C]; [reflexivity|].
    rewrite app_length in C. cbn [length] in C. lia. }
  unfold bits_used in E. destruct (b' ++ [0]) as [|y t] eqn:Ey; [now destruct b'|].
  rewrite Ns in E. cbn [bind] in E.
  apply bind_ok_inv in E as (k1 & _ & E). apply bind_ok_inv in E as (k2 & _ & E).
  rewrite Ix in E. cbn [bind] in E. discriminate.
Qed.

Lemma post_mul_mod_loop fuel capf r a b m : bytes r -> bytes a -> bytes b ->
  from_le b < 2 ^ N.of_nat fuel -> post bytes (mul_mod_loop fuel capf r a b m).
Proof.
  revert r a b. induction fuel as [|fuel IH]; intros r a b Hr Ha Hb F; cbn [mul_mod_loop];
    (destruct (bits_used b) as [k|p] eqn:Eb; [|pose proof (fine_bits_used b) as G; rewrite Eb in G; exact G]);
    cbn [bind]; (destruct (N.eqb_spec k 0) as [_|Nz]; [exact Hr|]);
    (destruct (bits_used_canonical b k Hb Eb) as [->|Cb]; [now rewrite <- (Ok_inj _ _ Eb) in Nz|]).
  - exfalso. destruct (canonical_cases _ Cb) as [->|(l & x & -> & Hl & Hx & Hz)].
    + now rewrite <- (Ok_inj _ _ Eb) in Nz.
    + cbn in F. rewrite from_le_app in F. cbn [from_le] in F.
      assert (0 < 256 ^ N.of_nat (length l)) by (apply N.neq_0_lt_0, N.pow_nonzero; discriminate).
      assert (1 <= 256 ^ N.of_nat (length l) * (x + 256 * 0)); [|lia].
      rewrite <- (N.mul_1_l 1). apply N.mul_le_mono; lia.
  - apply fine_bind; [auto with fine|]. intros s.
    eapply post_bind with (Q := bytes).
    + destruct s; [|exact Hr]. eapply post_bind; [apply post_add_assign, Hr|]. intros r' Hr'.
      now apply post_rem_assign.
    + intros r' Hr'. cbv zeta. eapply post_bind; [apply post_rem_assign, shl_bytes, Ha|].
      intros a' Ha'.
      destruct (shr_ok b 1 Cb ltac:(change (1 / 8) with 0; lia)) as (b' & E' & Cb' & V').
      rewrite E'. cbn [bind]. apply IH; auto; [now apply canonical_bytes|].
      rewrite V'. change (2 ^ 1) with 2. apply N.div_lt_upper_bound; [discriminate|].
      rewrite Nat2N.inj_succ, N.pow_succ_r' in F. exact F.
Qed.

Lemma from_le_fuel b : bytes b -> from_le b < 2 ^ N.of_nat (8 * length b).
Proof.
  intros H. pose proof (from_le_lt b H) as L. change 256 with (2 ^ 8) in L. rewrite <- N.pow_mul_r in L.
  replace (N.of_nat (8 * length b)) with (8 * N.of_nat (length b)) by lia. exact L.
Qed.

Lemma post_mul_mod capf a b m : bytes a -> bytes b -> post bytes (mul_mod capf a b m).
Proof.
  intros Ha Hb. unfold mul_mod. change (big_from_u128 0) with (Ok (A := list N) []). cbn [bind].
  apply post_mul_mod_loop; auto; [constructor|now apply from_le_fuel].
Qed.

Lemma post_pow_mod capf a p m : bytes a -> post bytes (pow_mod capf a p m).
Proof.
  intros Ha. unfold pow_mod. change (big_from_u128 1) with (Ok (A := list N) [1]). cbn [bind].
  apply fine_bind; [auto with fine|]. intros steps.
  eapply post_bind with (Q := fun st : list N * list N => bytes (fst st) /\ bytes (snd st)).
  - apply post_forM.
    + split; [exact Ha|]. cbn [snd]. constructor; [unfold byte; lia|constructor].
    + intros i [x y] [Hx Hy]. cbn [fst snd] in Hx, Hy. apply fine_bind; [auto with fine|]. intros s.
      eapply post_bind with (Q := bytes).
      * destruct s; [now apply post_mul_mod|exact Hy].
      * intros y' Hy'. eapply post_bind; [apply post_mul_mod; exact Hx|]. intros x' Hx'. now split.
  - intros [x y] [_ Hy]. exact Hy.
Qed.

(** ** [inverse] and [create_keys] *)
Lemma fine_inverse_loop fuel : forall r nr t nt, r < 2 ^ 128 -> nr <= r -> r * nr < 2 ^ N.of_nat fuel ->
  fine (inverse_loop fuel r nr t nt).
Proof.
  induction fuel as [|fuel IH]; intros r nr t nt Hr Hl F.
  - destruct (N.eq_dec nr 0) as [->|Nz]; [rewrite loop_zero; exact I|]. exfalso.
    cbn in F. assert (1 * 1 <= r * nr) by (apply N.mul_le_mono; lia). lia.
  - destruct (N.eq_dec nr 0) as [->|Nz]; [rewrite loop_zero; exact I|].
    rewrite loop_step by lia. apply fine_bind; [auto with fine|]. intros m.
    apply fine_bind; [auto with fine|]. intros t'.
    pose proof (N.mod_lt r nr Nz) as M. apply IH; [lia|lia|]. apply euclid_fuel; [lia|exact F].
Qed.

Lemma fine_inverse a n : a < 2 ^ 128 -> n < 2 ^ 128 -> fine (inverse a n).
Proof.
  intros Ha Hn. unfold inverse. apply fine_bind; [|intros [r t]; fine].
  assert (B : forall x y, x < 2 ^ 128 -> y < 2 ^ 128 -> x * y < 2 ^ 256).
  { intros x y Hx Hy. change (2 ^ 256) with (2 ^ 128 * 2 ^ 128). now apply N.mul_lt_mono. }
  destruct (N.le_gt_cases a n) as [L|L].
  - apply fine_inverse_loop; auto. eapply N.lt_le_trans; [apply B; auto|].
    apply N.pow_le_mono_r; [discriminate|]. now vm_compute.
  - destruct (N.eq_dec a 0) as [->|Nz]; [lia|].
    change 300%nat with (S 299). rewrite loop_step by lia.
    apply fine_bind; [auto with fine|]. intros m. apply fine_bind; [auto with fine|]. intros t'.
    rewrite N.mod_small by exact L. apply fine_inverse_loop; [exact Ha|lia|].
    eapply N.lt_le_trans; [apply B; auto|]. apply N.pow_le_mono_r; [discriminate|]. now vm_compute.
Qed.

Lemma post_as_u128 a : bytes a ->
  post (fun r => match r with ROk v => v < 2 ^ 128 | RErr _ => True end) (big_as_u128 a).
Proof.
  intros H. unfold big_as_u128. destruct (16 <? length a)%nat eqn:E; [exact I|].
  unfold copy_range. rewrite repeat_length.
  replace ((0 <=? length a)%nat && (length a <=? 16)%nat)%bool with true by lia.
  replace (length a =? length a - 0)%nat with true by lia. cbn [bind post firstn app].
  assert (B : bytes (a ++ skipn (length a) (repeat 0 16))).
  { apply Forall_app. split; [exact H|]. apply Forall_skipn, bytes_zeros. }
  pose proof (from_le_lt _ B) as L. rewrite app_length, skipn_length, repeat_length in L.
  replace (length a + (16 - length a))%nat with 16%nat in L by lia. exact L.
Qed.

Lemma post_cmul w a b : post (fun x => x < 2 ^ w) (cmul w a b).
Proof.
  unfold cmul. destruct (N.ltb_spec (a * b) (2 ^ w)); [exact H|].
  destruct overflow_checks; cbn [post]; [discriminate|]. apply N.mod_lt, N.pow_nonzero. discriminate.
Qed.

Lemma post_lcm a b : post (fun x => x < 2 ^ 128) (lcm a b).
Proof.
  unfold lcm. eapply post_bind; [apply post_cmul|]. intros p Hp. cbv zeta.
  destruct (N.eqb_spec (N.gcd a b) 0) as [_|Nz]; cbn [post]; [discriminate|].
  eapply N.le_lt_trans; [|exact Hp]. apply N.div_le_upper_bound; [exact Nz|].
  rewrite <- (N.mul_1_l p) at 1. apply N.mul_le_mono_r. lia.
Qed.

Lemma fine_create_keys p q e : bytes p -> bytes q -> bytes e -> fine (create_keys p q e).
Proof.
  intros Hp Hq He. unfold create_keys.
  eapply post_bind; [apply post_as_u128, Hp|]. intros p' _. apply fine_bind; [auto with fine|]. intros p1.
  eapply post_bind; [apply post_as_u128, Hq|]. intros q' _. apply fine_bind; [auto with fine|]. intros q1.
  eapply post_bind; [apply post_as_u128, He|]. intros e' He'.
  destruct e' as [e'|er]; cbn [runwrap bind]; [|cbn; discriminate].
  apply fine_bind; [auto with fine|]. intros n. apply fine_bind; [auto with fine|]. intros x.
  apply fine_bind; [auto with fine|]. intros y.
  eapply post_bind; [apply post_lcm|]. intros l Hl.
  apply fine_bind; [now apply fine_inverse|]. intros d. fine.
Qed.

(** ** MGF1, OAEP and messages *)
Section Hash.
Context (hasher : list N -> res (list N)).
Context (H : forall m, post (fun h => h <> []) (hasher m)).

Lemma fine_mgf1_loop fuel : forall k hc o c n, (n <= fuel + length o)%nat ->
  fine (mgf1_loop fuel hasher k hc o c n).
Proof using H.
  induction fuel as [|fuel IH]; intros k hc o c n L; cbn [mgf1_loop];
    (destruct (Nat.ltb_spec (length o) n) as [Hn|_]; [|exact I]); [lia|].
  apply fine_bind; [auto with fine|]. intros hc'.
  eapply post_bind; [apply H|]. intros h Hh. cbv zeta.
  apply fine_bind; [auto with fine|]. intros c'. apply IH. rewrite app_length.
  destruct h; [congruence|]. cbn [length]. lia.
Qed.
Lemma fine_mgf1 s n : fine (mgf1 hasher s n).
Proof using H. unfold mgf1. cbv zeta. apply fine_bind; [apply fine_mgf1_loop; lia|]. intros; exact I. Qed.
Lemma fine_hasher m : fine (hasher m).
Proof using H. exact (post_fine _ _ (H m)). Qed.
Lemma fine_xor_slices a b : fine (xor_slices a b).
Proof using. unfold xor_slices. fine. Qed.
Hint Resolve fine_mgf1 fine_hasher fine_xor_slices : fine.
Lemma fine_oaep_encode hn l m n : fine (oaep_encode hn hasher l m n).
Proof using H. unfold oaep_encode. fine. Qed.
Lemma fine_oaep_decode hn l m n : fine (oaep_decode hn hasher l m n).
Proof using H. unfold oaep_decode. fine. Qed.
End Hash.

Lemma sha256_nonempty m : post (fun h => h <> []) (sha256 m).
Proof. eapply post_weaken; [|apply post_sha256]. intros h L ->. discriminate. Qed.

Lemma post_from_u128 v : post bytes (big_from_u128 v).
Proof.
  unfold big_from_u128. destruct (v =? 0); [constructor|]. cbv zeta.
  apply fine_bind; [auto with fine|]. intros p. unfold slice_to. destruct (_ <=? _)%nat; cbn [post]; [|discriminate].
  apply Forall_firstn, to_le_bytes.
Qed.
Lemma post_from_be_bytes b : bytes b -> post bytes (big_from_be_bytes b).
Proof.
  intros Hb. unfold big_from_be_bytes. destruct position as [k|]; [|apply post_from_u128].
  unfold slice_from. destruct (_ <=? _)%nat; cbn [post bind]; [|discriminate].
  apply Forall_rev, Forall_skipn, Hb.
Qed.

Lemma fine_encrypt_message {E} capf k m (ps : padding_scheme E) :
  (forall l m n, bytes m -> post bytes (ps_encode ps l m n)) -> bytes m ->
  fine (encrypt_message capf k m ps).
Proof.
  intros H Hm. unfold encrypt_message. apply fine_bind; [auto with fine|]. intros bits.
  apply fine_bind; [auto with fine|]. intros b. eapply post_bind; [apply H, Hm|]. intros em Hem.
  eapply post_bind; [apply post_from_be_bytes, Hem|]. intros x Hx.
  apply fine_bind; [auto with fine|]. intros lt. destruct lt; [|cbn; discriminate].
  apply fine_bind; [|intros; exact I]. eapply post_fine. unfold rsa_encrypt. now apply post_pow_mod.
Qed.
Lemma fine_decrypt_verbose {E} capf k c (ps : padding_scheme E) :
  (forall l m n, fine (ps_decode ps l m n)) -> bytes c -> fine (decrypt_message_verbose capf k c ps).
Proof.
  intros H Hc. unfold decrypt_message_verbose. cbv zeta.
  eapply post_bind; [apply post_from_be_bytes, Hc|]. intros x Hx.
  eapply post_bind; [unfold rsa_decrypt; apply post_pow_mod, Hx|]. intros d _. fine.
Qed.
Lemma fine_decrypt_message {E} capf k c (ps : padding_scheme E) :
  (forall l m n, fine (ps_decode ps l m n)) -> bytes c -> fine (decrypt_message capf k c ps).
Proof.
  intros H Hc. unfold decrypt_message. cbv zeta.
  eapply post_bind; [apply post_from_be_bytes, Hc|]. intros x Hx.
  eapply post_bind; [unfold rsa_decrypt; apply post_pow_mod, Hx|]. intros d _. fine.
Qed.

(** ** ASN.1 and the key import *)
Definition shorter (bs : list N) (r : result (asn1 * list N) asn1_error) : Prop :=
  match r with ROk (_, rest) => (length rest < length bs)%nat | RErr _ => True end.

Lemma post_slice_from {A} (l : list A) a :
  post (fun r => (length r + a = length l)%nat) (slice_from l a).
Proof.
  unfold slice_from. destruct (Nat.leb_spec a (length l)); cbn [post]; [|discriminate].
  rewrite skipn_length. lia.
Qed.
Lemma post_slice_to {A} (l : list A) a : post (fun r => length r = a) (slice_to l a).
Proof.
  unfold slice_to. destruct (Nat.leb_spec a (length l)); cbn [post]; [|discriminate].
  rewrite firstn_length. lia.
Qed.

Lemma post_header bs : post (fun r => match r with
  | ROk (_, rest, _) => (length rest + 2 <= length bs)%nat | RErr _ => True end) (asn1_header bs).
Proof.
  unfold asn1_header. destruct (_ <=? _)%nat; [exact I|].
  apply fine_bind; [auto with fine|]. intros tag. apply fine_bind; [auto with fine|]. intros b1.
  destruct (negb _).
  - cbv zeta. apply fine_bind; [auto with fine|]. intros k. apply fine_bind; [auto with fine|]. intros src.
    apply fine_bind; [auto with fine|]. intros len. eapply post_bind; [apply post_slice_from|].
    intros rest L. cbv beta in L. cbn [post]. clear - L. lia.
  - eapply post_bind; [apply post_slice_from|]. intros rest L. cbv beta in L. cbn [post]. clear - L. lia.
Qed.

Lemma fine_elements parse fuel : forall l es, (length l <= fuel)%nat ->
  (forall b, (length b <= fuel)%nat -> post (shorter b) (parse b)) -> fine (asn1_elements parse fuel l es).
Proof.
  induction fuel as [|fuel IH]; intros l es L H; destruct l as [|x l]; cbn [asn1_elements]; try exact I.
  { cbn [length] in L. lia. }
  eapply post_bind; [apply H, L|]. intros [[a rest]|e] Hr; [|exact I]. cbn [shorter] in Hr.
  apply IH; [cbn [length] in *; lia|]. intros b Hb. apply H. lia.
Qed.

Lemma post_parse fuel : forall bs, (length bs < fuel)%nat -> post (shorter bs) (parse_from_bytes fuel bs).
Proof.
  induction fuel as [|fuel IH]; intros bs L; [lia|]. cbn [parse_from_bytes].
  eapply post_bind; [apply post_header|]. intros [[[tag rest] len]|e] Hh; [|exact I].
  destruct (N.ltb_spec (N.of_nat (length rest)) len); [exact I|]. cbv zeta.
  apply fine_bind.
  - destruct (tag =? 2); [fine|]. destruct (tag =? 4); [fine|]. destruct (tag =? 3); [fine|].
    destruct (tag =? 5); [fine|]. destruct (tag =? 6); [fine|]. destruct (tag =? 0x30); [|fine].
    eapply post_bind; [apply post_slice_to|]. intros lft Hl. cbv beta in Hl.
    apply fine_bind; [|intros; exact I]. apply fine_elements; [lia|]. intros b Hb. apply IH.
    unfold ix in *. lia.
  - intros [a|e]; [|exact I]. eapply post_bind; [apply post_slice_from|]. intros r Hr. cbv beta in Hr.
    cbn [post shorter]. lia.
Qed.

Lemma fine_asn1_try_from bs : fine (asn1_try_from bs).
Proof.
  unfold asn1_try_from. eapply post_bind; [apply post_parse; lia|]. intros [[a [|x r]]|e] _; exact I.
Qed.
Hint Resolve fine_asn1_try_from : fine.
Lemma fine_private_from_asn1 a : fine (private_key_from_asn1 a).
Proof. unfold private_key_from_asn1. fine. Qed.
Lemma fine_public_from_asn1 a : fine (public_key_from_asn1 a).
Proof. unfold public_key_from_asn1. fine. Qed.
Hint Resolve fine_private_from_asn1 fine_public_from_asn1 : fine.
Lemma fine_private_key_try_from p : fine (private_key_try_from p).
Proof. unfold private_key_try_from, private_key_info_from_asn1. fine. Qed.
Lemma fine_public_key_try_from p : fine (public_key_try_from p).
Proof. unfold public_key_try_from, subject_public_key_info_from_asn1. fine. Qed.
End Profile.
