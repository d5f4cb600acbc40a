(** * Hash values: words, bytes and hex *)
From Coq Require Import ZifyBool ZifyNat ZifyN.
From Verif Require Import Base BaseLemmas ModelSha SpecEndian SpecHex ProofEndian ProofSha.
Ltac Zify.zify_post_hook ::= Z.div_mod_to_equations.

(** ** Words *)

Lemma map_be_num_bytes k w ws : (0 < k)%nat -> w = 8 * N.of_nat k -> words w ws ->
  map be_num (groups k (concat (map (be_bytes k) ws))) = ws.
Proof.
  intros Hk -> Hw. rewrite (groups_unique k _ (map (be_bytes k) ws)); auto.
  - rewrite map_map. rewrite <- (map_id ws) at 2. apply map_ext_in. intros v Hv.
    apply be_num_bytes. rewrite Forall_forall in Hw. apply Hw in Hv.
    rewrite N.pow_mul_r in Hv. exact Hv.
  - apply Forall_forall. intros c Hc. apply in_map_iff in Hc as (v & <- & _). apply be_bytes_length.
Qed.

Lemma map_bytes_be_num k n bs : (0 < k)%nat -> length bs = (n * k)%nat -> bytes bs ->
  concat (map (be_bytes k) (map be_num (groups k bs))) = bs.
Proof.
  intros Hk Hl Hb. destruct (concat_groups k n bs Hk Hl) as (C & _ & G).
  rewrite map_map. rewrite <- C at 2. f_equal. rewrite <- (map_id (groups k bs)) at 2.
  apply map_ext_in. intros c Hc. rewrite Forall_forall in G. apply be_bytes_num; auto.
  pose proof (groups_bytes k bs Hb) as B. rewrite Forall_forall in B. auto.
Qed.

Lemma concat_be_length k ws : length (concat (map (be_bytes k) ws)) = (length ws * k)%nat.
Proof.
  rewrite (concat_length_const k), map_length; auto.
  apply Forall_forall. intros c Hc. apply in_map_iff in Hc as (v & <- & _). apply be_bytes_length.
Qed.

Lemma words32_roundtrip n ws : length ws = n -> words 32 ws ->
  exists bs, u32s_to_bytes (4 * n) ws = Ok bs /\ bs = concat (map (be_bytes 4) ws) /\
    bytes_to_u32s n bs = Ok ws.
Proof.
  intros Hl Hw. eexists. split; [apply u32s_to_bytes_ok; lia|]. split; [reflexivity|].
  unfold bytes_to_u32s. rewrite bytes_to_words by (rewrite ?concat_be_length; lia).
  now rewrite (map_be_num_bytes 4 32) by (auto; lia).
Qed.

Lemma bytes32_roundtrip n bs : length bs = (4 * n)%nat -> bytes bs ->
  exists ws, bytes_to_u32s n bs = Ok ws /\ ws = map be_num (groups 4 bs) /\
    length ws = n /\ words 32 ws /\ u32s_to_bytes (4 * n) ws = Ok bs.
Proof.
  intros Hl Hb. eexists. split; [apply bytes_to_words; lia|]. split; [reflexivity|].
  assert (L : length (map be_num (groups 4 bs)) = n).
  { rewrite map_length, groups_length, Hl, Nat.mul_comm. apply Nat.div_mul. lia. }
  split; auto. split; [apply (group_words 4); auto; lia|].
  rewrite u32s_to_bytes_ok by lia. f_equal. apply (map_bytes_be_num 4 n); auto; lia.
Qed.

Lemma words64_bytes n ws : length ws = n ->
  u64s_to_bytes (8 * n) ws = Ok (concat (map (be_bytes 8) ws)).
Proof. intros. apply u64s_to_bytes_ok. lia. Qed.

Lemma bytes_to_u64s_panics w bs : (4 <= length bs)%nat -> bytes_to_u64s w bs = Panic PUnwrap.
Proof.
  intros Hl. unfold bytes_to_u64s.
  destruct (chunks_exact_spec 4 bs ltac:(lia)) as (cs & r & E & Eb & Hcs & Hr). rewrite E. cbn [bind].
  destruct cs as [|c cs].
  { cbn in Eb. subst r. lia. }
  unfold enumerate. cbn [enumerate_from forM].
  rewrite to_array_panic; [reflexivity|]. inversion_clear Hcs. lia.
Qed.

Lemma words64_refuted : exists ws, length ws = 8%nat /\ Forall (fun v => v < 2 ^ 64) ws /\
  forall h, hash512_from_words ws = Ok h -> hash512_to_words h <> Ok ws.
Proof.
  exists (repeat 1 8). split; [reflexivity|]. split; [repeat constructor|].
  intros h E. vm_compute in E. apply Ok_inj in E. subst h. vm_compute. discriminate.
Qed.

(** ** Hex *)

Lemma hex_val_sweep : forallb (fun c =>
  match hex_val c with
  | Some v => (v <? 16) && (hex_lower c =? nth (N.to_nat v) hex_digits 0)
  | None => forallb (fun v => negb (hex_lower c =? nth v hex_digits 0)) (seq 0 16)
  end) (map N.of_nat (seq 0 128)) = true.
Proof. vm_compute. reflexivity. Qed.

Lemma hex_digits_inj : forallb (fun v => forallb (fun u =>
  (negb (nth u hex_digits 0 =? nth v hex_digits 0)) || (u =? v)%nat) (seq 0 16)) (seq 0 16) = true.
Proof. vm_compute. reflexivity. Qed.

Lemma digits_lt : forallb (fun v => nth v hex_digits 0 <? 128) (seq 0 16) = true.
Proof. vm_compute. reflexivity. Qed.

Lemma hex_val_spec c v : hex_val c = Some v <-> v < 16 /\ hex_lower c = nth (N.to_nat v) hex_digits 0.
Proof.
  destruct (N.lt_ge_cases c 128) as [L|L].
  - pose proof hex_val_sweep as S. rewrite forallb_forall in S.
    specialize (S c). rewrite in_map_iff in S.
    assert (Hin : exists x, N.of_nat x = c /\ In x (seq 0 128)).
    { exists (N.to_nat c). split; [lia|]. apply in_seq. lia. }
    specialize (S Hin). destruct (hex_val c) as [u|] eqn:E.
    + apply andb_prop in S as [S1 S2]. apply N.ltb_lt in S1. apply N.eqb_eq in S2. split.
      * intros [= <-]. auto.
      * intros [H1 H2]. f_equal. rewrite S2 in H2.
        pose proof hex_digits_inj as I. rewrite forallb_forall in I.
        specialize (I (N.to_nat v) ltac:(apply in_seq; lia)). rewrite forallb_forall in I.
        specialize (I (N.to_nat u) ltac:(apply in_seq; lia)). lia.
    + split; [discriminate|]. intros [H1 H2]. rewrite forallb_forall in S.
      specialize (S (N.to_nat v) ltac:(apply in_seq; lia)). lia.
  - assert (E : hex_val c = None).
    { unfold hex_val. 
      replace (c <=? 57) with false by lia. replace (c <=? 102) with false by lia.
      replace (c <=? 70) with false by lia. now rewrite !Bool.andb_false_r. }
    rewrite E. split; [discriminate|]. intros [H1 H2].
    unfold hex_lower in H2. replace (c <=? 70) with false in H2 by lia.
    rewrite Bool.andb_false_r in H2.
    pose proof digits_lt as D. rewrite forallb_forall in D.
    specialize (D (N.to_nat v) ltac:(apply in_seq; lia)). lia.
Qed.

Lemma pair_ind {A} (P : list A -> Prop) :
  P [] -> (forall a, P [a]) -> (forall a b l, P l -> P (a :: b :: l)) -> forall l, P l.
Proof.
  intros H0 H1 H2 l. enough (P l /\ forall a, P (a :: l)) by tauto.
  induction l as [|a l [IH1 IH2]]; split; auto.
Qed.

Lemma hex_pairs_spec s : forall i bs, (length s mod 2 = 0)%nat ->
  hex_pairs i s = ROk bs <-> bytes bs /\ map hex_lower s = hex_print bs.
Proof.
  induction s as [|a|a b s IH] using pair_ind; intros i bs Hl.
  - cbn [hex_pairs]. split.
    + intros [= <-]. split; [constructor|reflexivity].
    + intros [_ H]. destruct bs; [reflexivity|discriminate H].
  - discriminate Hl.
  - assert (Hl' : (length s mod 2 = 0)%nat).
    { cbn [length] in Hl. replace (S (S (length s))) with (length s + 1 * 2)%nat in Hl by lia.
      now rewrite Nat.mod_add in Hl. }
    cbn [hex_pairs map].
    split.
    + intros H. destruct (hex_val a) as [u|] eqn:Ea; [|discriminate].
      destruct (hex_val b) as [v|] eqn:Eb; [|discriminate].
      destruct (hex_pairs (i + 2) s) as [bs'|] eqn:E; [|discriminate].
      assert (bs = u * 16 + v :: bs') by congruence. subst bs. clear H.
      apply hex_val_spec in Ea as [Hu Ea]. apply hex_val_spec in Eb as [Hv Eb].
      apply IH in E as [B E]; auto. split; [constructor; auto; unfold byte; lia|].
      unfold hex_print. cbn [map concat app].
      replace ((u * 16 + v) / 16) with u by lia. replace ((u * 16 + v) mod 16) with v by lia.
      rewrite Ea, Eb, E. reflexivity.
    + intros [B E]. destruct bs as [|x bs]; [discriminate E|].
      unfold hex_print in E. cbn [map concat app] in E.
      pose proof (f_equal (@hd N 0) E) as E1. cbn [hd] in E1.
      pose proof (f_equal (fun l => hd 0 (tl l)) E) as E2. cbn [hd tl] in E2.
      pose proof (f_equal (fun l => tl (tl l)) E) as E3. cbn [tl] in E3.
      inversion_clear B as [|? ? Bx Bs]. unfold byte in Bx.
      rewrite (proj2 (hex_val_spec a (x / 16))) by (split; [lia|exact E1]).
      rewrite (proj2 (hex_val_spec b (x mod 16))) by (split; [lia|exact E2]).
      rewrite (proj2 (IH (i + 2)%nat bs Hl')) by (split; [exact Bs|exact E3]).
      f_equal. f_equal. lia.
Qed.

Lemma hex_print_length bs : length (hex_print bs) = (2 * length bs)%nat.
Proof.
  unfold hex_print. rewrite (concat_length_const 2), map_length; [lia|].
  apply Forall_forall. intros c Hc. apply in_map_iff in Hc as (v & <- & _). reflexivity.
Qed.

Lemma from_hex_spec n s bs :
  hash_from_hex n s = Ok (ROk bs) <-> length bs = n /\ bytes bs /\ map hex_lower s = hex_print bs.
Proof.
  unfold hash_from_hex, vec_from_hex. split.
  - intros H. destruct (Nat.eqb_spec (length s mod 2) 0) as [L|L]; [|discriminate].
    destruct (hex_pairs 0 s) as [bs'|] eqn:E; [|discriminate].
    destruct (Nat.eqb_spec (length bs') n) as [L2|L2]; [|discriminate]. cbn [negb] in H.
    rewrite to_array_ok in H by auto. cbn [bind] in H. apply Ok_inj in H.
    assert (bs' = bs) by congruence. subst bs'. split; auto. now apply (hex_pairs_spec s 0).
  - intros (L & B & E).
    assert (Ls : length s = (2 * n)%nat).
    { rewrite <- (map_length hex_lower s), E, hex_print_length. lia. }
    replace (length s mod 2 =? 0)%nat with true by lia.
    rewrite (proj2 (hex_pairs_spec s 0 bs ltac:(lia))) by auto.
    rewrite L, Nat.eqb_refl. cbn [negb]. now rewrite to_array_ok.
Qed.

Lemma from_hex_total n s : exists r, hash_from_hex n s = Ok r.
Proof.
  unfold hash_from_hex. destruct (vec_from_hex s) as [bs|e]; [|eauto].
  destruct (Nat.eqb_spec (length bs) n) as [L|L]; cbn [negb]; [|eauto].
  rewrite to_array_ok by auto. cbn [bind]. eauto.
Qed.

Lemma hex_lower_print bs : bytes bs -> map hex_lower (hex_print bs) = hex_print bs.
Proof.
  intros H. apply hex_pairs_spec with (i := O); [rewrite hex_print_length; lia|].
  assert (S : forallb (fun b => match hex_pairs 0 (hex_print [b]) with ROk [x] => x =? b | _ => false end)
     (map N.of_nat (seq 0 256)) = true) by (vm_compute; reflexivity).
  rewrite forallb_forall in S. generalize O as i.
  induction H as [|b bs Hb _ IH]; intros i; [reflexivity|]. unfold byte in Hb.
  specialize (S b). rewrite in_map_iff in S.
  specialize (S ltac:(exists (N.to_nat b); split; [lia|apply in_seq; lia])).
  unfold hex_print in *. cbn [map concat app hex_pairs] in *.
  destruct (hex_val (nth (N.to_nat (b / 16)) hex_digits 0)) as [u|]; [|discriminate].
  destruct (hex_val (nth (N.to_nat (b mod 16)) hex_digits 0)) as [v|]; [|discriminate].
  apply N.eqb_eq in S. rewrite IH, S. reflexivity.
Qed.

Lemma from_hex_print n bs : length bs = n -> bytes bs -> hash_from_hex n (hex_print bs) = Ok (ROk bs).
Proof. intros. apply from_hex_spec. split; auto. split; auto. now apply hex_lower_print. Qed.

(** ** Errors *)

Lemma hex_val_digit c : hex_digit c <-> exists v, hex_val c = Some v.
Proof.
  unfold hex_digit, hex_val.
  destruct (N.leb_spec 48 c), (N.leb_spec c 57), (N.leb_spec 97 c), (N.leb_spec c 102),
    (N.leb_spec 65 c), (N.leb_spec c 70); cbn [andb]; split;
    first [lia | intros _; eexists; reflexivity | intros [v Hv]; first [discriminate|lia]].
Qed.

Lemma hex_val_bad c : ~ hex_digit c -> hex_val c = None.
Proof.
  intros H. destruct (hex_val c) eqn:E; auto. exfalso. apply H, hex_val_digit. eauto.
Qed.

Lemma hex_pairs_bad c : ~ hex_digit c -> forall pre post i, Forall hex_digit pre ->
  (length (pre ++ c :: post) mod 2 = 0)%nat ->
  hex_pairs i (pre ++ c :: post) = RErr (InvalidHexCharacter c (i + length pre)).
Proof.
  intros Hc. fix IH 1. intros [|a [|b pre]] post i Hpre Hl.
  - destruct post as [|d post]; [discriminate Hl|]. cbn [app hex_pairs length].
    rewrite (hex_val_bad c Hc), Nat.add_0_r. reflexivity.
  - inversion_clear Hpre as [|? ? Ha _]. apply hex_val_digit in Ha as [va Ea].
    cbn [app hex_pairs length]. rewrite Ea, (hex_val_bad c Hc). reflexivity.
  - pose proof (IH pre) as IH'. clear IH.
    pose proof (Forall_inv Hpre) as Ha. pose proof (Forall_inv_tail Hpre) as H1.
    pose proof (Forall_inv H1) as Hb. pose proof (Forall_inv_tail H1) as H2.
    apply hex_val_digit in Ha as [va Ea]. apply hex_val_digit in Hb as [vb Eb].
    cbn [app hex_pairs length]. rewrite Ea, Eb, IH'; auto.
    + f_equal. f_equal. lia.
    + cbn [app length] in Hl. lia.
Qed.

Lemma hex_pairs_good : forall s i, Forall hex_digit s -> (length s mod 2 = 0)%nat ->
  exists bs, hex_pairs i s = ROk bs /\ (2 * length bs = length s)%nat.
Proof.
  fix IH 1. intros [|a [|b s]] i Hs Hl.
  - exists []. split; reflexivity.
  - discriminate Hl.
  - pose proof (IH s) as IH'. clear IH.
    pose proof (Forall_inv Hs) as Ha. pose proof (Forall_inv_tail Hs) as H1.
    pose proof (Forall_inv H1) as Hb. pose proof (Forall_inv_tail H1) as H2.
    apply hex_val_digit in Ha as [va Ea]. apply hex_val_digit in Hb as [vb Eb].
    destruct (IH' (i + 2)%nat H2) as (bs & E & L).
    { cbn [length] in Hl. lia. }
    cbn [hex_pairs]. rewrite Ea, Eb, E. eexists. split; [reflexivity|]. cbn [length]. lia.
Qed.

Lemma from_hex_odd n s : (length s mod 2 = 1)%nat -> hash_from_hex n s = Ok (RErr OddLength).
Proof. intros H. unfold hash_from_hex, vec_from_hex. rewrite H. reflexivity. Qed.

Lemma from_hex_bad_char n pre c post : Forall hex_digit pre -> ~ hex_digit c ->
  (length (pre ++ c :: post) mod 2 = 0)%nat ->
  hash_from_hex n (pre ++ c :: post) = Ok (RErr (InvalidHexCharacter c (length pre))).
Proof.
  intros Hp Hc Hl. unfold hash_from_hex, vec_from_hex. rewrite Hl. cbn [Nat.eqb].
  now rewrite (hex_pairs_bad c Hc) by auto.
Qed.

Lemma from_hex_bad_length n s : Forall hex_digit s -> (length s mod 2 = 0)%nat ->
  length s <> (2 * n)%nat -> hash_from_hex n s = Ok (RErr InvalidStringLength).
Proof.
  intros Hs Hl Hn. unfold hash_from_hex, vec_from_hex. rewrite Hl. cbn [Nat.eqb].
  destruct (hex_pairs_good s 0 Hs Hl) as (bs & E & L). rewrite E.
  destruct (Nat.eqb_spec (length bs) n); [lia|]. reflexivity.
Qed.
