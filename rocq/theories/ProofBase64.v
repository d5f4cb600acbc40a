(** * The base64 model agrees with RFC 4648 and decoding inverts it *)
From Coq Require Import ZifyBool ZifyNat ZifyN.
From Verif Require Import Base BaseLemmas SpecEndian SpecText SpecPem ModelPem.
Ltac Zify.zify_post_hook ::= Z.div_mod_to_equations.

Lemma sweep256 (P : N -> bool) :
  forallb P (map N.of_nat (seq 0 256)) = true -> forall b, b < 256 -> P b = true.
Proof.
  intros E b Hb. rewrite forallb_forall in E. apply E. apply in_map_iff.
  exists (N.to_nat b). split; [lia|]. apply in_seq. lia.
Qed.

Lemma sweep64 (P : N -> bool) :
  forallb P (map N.of_nat (seq 0 64)) = true -> forall b, b < 64 -> P b = true.
Proof.
  intros E b Hb. rewrite forallb_forall in E. apply E. apply in_map_iff.
  exists (N.to_nat b). split; [lia|]. apply in_seq. lia.
Qed.

Lemma b64_char_alphabet v : v < 64 -> nth (N.to_nat v) alphabet 0 = b64_char v.
Proof.
  intros H. apply N.eqb_eq. revert v H.
  apply (sweep64 (fun v => nth (N.to_nat v) alphabet 0 =? b64_char v)). vm_compute. reflexivity.
Qed.

Lemma b64_val_char v : v < 64 -> b64_val (b64_char v) = Some v.
Proof.
  intros H.
  assert (E : match b64_val (b64_char v) with Some w => w =? v | None => false end = true).
  { revert v H. apply (sweep64 (fun v => match b64_val (b64_char v) with Some w => w =? v | None => false end)).
    vm_compute. reflexivity. }
  destruct (b64_val (b64_char v)); [|discriminate]. f_equal. lia.
Qed.

Lemma b64_val_some c v : b64_val c = Some v -> v < 64 /\ c = b64_char v.
Proof.
  unfold b64_val. intros H.
  repeat match type of H with
  | (if ?b then _ else _) = _ => destruct b eqn:?
  end; try discriminate; injection H as <-; (split; [lia|]); unfold b64_char;
  repeat match goal with |- context [if ?b then _ else _] => destruct b eqn:? end; lia.
Qed.

Lemma b64_char_pad v : v < 64 -> b64_char v <> 61.
Proof.
  intros H. apply b64_val_char in H. intros E. rewrite E in H. discriminate.
Qed.

Lemma bits_num_app a b : bits_num (a ++ b) = bits_num a * 2 ^ N.of_nat (length b) + bits_num b.
Proof.
  unfold bits_num. rewrite fold_left_app. generalize (fold_left (fun a (b : bool) => 2 * a + (if b then 1 else 0)) a 0).
  induction b as [|x b IH] using rev_ind; intros n.
  - cbn [fold_left length]. rewrite N.pow_0_r. lia.
  - rewrite !fold_left_app. cbn [fold_left]. rewrite IH, app_length. cbn [length].
    replace (N.of_nat (length b + 1)) with (N.succ (N.of_nat (length b))) by lia.
    rewrite N.pow_succ_r'. lia.
Qed.

Lemma byte_bits_length b : length (byte_bits b) = 8%nat.
Proof. reflexivity. Qed.

Lemma bits_head x : x < 256 ->
  bits_num (firstn 6 (byte_bits x)) = x / 4 /\ bits_num (skipn 6 (byte_bits x)) = x mod 4 /\
  bits_num (firstn 4 (byte_bits x)) = x / 16 /\ bits_num (skipn 4 (byte_bits x)) = x mod 16 /\
  bits_num (firstn 2 (byte_bits x)) = x / 64 /\ bits_num (skipn 2 (byte_bits x)) = x mod 64.
Proof.
  intros H. revert x H.
  pose (P := fun x => (bits_num (firstn 6 (byte_bits x)) =? x / 4) && (bits_num (skipn 6 (byte_bits x)) =? x mod 4) &&
  (bits_num (firstn 4 (byte_bits x)) =? x / 16) && (bits_num (skipn 4 (byte_bits x)) =? x mod 16) &&
  (bits_num (firstn 2 (byte_bits x)) =? x / 64) && (bits_num (skipn 2 (byte_bits x)) =? x mod 64)).
  assert (E : forall x, x < 256 -> P x = true) by (apply sweep256; vm_compute; reflexivity).
  intros x H. apply E in H. unfold P in H.
  repeat (apply andb_prop in H as (H & ?)). repeat split; now apply N.eqb_eq.
Qed.

Lemma groups_cons {A} k (g r : list A) : (0 < k)%nat -> length g = k ->
  groups k (g ++ r) = g :: groups k r.
Proof.
  intros Hk Hg. unfold groups. rewrite app_length, Hg.
  replace ((k + length r) / k)%nat with (S (length r / k))%nat.
  2:{ rewrite <- (Nat.mul_1_l k) at 2. rewrite Nat.div_add_l; lia. }
  cbn [seq map]. rewrite Nat.mul_0_r. cbn [skipn]. rewrite firstn_app_exact by auto. f_equal.
  rewrite <- seq_shift, map_map. apply map_ext. intros i.
  replace (k * S i)%nat with (k + k * i)%nat by lia. rewrite <- (skipn_skipn' (g ++ r) (k * i) k).
  now rewrite skipn_app_exact by auto.
Qed.

Lemma groups_nil {A} k : (0 < k)%nat -> groups k (@nil A) = [].
Proof. intros H. unfold groups. cbn [length]. rewrite Nat.div_0_l by lia. reflexivity. Qed.

Lemma split_bits x k : (k <= 8)%nat ->
  byte_bits x = firstn k (byte_bits x) ++ skipn k (byte_bits x) /\
  length (firstn k (byte_bits x)) = k /\ length (skipn k (byte_bits x)) = (8 - k)%nat.
Proof.
  intros H. rewrite firstn_skipn, firstn_length, skipn_length, byte_bits_length.
  repeat split; lia.
Qed.

Local Notation letter := (fun g => nth (N.to_nat (bits_num g)) alphabet 0).

Lemma letter_ok g v : bits_num g = v -> v < 64 -> letter g = b64_char v.
Proof. intros <- H. now apply b64_char_alphabet. Qed.

Lemma base64_step3 x y z d : x < 256 -> y < 256 -> z < 256 ->
  base64 (x :: y :: z :: d) =
  b64_char (x / 4) :: b64_char (x mod 4 * 16 + y / 16)
      :: b64_char (y mod 16 * 4 + z / 64) :: b64_char (z mod 64) :: base64 d.
Proof.
  intros Hx Hy Hz. unfold base64. cbn [length].
  replace ((3 - S (S (S (length d))) mod 3) mod 3)%nat with ((3 - length d mod 3) mod 3)%nat.
  2:{ replace (S (S (S (length d)))) with (length d + 1 * 3)%nat by lia. now rewrite Nat.mod_add by lia. }
  set (pad := ((3 - length d mod 3) mod 3)%nat). cbn [map concat]. rewrite <- !app_assoc.
  destruct (split_bits x 6) as (Ex & Lx1 & Lx2); [lia|].
  destruct (split_bits y 4) as (Ey & Ly1 & Ly2); [lia|].
  destruct (split_bits z 2) as (Ez & Lz1 & Lz2); [lia|].
  rewrite Ex, Ey, Ez.
  set (r := concat (map byte_bits d) ++ repeat false (2 * pad)).
  destruct (bits_head x Hx) as (X1 & X2 & _). destruct (bits_head y Hy) as (_ & _ & Y1 & Y2 & _).
  destruct (bits_head z Hz) as (_ & _ & _ & _ & Z1 & Z2).
  revert Lx1 Lx2 Ly1 Ly2 Lz1 Lz2 X1 X2 Y1 Y2 Z1 Z2.
  generalize (firstn 6 (byte_bits x)) (skipn 6 (byte_bits x)) (firstn 4 (byte_bits y))
    (skipn 4 (byte_bits y)) (firstn 2 (byte_bits z)) (skipn 2 (byte_bits z)).
  intros x1 x2 y1 y2 z1 z2 Lx1 Lx2 Ly1 Ly2 Lz1 Lz2 X1 X2 Y1 Y2 Z1 Z2.
  rewrite <- !app_assoc.
  replace (x1 ++ x2 ++ y1 ++ y2 ++ z1 ++ z2 ++ r) with (x1 ++ (x2 ++ y1) ++ (y2 ++ z1) ++ z2 ++ r)
    by now rewrite <- !app_assoc.
  rewrite !groups_cons by (rewrite ?app_length; lia). cbn [map app].
  rewrite (letter_ok x1 (x / 4)) by (auto; lia).
  rewrite (letter_ok (x2 ++ y1) (x mod 4 * 16 + y / 16)).
  2:{ rewrite bits_num_app, Ly1, X2, Y1. reflexivity. } 2: lia.
  rewrite (letter_ok (y2 ++ z1) (y mod 16 * 4 + z / 64)).
  2:{ rewrite bits_num_app, Lz1, Y2, Z1. reflexivity. } 2: lia.
  rewrite (letter_ok z2 (z mod 64)) by (auto; lia). reflexivity.
Qed.

Lemma bits_num_zeros k : bits_num (repeat false k) = 0.
Proof.
  induction k; [reflexivity|]. change (repeat false (S k)) with ([false] ++ repeat false k).
  rewrite bits_num_app, IHk. reflexivity.
Qed.

Lemma base64_2 x y : x < 256 -> y < 256 ->
  base64 [x; y] = [b64_char (x / 4); b64_char (x mod 4 * 16 + y / 16); b64_char (y mod 16 * 4); 61].
Proof.
  intros Hx Hy. unfold base64. cbn [length]. change ((3 - 2 mod 3) mod 3)%nat with 1%nat.
  cbn [map concat]. rewrite app_nil_r.
  destruct (split_bits x 6) as (Ex & Lx1 & Lx2); [lia|].
  destruct (split_bits y 4) as (Ey & Ly1 & Ly2); [lia|].
  rewrite Ex, Ey. set (p := repeat false (2 * 1)).
  assert (Lp : length p = 2%nat) by reflexivity. assert (Ep : bits_num p = 0) by reflexivity. clearbody p.
  destruct (bits_head x Hx) as (X1 & X2 & _). destruct (bits_head y Hy) as (_ & _ & Y1 & Y2 & _).
  revert Lx1 Lx2 Ly1 Ly2 X1 X2 Y1 Y2.
  generalize (firstn 6 (byte_bits x)) (skipn 6 (byte_bits x)) (firstn 4 (byte_bits y))
    (skipn 4 (byte_bits y)).
  intros x1 x2 y1 y2 Lx1 Lx2 Ly1 Ly2 X1 X2 Y1 Y2.
  replace (((x1 ++ x2) ++ y1 ++ y2) ++ p) with (x1 ++ (x2 ++ y1) ++ (y2 ++ p) ++ [])
    by now rewrite app_nil_r, <- !app_assoc.
  rewrite !groups_cons, groups_nil by (rewrite ?app_length; lia). cbn [map app repeat].
  rewrite (letter_ok x1 (x / 4)) by (auto; lia).
  rewrite (letter_ok (x2 ++ y1) (x mod 4 * 16 + y / 16)).
  2:{ rewrite bits_num_app, Ly1, X2, Y1. reflexivity. } 2: lia.
  rewrite (letter_ok (y2 ++ p) (y mod 16 * 4)).
  2:{ rewrite bits_num_app, Lp, Y2, Ep. change (2 ^ N.of_nat 2) with 4. lia. } 2: lia. reflexivity.
Qed.

Lemma base64_1 x : x < 256 ->
  base64 [x] = [b64_char (x / 4); b64_char (x mod 4 * 16); 61; 61].
Proof.
  intros Hx. unfold base64. cbn [length]. change ((3 - 1 mod 3) mod 3)%nat with 2%nat.
  cbn [map concat]. rewrite app_nil_r.
  destruct (split_bits x 6) as (Ex & Lx1 & Lx2); [lia|].
  rewrite Ex. set (p := repeat false (2 * 2)).
  assert (Lp : length p = 4%nat) by reflexivity. assert (Ep : bits_num p = 0) by reflexivity. clearbody p.
  destruct (bits_head x Hx) as (X1 & X2 & _).
  revert Lx1 Lx2 X1 X2. generalize (firstn 6 (byte_bits x)) (skipn 6 (byte_bits x)).
  intros x1 x2 Lx1 Lx2 X1 X2.
  replace ((x1 ++ x2) ++ p) with (x1 ++ (x2 ++ p) ++ []) by now rewrite app_nil_r, <- !app_assoc.
  rewrite !groups_cons, groups_nil by (rewrite ?app_length; lia). cbn [map app repeat].
  rewrite (letter_ok x1 (x / 4)) by (auto; lia).
  rewrite (letter_ok (x2 ++ p) (x mod 4 * 16)).
  2:{ rewrite bits_num_app, Lp, X2, Ep. change (2 ^ N.of_nat 4) with 16. lia. } 2: lia. reflexivity.
Qed.

Local Ltac letters :=
  repeat match goal with |- _ :: _ = _ :: _ => apply f_equal2 end;
  try reflexivity; try lia; try (f_equal; lia).

(** Induction in steps of three. *)
Lemma list_ind3 {A} (P : list A -> Prop) :
  P [] -> (forall x, P [x]) -> (forall x y, P [x; y]) ->
  (forall x y z l, P l -> P (x :: y :: z :: l)) -> forall l, P l.
Proof.
  intros H0 H1 H2 H3 l. enough (H : P l /\ (forall x, P (x :: l)) /\ forall x y, P (x :: y :: l)) by apply H.
  induction l as [|a l (IH0 & IH1 & IH2)]; repeat split; auto.
Qed.

Lemma b64_encode_spec d : bytes d -> b64_encode d = base64 d.
Proof.
  induction d as [|x|x y|x y z d IH] using list_ind3; intros Hb.
  - reflexivity.
  - inversion Hb; subst. now rewrite base64_1.
  - inversion Hb as [|? ? ? Hb']; subst. inversion Hb'; subst. now rewrite base64_2.
  - inversion Hb as [|? ? ? Hb1]; subst. inversion Hb1 as [|? ? ? Hb2]; subst.
    inversion Hb2 as [|? ? ? Hb3]; subst. rewrite base64_step3 by auto.
    cbn [b64_encode]. now rewrite IH.
Qed.

Lemma b64_decode_encode d : bytes d -> b64_decode (b64_encode d) = Some d.
Proof.
  unfold bytes. induction d as [|x|x y|x y z d IH] using list_ind3; intros Hb.
  - reflexivity.
  - inversion Hb as [|? ? H1 _]; subst. unfold byte in *. cbn [b64_encode b64_decode].
    rewrite !b64_val_char by lia. change (b64_val 61) with (@None N). cbn [N.eqb Pos.eqb andb].
    replace (x mod 4 * 16 mod 16 =? 0) with true by lia. f_equal. letters.
  - inversion Hb as [|? ? H1 Hb']; subst. inversion Hb' as [|? ? H2 _]; subst. unfold byte in *.
    cbn [b64_encode b64_decode].
    rewrite !b64_val_char by lia. change (b64_val 61) with (@None N). cbn [N.eqb Pos.eqb andb].
    replace (y mod 16 * 4 mod 4 =? 0) with true by lia. f_equal. letters.
  - inversion Hb as [|? ? H1 Hb1]; subst. inversion Hb1 as [|? ? H2 Hb2]; subst.
    inversion Hb2 as [|? ? H3 Hb3]; subst. unfold byte in *. cbn [b64_encode b64_decode].
    rewrite !b64_val_char by lia. rewrite IH by auto. f_equal. letters.
Qed.

Lemma b64_decode_some s d : b64_decode s = Some d -> bytes d /\ s = b64_encode d.
Proof.
  revert d. induction s as [s IH] using (induction_ltof1 _ (@length N)). unfold ltof in IH.
  intros d H. destruct s as [|c1 [|c2 [|c3 [|c4 s]]]]; try discriminate.
  { injection H as <-. split; [constructor|reflexivity]. }
  cbn [b64_decode] in H.
  destruct (b64_val c1) as [v1|] eqn:E1; [|discriminate].
  destruct (b64_val c2) as [v2|] eqn:E2; [|discriminate].
  apply b64_val_some in E1 as (B1 & ->), E2 as (B2 & ->).
  destruct (b64_val c3) as [v3|] eqn:E3; [destruct (b64_val c4) as [v4|] eqn:E4|].
  - destruct (b64_decode s) as [ds|] eqn:Es; [|discriminate]. injection H as <-.
    apply IH in Es as (Hb & ->); [|cbn [length]; lia].
    apply b64_val_some in E3 as (B3 & ->), E4 as (B4 & ->). split.
    + repeat constructor; auto; unfold byte; lia.
    + cbn [b64_encode]. letters.
  - apply b64_val_some in E3 as (B3 & ->).
    destruct ((c4 =? 61) && (v3 mod 4 =? 0)) eqn:Ep; [|discriminate].
    apply andb_prop in Ep as (P1 & P2). destruct s; [|discriminate]. injection H as <-.
    apply N.eqb_eq in P1. subst c4. split.
    + repeat constructor; unfold byte; lia.
    + cbn [b64_encode]. letters.
  - destruct ((c3 =? 61) && (c4 =? 61) && (v2 mod 16 =? 0)) eqn:Ep; [|discriminate].
    apply andb_prop in Ep as (Ep & P2). apply andb_prop in Ep as (P0 & P1).
    destruct s; [|discriminate]. injection H as <-.
    apply N.eqb_eq in P0, P1. subst c3 c4. split.
    + repeat constructor; unfold byte; lia.
    + cbn [b64_encode]. letters.
Qed.

Lemma b64_decode_iff s d : b64_decode s = Some d <-> bytes d /\ s = base64 d.
Proof.
  split.
  - intros H. apply b64_decode_some in H as (Hb & ->). split; auto. now apply b64_encode_spec.
  - intros (Hb & ->). rewrite <- b64_encode_spec by auto. now apply b64_decode_encode.
Qed.

(** Characters of the encoding. *)
Lemma b64_encode_chars d : bytes d ->
  Forall (fun c => 43 <= c < 128 /\ c <> 45) (b64_encode d).
Proof.
  assert (W : forall v, v < 64 -> 43 <= b64_char v < 128 /\ b64_char v <> 45).
  { intros v Hv. unfold b64_char.
    repeat match goal with |- context [if ?b then _ else _] => destruct b eqn:? end; lia. }
  unfold bytes. induction d as [|x|x y|x y z d IH] using list_ind3; intros Hb; cbn [b64_encode].
  - constructor.
  - inversion Hb; subst. unfold byte in *. repeat constructor; (apply W || idtac); lia.
  - inversion Hb as [|? ? ? Hb']; subst. inversion Hb'; subst. unfold byte in *.
    repeat constructor; (apply W || idtac); lia.
  - inversion Hb as [|? ? ? Hb1]; subst. inversion Hb1 as [|? ? ? Hb2]; subst.
    inversion Hb2 as [|? ? ? Hb3]; subst. unfold byte in *. repeat (constructor; [apply W; lia|]). auto.
Qed.

Lemma b64_encode_length d : length (b64_encode d) = (4 * ((length d + 2) / 3))%nat.
Proof.
  induction d as [|x|x y|x y z d IH] using list_ind3; cbn [b64_encode length]; auto.
  rewrite IH. replace (S (S (S (length d))) + 2)%nat with (1 * 3 + (length d + 2))%nat by lia.
  rewrite Nat.div_add_l by lia. lia.
Qed.
