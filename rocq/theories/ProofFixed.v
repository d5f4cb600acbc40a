(** * Fixed points of the compression functions *)
From Coq Require Import ZifyBool ZifyNat ZifyN.
From Verif Require Import Base BaseLemmas ModelMd ModelSha SpecEndian SpecWord SpecMd SpecSha SpecMerkle SpecFixed
  ProofEndian ProofWord ProofMd ProofSha ProofSha2 ProofMerkle.
Ltac Zify.zify_post_hook ::= idtac.
Local Open Scope N_scope.

(** ** Subtraction of words *)

Definition minus (w x y : N) : N := (x + (2 ^ w - y mod 2 ^ w)) mod 2 ^ w.

Lemma pw w : 2 ^ w <> 0.
Proof. apply N.pow_nonzero. discriminate. Qed.

Lemma minus_lt w x y : minus w x y < 2 ^ w.
Proof. apply N.mod_lt, pw. Qed.

Lemma neg_add w y : (y + (2 ^ w - y mod 2 ^ w)) mod 2 ^ w = 0.
Proof.
  pose proof (pw w) as P. pose proof (N.mod_lt y (2 ^ w) P) as L.
  rewrite <- N.add_mod_idemp_l by exact P.
  replace (y mod 2 ^ w + (2 ^ w - y mod 2 ^ w)) with (2 ^ w) by lia. now apply N.mod_same.
Qed.

Lemma minus_add w x y : x < 2 ^ w -> minus w ((x + y) mod 2 ^ w) y = x.
Proof.
  intros H. unfold minus. pose proof (pw w) as P. rewrite N.add_mod_idemp_l by exact P.
  rewrite <- N.add_assoc, <- N.add_mod_idemp_r, neg_add, N.add_0_r by exact P. now apply N.mod_small.
Qed.

Lemma add_minus w x y : x < 2 ^ w -> (minus w x y + y) mod 2 ^ w = x.
Proof.
  intros H. unfold minus. pose proof (pw w) as P. rewrite N.add_mod_idemp_l by exact P.
  rewrite <- N.add_assoc, (N.add_comm _ y), <- N.add_mod_idemp_r, neg_add, N.add_0_r by exact P.
  now apply N.mod_small.
Qed.

(** ** Folds of invertible steps *)

Section Fold.
  Context {A K : Type} (f g : A -> K -> A) (P : A -> Prop).
  Definition inverts : Prop :=
    (forall a k, P a -> P (f a k) /\ g (f a k) k = a) /\ (forall a k, P a -> P (g a k) /\ f (g a k) k = a).

  Lemma fold_inv_l : inverts -> forall ks a, P a ->
    P (fold_left f ks a) /\ fold_left g (rev ks) (fold_left f ks a) = a.
  Proof using Type.
    intros [H _]. induction ks as [|k ks IH]; intros a Ha; [auto|].
    cbn [fold_left rev]. destruct (H a k Ha) as [Hf Hg]. destruct (IH _ Hf) as [I1 I2].
    split; [exact I1|]. rewrite fold_left_app, I2. exact Hg.
  Qed.

  Lemma fold_inv_r : inverts -> forall ks a, P a ->
    P (fold_left g (rev ks) a) /\ fold_left f ks (fold_left g (rev ks) a) = a.
  Proof using Type.
    intros [_ H]. induction ks as [|k ks IH]; intros a Ha; [auto|].
    cbn [rev]. rewrite fold_left_app. cbn [fold_left]. destruct (IH a Ha) as [I1 I2].
    destruct (H _ k I1) as [G1 G2]. split; [exact G1|]. now rewrite G2.
  Qed.
End Fold.

(** ** SHA-2 *)

Definition sha2_unround (k : sha2_kind) (st : state8) (kw : N * N) : state8 :=
  let '(a', a, b, c, e', e, f, g) := st in
  let r := sha2_big (s2_bits k) (s2_big1 k) e + sha2_ch (s2_bits k) e f g + fst kw + snd kw in
  let t2 := sha2_big (s2_bits k) (s2_big0 k) a + sha2_maj a b c in
  let h := minus (s2_bits k) a' (r + t2) in
  (a, b, c, minus (s2_bits k) e' (h + r), e, f, g, h).

Lemma sha2_inverts k : inverts (sha2_round k) (sha2_unround k) (st8_ok (s2_bits k)).
Proof.
  split; intros [[[[[[[a b] c] d] e] f] g] h] [k0 w0] (Ha & Hb & Hc & Hd & He & Hf & Hg & Hh).
  - unfold sha2_round, sha2_unround. cbn [fst snd].
    set (B1 := sha2_big (s2_bits k) (s2_big1 k) e). set (C := sha2_ch (s2_bits k) e f g).
    set (T2 := sha2_big (s2_bits k) (s2_big0 k) a + sha2_maj a b c).
    split; [unfold st8_ok; repeat split; auto; apply mod_pow2_lt|].
    replace (h + B1 + C + k0 + w0 + T2) with (h + (B1 + C + k0 + w0 + T2)) by lia.
    rewrite minus_add by exact Hh.
    replace (h + B1 + C + k0 + w0) with (h + (B1 + C + k0 + w0)) by lia.
    now rewrite minus_add by exact Hd.
  - unfold sha2_unround. cbn [fst snd].
    set (B1 := sha2_big (s2_bits k) (s2_big1 k) f). set (C := sha2_ch (s2_bits k) f g h).
    set (T2 := sha2_big (s2_bits k) (s2_big0 k) b + sha2_maj b c d).
    split; [unfold st8_ok; repeat split; auto; apply minus_lt|].
    unfold sha2_round. cbn [fst snd]. fold B1 C T2.
    set (H := minus (s2_bits k) a (B1 + C + k0 + w0 + T2)).
    replace (H + B1 + C + k0 + w0 + T2) with (H + (B1 + C + k0 + w0 + T2)) by lia.
    replace (H + B1 + C + k0 + w0) with (H + (B1 + C + k0 + w0)) by lia.
    rewrite (add_minus _ e) by exact He. unfold H. now rewrite add_minus by exact Ha.
Qed.

Definition list8 (st : state8) : list N := let '(a, b, c, d, e, f, g, h) := st in [a; b; c; d; e; f; g; h].
Definition tuple8 (l : list N) : state8 :=
  match l with [a; b; c; d; e; f; g; h] => (a, b, c, d, e, f, g, h) | _ => (0, 0, 0, 0, 0, 0, 0, 0) end.

Lemma tuple8_ok w l : is_state w 8 l -> st8_ok w (tuple8 l) /\ list8 (tuple8 l) = l.
Proof.
  intros [L F]. destruct l as [|a [|b [|c [|d [|e [|f [|g [|h [|]]]]]]]]]; try discriminate L.
  rewrite !Forall_cons_iff in F. cbn [tuple8 list8 st8_ok]. tauto.
Qed.

Lemma list8_ok w st : st8_ok w st -> is_state w 8 (list8 st) /\ tuple8 (list8 st) = st.
Proof.
  destruct st as (((((((a, b), c), d), e), f), g), h). intros (Ha & Hb & Hc & Hd & He & Hf & Hg & Hh).
  split; [split; [reflexivity|]|reflexivity]. cbn [list8]. repeat (apply Forall_cons; [assumption|]). apply Forall_nil.
Qed.

Lemma plus_cancel w a x y : x < 2 ^ w -> y < 2 ^ w -> plus_w w a x = plus_w w a y -> x = y.
Proof.
  intros Hx Hy E. unfold plus_w in E. rewrite !(N.add_comm a) in E.
  rewrite <- (minus_add w x a Hx), <- (minus_add w y a Hy). now rewrite E.
Qed.

Lemma add_state_cancel w : forall h s t, length h = length s -> length h = length t ->
  Forall (fun x => x < 2 ^ w) s -> Forall (fun x => x < 2 ^ w) t ->
  add_state w h s = add_state w h t -> s = t.
Proof.
  unfold add_state. induction h as [|a h IH]; intros [|x s] [|y t] Ls Lt Fs Ft E; try discriminate; [reflexivity|].
  cbn [length] in Ls, Lt. injection Ls as Ls. injection Lt as Lt.
  inversion_clear Fs as [|? ? X Fs']. inversion_clear Ft as [|? ? Y Ft'].
  cbn [combine map fst snd] in E. pose proof (f_equal (hd 0) E) as E1. pose proof (f_equal (@tl N) E) as E2. cbn [hd tl] in E1, E2.
  apply plus_cancel in E1; auto. f_equal; auto.
Qed.

(** A compression function that is a permutation [e] of the states followed by the addition of the old one. *)
Lemma davies_meyer (f : list N -> list N -> res (list N)) w n b (e i : list N -> list N) :
  (forall h, is_state w n h -> f h b = Ok (add_state w h (e h))) ->
  (forall h, is_state w n h -> is_state w n (e h) /\ i (e h) = h) ->
  (forall h, is_state w n h -> is_state w n (i h) /\ e (i h) = h) ->
  adds_each f w n b.
Proof.
  intros Hf He Hi t Ht. destruct (Hi t Ht) as [Si Ei]. exists (i t). split; [exact Si|]. split.
  - rewrite Hf by exact Si. now rewrite Ei.
  - intros h' Sh E. rewrite Hf in E by exact Sh. apply Ok_inj in E.
    destruct (He h' Sh) as [Se Ee]. apply add_state_cancel in E.
    + now rewrite <- E, Ee.
    + destruct Sh as [-> _]. destruct Se as [-> _]. reflexivity.
    + destruct Sh as [-> _]. destruct Ht as [-> _]. reflexivity.
    + apply Se.
    + apply Ht.
Qed.

Lemma add_zero w : forall h, Forall (fun x => x < 2 ^ w) h -> add_state w h (repeat 0 (length h)) = h.
Proof.
  unfold add_state. induction 1 as [|x h Hx Hh IH]; [reflexivity|]. cbn [length repeat combine map fst snd].
  rewrite IH. unfold plus_w. now rewrite N.add_0_r, N.mod_small.
Qed.

Lemma fixed_of_adds f w n b : adds_each f w n b -> one_fixed_point f w n b.
Proof.
  intros H. destruct (H (repeat 0 n)) as (h & Sh & E & U).
  - split; [apply repeat_length|]. apply Forall_forall. intros x Hx. apply repeat_spec in Hx. subst x.
    apply N.neq_0_lt_0, pw.
  - exists h. split; [exact Sh|]. split.
    + rewrite E. f_equal. destruct Sh as [L F]. rewrite <- L. now apply add_zero.
    + intros h' Sh' E'. apply U; [exact Sh'|]. rewrite E'. f_equal. destruct Sh' as [L F]. rewrite <- L. symmetry.
      now apply add_zero.
Qed.

Lemma sha2_compress_add k kt h b : length h = 8%nat ->
  sha2_compress k kt h b = add_state (s2_bits k) h
    (list8 (fold_left (sha2_round k) (combine kt (sha2_schedule k (s2_rounds k - 16) b)) (tuple8 h))).
Proof.
  intros L. destruct h as [|h0 [|h1 [|h2 [|h3 [|h4 [|h5 [|h6 [|h7 [|]]]]]]]]]; try discriminate L.
  cbn [sha2_compress tuple8].
  match goal with |- context [fold_left ?f ?l ?s] => destruct (fold_left f l s) as (((((((a, b'), c'), d), e), f'), g), h) end.
  reflexivity.
Qed.

Lemma sha2_adds k kt b : (0 < s2_word k)%nat -> (16 <= s2_rounds k)%nat -> length kt = s2_rounds k ->
  length b = (16 * s2_word k)%nat -> bytes b -> adds_each (model_process k kt) (s2_bits k) 8 b.
Proof.
  intros Hw Hr Lk Lb Bb.
  set (ks := combine kt (sha2_schedule k (s2_rounds k - 16) b)).
  apply (davies_meyer _ _ _ _ (fun h => list8 (fold_left (sha2_round k) ks (tuple8 h)))
    (fun h => list8 (fold_left (sha2_unround k) (rev ks) (tuple8 h)))).
  - intros h Sh. destruct (sha2_process_eq k kt h b Hw Hr Lk Sh Lb Bb) as [E _]. rewrite E. f_equal.
    apply sha2_compress_add, Sh.
  - intros h Sh. destruct (tuple8_ok _ _ Sh) as [T1 T2].
    destruct (fold_inv_l _ _ _ (sha2_inverts k) ks _ T1) as [F1 F2]. destruct (list8_ok _ _ F1) as [L1 L2].
    split; [exact L1|]. now rewrite L2, F2.
  - intros h Sh. destruct (tuple8_ok _ _ Sh) as [T1 T2].
    destruct (fold_inv_r _ _ _ (sha2_inverts k) ks _ T1) as [F1 F2]. destruct (list8_ok _ _ F1) as [L1 L2].
    split; [exact L1|]. now rewrite L2, F2.
Qed.

Lemma sha256_adds b : length b = 64%nat -> bytes b -> adds_each sha2_process_chunk 32 8 b.
Proof.
  intros L B. rewrite process_256. apply (sha2_adds sha256_kind ROUND_CONSTANTS b wordpos_256 rounds_256 klen_256 L B).
Qed.
Lemma sha512_adds b : length b = 128%nat -> bytes b -> adds_each sha2_process_big_chunk 64 8 b.
Proof.
  intros L B. rewrite process_512. apply (sha2_adds sha512_kind ROUND_CONSTANTS_BIG b wordpos_512 rounds_512 klen_512 L B).
Qed.

(** ** SHA-1 *)

Lemma ror_rol w x s : 0 < w -> x < 2 ^ w -> ror w (rol w x s) s = x.
Proof.
  intros Hw Hx. rewrite <- (rol_rotl w x s) by assumption. rewrite <- ror_rotr by (try apply rotl_lt; assumption).
  now apply rotr_rotl.
Qed.
Lemma rol_ror w x s : 0 < w -> x < 2 ^ w -> rol w (ror w x s) s = x.
Proof.
  intros Hw Hx. rewrite <- (ror_rotr w x s) by assumption. rewrite <- rol_rotl by (try apply rotr_lt; assumption).
  now apply rotl_rotr.
Qed.

Definition sha1_unround (w : list N) (st : state5) (t : nat) : state5 :=
  let '(a', a, b', c, d) := st in
  let b := ror 32 b' 30 in
  (a, b, c, d, minus 32 a' (rol 32 a 5 + sha1_f t b c d + sha1_k t + nth t w 0)).

Lemma sha1_inverts w : inverts (sha1_round w) (sha1_unround w) st5_ok.
Proof.
  split; intros [[[[a b] c] d] e] t (Ha & Hb & Hc & Hd & He).
  - split; [cbn [sha1_round]; repeat split; auto; [apply mod_pow2_lt|now apply rol_lt]|].
    unfold sha1_round, sha1_unround. rewrite ror_rol by (reflexivity || exact Hb).
    replace (rol 32 a 5 + sha1_f t b c d + e + sha1_k t + nth t w 0)
      with (e + (rol 32 a 5 + sha1_f t b c d + sha1_k t + nth t w 0)) by lia.
    now rewrite minus_add by exact He.
  - split; [cbn [sha1_unround]; repeat split; auto; [now apply ror_lt|apply minus_lt]|].
    unfold sha1_unround, sha1_round. rewrite rol_ror by (reflexivity || exact Hc).
    set (B := ror 32 c 30). set (H := minus 32 a _).
    replace (rol 32 b 5 + sha1_f t B d e + H + sha1_k t + nth t w 0)
      with (H + (rol 32 b 5 + sha1_f t B d e + sha1_k t + nth t w 0)) by lia.
    unfold H. now rewrite add_minus by exact Ha.
Qed.

Definition list5 (st : state5) : list N := let '(a, b, c, d, e) := st in [a; b; c; d; e].
Definition tuple5 (l : list N) : state5 :=
  match l with [a; b; c; d; e] => (a, b, c, d, e) | _ => (0, 0, 0, 0, 0) end.

Lemma tuple5_ok l : is_state 32 5 l -> st5_ok (tuple5 l) /\ list5 (tuple5 l) = l.
Proof.
  intros [L F]. destruct l as [|a [|b [|c [|d [|e [|]]]]]]; try discriminate L.
  rewrite !Forall_cons_iff in F. cbn [tuple5 list5 st5_ok]. tauto.
Qed.
Lemma list5_ok st : st5_ok st -> is_state 32 5 (list5 st) /\ tuple5 (list5 st) = st.
Proof.
  destruct st as ((((a, b), c), d), e). intros (Ha & Hb & Hc & Hd & He).
  split; [split; [reflexivity|]|reflexivity]. cbn [list5]. repeat (apply Forall_cons; [assumption|]). apply Forall_nil.
Qed.

Lemma sha1_adds b : length b = 64%nat -> bytes b -> adds_each sha1_process_chunk 32 5 b.
Proof.
  intros Lb Bb. set (w := sha1_schedule 64 b). remember (seq 0 80) as ts eqn:Ets.
  apply (davies_meyer _ _ _ _ (fun h => list5 (fold_left (sha1_round w) ts (tuple5 h)))
    (fun h => list5 (fold_left (sha1_unround w) (rev ts) (tuple5 h)))).
  - intros h Sh. destruct (sha1_process_eq h b Sh Lb Bb) as [E _]. rewrite E. f_equal.
    destruct Sh as [L _]. destruct h as [|h0 [|h1 [|h2 [|h3 [|h4 [|]]]]]]; try discriminate L.
    cbn [sha1_compress tuple5]. fold w. rewrite <- Ets.
    match goal with |- context [fold_left ?f ?l ?s] => destruct (fold_left f l s) as ((((a', b'), c'), d), e) end.
    reflexivity.
  - intros h Sh. destruct (tuple5_ok _ Sh) as [T1 T2].
    destruct (fold_inv_l _ _ _ (sha1_inverts w) ts _ T1) as [F1 F2]. destruct (list5_ok _ F1) as [L1 L2].
    split; [exact L1|]. now rewrite L2, F2.
  - intros h Sh. destruct (tuple5_ok _ Sh) as [T1 T2].
    destruct (fold_inv_r _ _ _ (sha1_inverts w) ts _ T1) as [F1 F2]. destruct (list5_ok _ F1) as [L1 L2].
    split; [exact L1|]. now rewrite L2, F2.
Qed.

(** ** MD4 and MD5 *)

Definition md4_unstep (x : list N) (st : state4) (op : md_op) : state4 :=
  let '(d, n, b, c) := st in let '(f, k, s, t) := op in
  (minus 32 (ror 32 n s) (f b c d + nth k x 0 + t), b, c, d).
Definition md5_unstep (x : list N) (st : state4) (op : md_op) : state4 :=
  let '(d, n, b, c) := st in let '(f, k, s, t) := op in
  (minus 32 (ror 32 (minus 32 n b) s) (f b c d + nth k x 0 + t), b, c, d).

Lemma md4_inverts x : inverts (md4_step x) (md4_unstep x) st_lt.
Proof.
  split; intros [[[a b] c] d] [[[f k] s] t] (Ha & Hb & Hc & Hd).
  - split; [cbn [md4_step]; repeat split; auto; apply rol_lt; [reflexivity|apply mod_pow2_lt]|].
    unfold md4_step, md4_unstep. rewrite ror_rol by (reflexivity || apply mod_pow2_lt).
    replace (a + f b c d + nth k x 0 + t) with (a + (f b c d + nth k x 0 + t)) by lia.
    now rewrite minus_add by exact Ha.
  - split; [cbn [md4_unstep]; repeat split; auto; apply minus_lt|].
    unfold md4_unstep, md4_step. set (H := minus 32 _ _).
    replace (H + f c d a + nth k x 0 + t) with (H + (f c d a + nth k x 0 + t)) by lia.
    unfold H. rewrite add_minus by (apply ror_lt; [reflexivity|exact Hb]). now rewrite rol_ror by (reflexivity || exact Hb).
Qed.

Lemma md5_inverts x : inverts (md5_step x) (md5_unstep x) st_lt.
Proof.
  split; intros [[[a b] c] d] [[[f k] s] t] (Ha & Hb & Hc & Hd).
  - split; [cbn [md5_step]; repeat split; auto; apply mod_pow2_lt|].
    unfold md5_step, md5_unstep. unfold plus_w at 1. rewrite (N.add_comm b).
    rewrite minus_add by (apply rol_lt; [reflexivity|apply mod_pow2_lt]).
    rewrite ror_rol by (reflexivity || apply mod_pow2_lt).
    replace (a + f b c d + nth k x 0 + t) with (a + (f b c d + nth k x 0 + t)) by lia.
    now rewrite minus_add by exact Ha.
  - split; [cbn [md5_unstep]; repeat split; auto; apply minus_lt|].
    unfold md5_unstep, md5_step. set (H := minus 32 (ror _ _ _) _).
    replace (H + f c d a + nth k x 0 + t) with (H + (f c d a + nth k x 0 + t)) by lia.
    unfold H. rewrite add_minus by (apply ror_lt; [reflexivity|apply minus_lt]).
    rewrite rol_ror by (reflexivity || apply minus_lt).
    unfold plus_w. rewrite (N.add_comm c). now rewrite add_minus by exact Hb.
Qed.

(** The four words of a hasher as a list; one block through the hasher. *)
Definition list4' (st : state4) : list N := let '(a, b, c, d) := st in [a; b; c; d].
Definition tuple4 (l : list N) : state4 := match l with [a; b; c; d] => (a, b, c, d) | _ => (0, 0, 0, 0) end.

Lemma tuple4_ok l : is_state 32 4 l -> st_lt (tuple4 l) /\ list4' (tuple4 l) = l.
Proof.
  intros [L F]. destruct l as [|a [|b [|c [|d [|]]]]]; try discriminate L.
  rewrite !Forall_cons_iff in F. cbn [tuple4 list4' st_lt]. tauto.
Qed.
Lemma list4_ok st : st_lt st -> is_state 32 4 (list4' st) /\ tuple4 (list4' st) = st.
Proof.
  destruct st as (((a, b), c), d). intros (Ha & Hb & Hc & Hd).
  split; [split; [reflexivity|]|reflexivity]. cbn [list4']. repeat (apply Forall_cons; [assumption|]). apply Forall_nil.
Qed.

Lemma md_adds process step unstep ops n b : process_ok process step ops ->
  (forall x, inverts (step x) (unstep x) st_lt) -> length b = 64%nat ->
  adds_each (md_chunk process n) 32 4 b.
Proof.
  intros Hp Hi Lb. set (x := map le_num (groups 4 b)).
  apply (davies_meyer _ _ _ _ (fun h => list4' (fold_left (step x) ops (tuple4 h)))
    (fun h => list4' (fold_left (unstep x) (rev ops) (tuple4 h)))).
  - intros h Sh. destruct (tuple4_ok _ Sh) as [T1 T2].
    destruct Sh as [L _]. destruct h as [|h0 [|h1 [|h2 [|h3 [|]]]]]; try discriminate L.
    unfold md_chunk, md_process_block. cbn [md_unprocessed_bytes md_a md_b md_c md_d].
    rewrite from_slice_eq by exact Lb. cbn [bind]. fold x.
    rewrite Hp; [|unfold x; rewrite map_length, groups_length, Lb; reflexivity|exact T1].
    cbn [bind tuple4]. destruct (fold_left (step x) ops (h0, h1, h2, h3)) as (((a', b'), c'), d'). reflexivity.
  - intros h Sh. destruct (tuple4_ok _ Sh) as [T1 T2].
    destruct (fold_inv_l _ _ _ (Hi x) ops _ T1) as [F1 F2]. destruct (list4_ok _ F1) as [L1 L2].
    split; [exact L1|]. now rewrite L2, F2.
  - intros h Sh. destruct (tuple4_ok _ Sh) as [T1 T2].
    destruct (fold_inv_r _ _ _ (Hi x) ops _ T1) as [F1 F2]. destruct (list4_ok _ F1) as [L1 L2].
    split; [exact L1|]. now rewrite L2, F2.
Qed.

Lemma md4_adds n b : length b = 64%nat -> adds_each (md_chunk md4_process n) 32 4 b.
Proof. apply (md_adds _ _ md4_unstep _ n b md4_process_ok md4_inverts). Qed.
Lemma md5_adds n b : length b = 64%nat -> adds_each (md_chunk md5_process n) 32 4 b.
Proof. apply (md_adds _ _ md5_unstep _ n b md5_process_ok md5_inverts). Qed.

Lemma fixed_repeat {A} (f : A -> list N -> res A) h b n : f h b = Ok h -> run f (repeat b n) h = Ok h.
Proof.
  intros E. unfold run. induction n as [|n IH]; [reflexivity|]. cbn [repeat fold_left bind]. now rewrite E.
Qed.
