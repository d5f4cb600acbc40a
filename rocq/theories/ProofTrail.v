(** * Active S-boxes of AES (the wide trail argument) *)
From Coq Require Import ZifyBool ZifyNat ZifyN.
From Verif Require Import Base BaseLemmas ModelAes SpecAes SpecTrail ProofAesField ProofAes ProofAesKey ProofBranch.
Ltac Zify.zify_post_hook ::= idtac.
Local Open Scope N_scope.

(** ** Patterns of different bytes *)

(** 1 where the states differ. *)
Definition pat (s t : list N) (r c : nat) : nat := nz (N.lxor (at_ s r c) (at_ t r c)).
Definition col (A : nat -> nat -> nat) (c : nat) : nat := (A 0 c + A 1 c + A 2 c + A 3 c)%nat.
Definition tot (A : nat -> nat -> nat) : nat := (col A 0 + col A 1 + col A 2 + col A 3)%nat.
Definition sh (A : nat -> nat -> nat) (r c : nat) : nat := A r ((c + r) mod 4)%nat.
Definition act (n : nat) : nat := match n with O => O | _ => 1%nat end.
Definition cols (A : nat -> nat -> nat) : nat :=
  (act (col A 0) + act (col A 1) + act (col A 2) + act (col A 3))%nat.

Lemma nz_01 x : (nz x <= 1)%nat.
Proof. unfold nz. destruct (x =? 0); lia. Qed.

Lemma filter_sum {A} (f : A -> bool) l :
  length (filter f l) = list_sum (map (fun i => if f i then 1%nat else 0%nat) l).
Proof. induction l as [|a l IH]; [reflexivity|]. cbn [filter map list_sum fold_right]. destruct (f a); cbn [length]; unfold list_sum in *; lia. Qed.

Lemma nz_diff x y : (if negb (x =? y) then 1%nat else 0%nat) = nz (N.lxor x y).
Proof.
  unfold nz. destruct (N.eqb_spec x y) as [->|H]; cbn [negb].
  - now rewrite N.lxor_nilpotent.
  - destruct (N.eqb_spec (N.lxor x y) 0) as [E|]; [|reflexivity]. apply N.lxor_eq in E. contradiction.
Qed.

Lemma active_tot s t : active s t = tot (pat s t).
Proof.
  unfold active. rewrite filter_sum. unfold list_sum. cbn [seq map fold_right].
  rewrite !nz_diff. unfold tot, col, pat, at_. cbn [Nat.add Nat.mul]. lia.
Qed.

Ltac four r H := destruct r as [|[|[|[|r]]]]; [| | | |exfalso; lia].

Lemma at_make f r c : (r < 4)%nat -> (c < 4)%nat -> at_ (make_state f) r c = f r c.
Proof. intros Hr Hc. four r Hr; four c Hc; reflexivity. Qed.

Lemma pat_sub s t r c : wf16 s -> wf16 t -> (r < 4)%nat -> (c < 4)%nat ->
  pat (sub_bytes s) (sub_bytes t) r c = pat s t r c.
Proof.
  intros [Ls Bs] [Lt Bt] Hr Hc. unfold pat, at_, sub_bytes.
  rewrite !(nth_indep _ 0 (sub_byte 0)) by (rewrite map_length; lia). rewrite !map_nth.
  rewrite <- !nz_diff. pose proof (nth_lt s (r + 4 * c) Bs) as Hx. pose proof (nth_lt t (r + 4 * c) Bt) as Hy.
  destruct (N.eqb_spec (nth (r + 4 * c) s 0) (nth (r + 4 * c) t 0)) as [->|Hn].
  - now rewrite N.eqb_refl.
  - destruct (N.eqb_spec (sub_byte (nth (r + 4 * c) s 0)) (sub_byte (nth (r + 4 * c) t 0))) as [E|]; [|reflexivity].
    exfalso. apply Hn. rewrite <- (inv_sub_sub _ Hx), <- (inv_sub_sub _ Hy). now rewrite E.
Qed.

Lemma pat_shift s t r c : (r < 4)%nat -> (c < 4)%nat ->
  pat (shift_rows s) (shift_rows t) r c = sh (pat s t) r c.
Proof. intros Hr Hc. unfold pat, sh, shift_rows. now rewrite !at_make by assumption. Qed.

Lemma pat_add k s t r c : (r < 4)%nat -> (c < 4)%nat ->
  pat (add_round_key k s) (add_round_key k t) r c = pat s t r c.
Proof.
  intros Hr Hc. unfold pat, at_, add_round_key.
  assert (E : forall u, nth (r + 4 * c) (map (fun i => N.lxor (nth i u 0) (nth i k 0)) (seq 0 16)) 0 =
    N.lxor (nth (r + 4 * c) u 0) (nth (r + 4 * c) k 0)) by (intros u; four r Hr; four c Hc; reflexivity).
  rewrite !E. f_equal. now rewrite lxor_swap, N.lxor_nilpotent, N.lxor_0_r.
Qed.

Lemma row_diff m0 m1 m2 m3 a b c d a' b' c' d' :
  N.lxor (row4 m0 m1 m2 m3 a b c d) (row4 m0 m1 m2 m3 a' b' c' d') =
  row4 m0 m1 m2 m3 (N.lxor a a') (N.lxor b b') (N.lxor c c') (N.lxor d d').
Proof. unfold row4. rewrite s4_add, <- !gmul_linear. reflexivity. Qed.

Lemma pat_mix s t c : bytes s -> bytes t -> (c < 4)%nat ->
  let n := (col (pat s t) c + col (pat (mix_columns s) (mix_columns t)) c)%nat in
  (col (pat s t) c = 0%nat /\ col (pat (mix_columns s) (mix_columns t)) c = 0%nat) \/ (5 <= n)%nat.
Proof.
  intros Bs Bt Hc n. subst n. unfold col, pat.
  set (a := N.lxor (at_ s 0 c) (at_ t 0 c)). set (b := N.lxor (at_ s 1 c) (at_ t 1 c)).
  set (d := N.lxor (at_ s 2 c) (at_ t 2 c)). set (e := N.lxor (at_ s 3 c) (at_ t 3 c)).
  assert (E0 : N.lxor (at_ (mix_columns s) 0 c) (at_ (mix_columns t) 0 c) = row4 2 3 1 1 a b d e).
  { unfold mix_columns, mix_with. rewrite !at_make by lia. apply row_diff. }
  assert (E1 : N.lxor (at_ (mix_columns s) 1 c) (at_ (mix_columns t) 1 c) = row4 2 3 1 1 b d e a).
  { unfold mix_columns, mix_with. rewrite !at_make by lia. apply row_diff. }
  assert (E2 : N.lxor (at_ (mix_columns s) 2 c) (at_ (mix_columns t) 2 c) = row4 2 3 1 1 d e a b).
  { unfold mix_columns, mix_with. rewrite !at_make by lia. apply row_diff. }
  assert (E3 : N.lxor (at_ (mix_columns s) 3 c) (at_ (mix_columns t) 3 c) = row4 2 3 1 1 e a b d).
  { unfold mix_columns, mix_with. rewrite !at_make by lia. apply row_diff. }
  rewrite E0, E1, E2, E3.
  assert (La : a < 256) by (apply lxor_byte; now apply at_lt).
  assert (Lb : b < 256) by (apply lxor_byte; now apply at_lt).
  assert (Ld : d < 256) by (apply lxor_byte; now apply at_lt).
  assert (Le : e < 256) by (apply lxor_byte; now apply at_lt).
  clearbody a b d e. clear E0 E1 E2 E3.
  destruct (N.eq_dec a 0) as [Za|Za];
    [destruct (N.eq_dec b 0) as [Zb|Zb];
      [destruct (N.eq_dec d 0) as [Zd|Zd]; [destruct (N.eq_dec e 0) as [Ze|Ze]|]|]|].
  - left. rewrite Za, Zb, Zd, Ze. rewrite row_zero by reflexivity. split; reflexivity.
  - right. pose proof (branch_number a b d e La Lb Ld Le) as H. apply H. tauto.
  - right. pose proof (branch_number a b d e La Lb Ld Le) as H. apply H. tauto.
  - right. pose proof (branch_number a b d e La Lb Ld Le) as H. apply H. tauto.
  - right. pose proof (branch_number a b d e La Lb Ld Le) as H. apply H. tauto.
Qed.

(** ** Counting *)

(** The pattern of one round follows from the pattern of the round before it. *)
Definition step_ok (A A' : nat -> nat -> nat) : Prop :=
  forall c, (c < 4)%nat -> (col (sh A) c = 0%nat /\ col A' c = 0%nat) \/ (5 <= col (sh A) c + col A' c)%nat.
Definition is01 (A : nat -> nat -> nat) : Prop := forall r c, (A r c <= 1)%nat.

Lemma col_le A c : is01 A -> (col A c <= 4)%nat.
Proof. intros H. unfold col. pose proof (H 0 c)%nat. pose proof (H 1 c)%nat. pose proof (H 2 c)%nat. pose proof (H 3 c)%nat. lia. Qed.

Lemma sh_01 A : is01 A -> is01 (sh A).
Proof. intros H r c. apply H. Qed.

Lemma tot_sh A : tot (sh A) = tot A.
Proof. unfold tot, col, sh. cbn [Nat.add Nat.modulo Nat.divmod fst snd Nat.sub]. lia. Qed.

Lemma pair_cols A A' : step_ok A A' -> (5 * cols A' <= tot A + tot A')%nat.
Proof.
  intros H. rewrite <- (tot_sh A). unfold tot, cols.
  assert (K : forall c, (c < 4)%nat -> (5 * act (col A' c) <= col (sh A) c + col A' c)%nat).
  { intros c Hc. destruct (H c Hc) as [[_ ->]|G]; [cbn [act]; lia|]. destruct (col A' c); cbn [act]; lia. }
  pose proof (K 0%nat ltac:(lia)). pose proof (K 1%nat ltac:(lia)). pose proof (K 2%nat ltac:(lia)). pose proof (K 3%nat ltac:(lia)). lia.
Qed.

Lemma pair_cols' A A' : step_ok A A' -> (5 * cols (sh A) <= tot A + tot A')%nat.
Proof.
  intros H. rewrite <- (tot_sh A). unfold tot, cols.
  assert (K : forall c, (c < 4)%nat -> (5 * act (col (sh A) c) <= col (sh A) c + col A' c)%nat).
  { intros c Hc. destruct (H c Hc) as [[-> _]|G]; [cbn [act]; lia|]. destruct (col (sh A) c); cbn [act]; lia. }
  pose proof (K 0%nat ltac:(lia)). pose proof (K 1%nat ltac:(lia)). pose proof (K 2%nat ltac:(lia)). pose proof (K 3%nat ltac:(lia)). lia.
Qed.

Lemma col_act A r c : is01 A -> (r < 4)%nat -> (A r c <= act (col A c))%nat.
Proof.
  intros H Hr. pose proof (H r c) as K. unfold col.
  destruct (A r c) as [|n] eqn:E; [lia|]. assert (n = 0)%nat by lia. subst n.
  destruct (A 0 c + A 1 c + A 2 c + A 3 c)%nat eqn:F; cbn [act]; [|lia].
  exfalso. four r Hr; lia.
Qed.

Lemma col_sh_cols A j : is01 A -> (j < 4)%nat -> (col (sh A) j <= cols A)%nat.
Proof.
  intros H Hj. unfold cols.
  assert (K : forall r c, (r < 4)%nat -> (A r c <= act (col A c))%nat) by (intros; now apply col_act).
  unfold col at 1, sh.
  four j Hj; cbn [Nat.add Nat.modulo Nat.divmod fst snd Nat.sub].
  - pose proof (K 0 0)%nat. pose proof (K 1 1)%nat. pose proof (K 2 2)%nat. pose proof (K 3 3)%nat. lia.
  - pose proof (K 0 1)%nat. pose proof (K 1 2)%nat. pose proof (K 2 3)%nat. pose proof (K 3 0)%nat. lia.
  - pose proof (K 0 2)%nat. pose proof (K 1 3)%nat. pose proof (K 2 0)%nat. pose proof (K 3 1)%nat. lia.
  - pose proof (K 0 3)%nat. pose proof (K 1 0)%nat. pose proof (K 2 1)%nat. pose proof (K 3 2)%nat. lia.
Qed.

Lemma col_cols_sh A j : is01 A -> (j < 4)%nat -> (col A j <= cols (sh A))%nat.
Proof.
  intros H Hj. unfold cols.
  assert (K : forall r c, (r < 4)%nat -> (sh A r c <= act (col (sh A) c))%nat)
    by (intros; apply col_act; [now apply sh_01|assumption]).
  unfold sh in K at 1. unfold col at 1.
  four j Hj.
  - pose proof (K 0 0)%nat. pose proof (K 1 3)%nat. pose proof (K 2 2)%nat. pose proof (K 3 1)%nat.
    cbn [Nat.add Nat.modulo Nat.divmod fst snd Nat.sub] in *. lia.
  - pose proof (K 0 1)%nat. pose proof (K 1 0)%nat. pose proof (K 2 3)%nat. pose proof (K 3 2)%nat.
    cbn [Nat.add Nat.modulo Nat.divmod fst snd Nat.sub] in *. lia.
  - pose proof (K 0 2)%nat. pose proof (K 1 1)%nat. pose proof (K 2 0)%nat. pose proof (K 3 3)%nat.
    cbn [Nat.add Nat.modulo Nat.divmod fst snd Nat.sub] in *. lia.
  - pose proof (K 0 3)%nat. pose proof (K 1 2)%nat. pose proof (K 2 1)%nat. pose proof (K 3 0)%nat.
    cbn [Nat.add Nat.modulo Nat.divmod fst snd Nat.sub] in *. lia.
Qed.

Lemma some_column A A' : is01 A -> is01 A' -> step_ok A A' -> (1 <= tot A)%nat ->
  exists j, (j < 4)%nat /\ (5 <= col (sh A) j + col A' j)%nat.
Proof.
  intros _ _ H HT. rewrite <- tot_sh in HT. unfold tot in HT.
  destruct (H 0%nat ltac:(lia)) as [[E0 _]|G]; [|exists 0%nat; split; [lia|exact G]].
  destruct (H 1%nat ltac:(lia)) as [[E1 _]|G]; [|exists 1%nat; split; [lia|exact G]].
  destruct (H 2%nat ltac:(lia)) as [[E2 _]|G]; [|exists 2%nat; split; [lia|exact G]].
  destruct (H 3%nat ltac:(lia)) as [[E3 _]|G]; [|exists 3%nat; split; [lia|exact G]].
  lia.
Qed.

Lemma tot_step A A' : is01 A -> is01 A' -> step_ok A A' -> (1 <= tot A)%nat -> (1 <= tot A')%nat /\ (5 <= tot A + tot A')%nat.
Proof.
  intros H H' S T. destruct (some_column A A' H H' S T) as (j & Hj & G).
  pose proof (col_le _ j (sh_01 _ H)). rewrite <- (tot_sh A).
  assert (col (sh A) j <= tot (sh A))%nat by (unfold tot; four j Hj; lia).
  assert (col A' j <= tot A')%nat by (unfold tot; four j Hj; lia). lia.
Qed.

Lemma four_rounds A1 A2 A3 A4 : is01 A1 -> is01 A2 -> is01 A3 -> is01 A4 ->
  step_ok A1 A2 -> step_ok A2 A3 -> step_ok A3 A4 -> (1 <= tot A1)%nat ->
  (25 <= tot A1 + tot A2 + tot A3 + tot A4)%nat.
Proof.
  intros H1 H2 H3 H4 S1 S2 S3 T.
  destruct (tot_step A1 A2 H1 H2 S1 T) as [T2 _].
  destruct (some_column A2 A3 H2 H3 S2 T2) as (j & Hj & G).
  pose proof (pair_cols A1 A2 S1). pose proof (pair_cols' A3 A4 S3).
  pose proof (col_sh_cols A2 j H2 Hj). pose proof (col_cols_sh A3 j H3 Hj). lia.
Qed.

(** ** The cipher *)

Lemma col_ext A B c : (forall r, (r < 4)%nat -> A r c = B r c) -> col A c = col B c.
Proof. intros H. unfold col. now rewrite !H by lia. Qed.

Definition round_step (k s : list N) : list N := add_round_key k (mix_columns (shift_rows (sub_bytes s))).

Lemma round_step_wf k s : bytes k -> wf16 s -> wf16 (round_step k s).
Proof. intros Hk Hs. apply add_round_key_wf; [exact Hk|]. now apply mix_columns_wf, shift_rows_wf, sub_bytes_wf. Qed.

Lemma round_pat k s t : wf16 s -> wf16 t -> step_ok (pat s t) (pat (round_step k s) (round_step k t)).
Proof.
  intros Hs Ht c Hc. unfold round_step.
  assert (E1 : col (pat (add_round_key k (mix_columns (shift_rows (sub_bytes s)))) (add_round_key k (mix_columns (shift_rows (sub_bytes t))))) c =
               col (pat (mix_columns (shift_rows (sub_bytes s))) (mix_columns (shift_rows (sub_bytes t)))) c)
    by (apply col_ext; intros; now apply pat_add).
  assert (E2 : col (sh (pat s t)) c = col (pat (shift_rows (sub_bytes s)) (shift_rows (sub_bytes t))) c).
  { apply col_ext. intros r Hr. rewrite pat_shift by assumption. unfold sh. symmetry. apply pat_sub; auto.
    apply Nat.mod_upper_bound. discriminate. }
  rewrite E1, E2. apply pat_mix; [| |exact Hc]; now apply shift_rows_wf, sub_bytes_wf.
Qed.

Lemma sbox_input_S w x r : (1 <= r)%nat -> sbox_input w x (S r) = round_step (round_key w r) (sbox_input w x r).
Proof.
  intros Hr. unfold sbox_input. replace (S r - 1)%nat with (r - 1 + 1)%nat by lia.
  rewrite seq_app, fold_left_app. cbn [seq fold_left]. now replace (1 + (r - 1))%nat with r by lia.
Qed.

Lemma is01_pat s t : is01 (pat s t).
Proof. intros r c. apply nz_01. Qed.

Section Key.
  Context (nk : nat) (key : list N).
  Let w := key_words nk key (4 * (nk + 7)).

  Lemma rk_wf r : (4 <= nk)%nat -> length key = (4 * nk)%nat -> bytes key -> (r <= nk + 6)%nat ->
    wf16 (round_key w r).
  Proof using Type.
    intros Hnk Hl Hb Hr. apply round_key_wf; [subst w; rewrite key_words_length; lia|].
    apply key_words_wf; auto; lia.
  Qed.

  Lemma sbox_input_wf x r : (4 <= nk)%nat -> length key = (4 * nk)%nat -> bytes key ->
    wf16 x -> (1 <= r <= nk + 6)%nat -> wf16 (sbox_input w x r).
  Proof using Type.
    intros Hnk Hl Hb Hx [H1 H2]. induction r as [|r IH]; [lia|].
    destruct (Nat.eq_dec r 0) as [->|Hr].
    - apply add_round_key_wf; [|apply Hx]. apply rk_wf; auto; lia.
    - rewrite sbox_input_S by lia. apply round_step_wf; [|apply IH; lia]. apply rk_wf; auto; lia.
  Qed.

  Lemma sbox_input_step x y r : (4 <= nk)%nat -> length key = (4 * nk)%nat -> bytes key ->
    wf16 x -> wf16 y -> (1 <= r <= nk + 6)%nat ->
    step_ok (pat (sbox_input w x r) (sbox_input w y r)) (pat (sbox_input w x (S r)) (sbox_input w y (S r))).
  Proof using Type.
    intros Hnk Hl Hb Hx Hy Hr. rewrite !sbox_input_S by lia. apply round_pat; now apply sbox_input_wf.
  Qed.

  Lemma differ_tot s t : wf16 s -> wf16 t -> s <> t -> (1 <= tot (pat s t))%nat.
  Proof using Type.
    intros [Ls _] [Lt _] Hn. rewrite <- active_tot. unfold active.
    destruct (filter (fun i => negb (nth i s 0 =? nth i t 0)) (seq 0 16)) as [|i l] eqn:E; [|cbn [length]; lia].
    exfalso. apply Hn. apply (nth_ext s t 0 0); [congruence|]. intros i Hi.
    destruct (N.eqb_spec (nth i s 0) (nth i t 0)) as [|D]; [assumption|exfalso].
    assert (K : In i (filter (fun i => negb (nth i s 0 =? nth i t 0)) (seq 0 16))).
    { apply filter_In. split; [apply in_seq; lia|]. now destruct (N.eqb_spec (nth i s 0) (nth i t 0)). }
    rewrite E in K. exact K.
  Qed.

  Lemma tot_first x y : wf16 x -> wf16 y -> x <> y -> (1 <= tot (pat (sbox_input w x 1) (sbox_input w y 1)))%nat.
  Proof using Type.
    intros Hx Hy Hn. unfold sbox_input. cbn [Nat.sub seq fold_left].
    assert (E : tot (pat (add_round_key (round_key w 0) x) (add_round_key (round_key w 0) y)) = tot (pat x y)).
    { assert (K : forall c, (c < 4)%nat -> col (pat (add_round_key (round_key w 0) x) (add_round_key (round_key w 0) y)) c = col (pat x y) c)
        by (intros c Hc; apply col_ext; intros; now apply pat_add).
      unfold tot. now rewrite !K by lia. }
    rewrite E. now apply differ_tot.
  Qed.

  Lemma tot_pos x y r : (4 <= nk)%nat -> length key = (4 * nk)%nat -> bytes key ->
    wf16 x -> wf16 y -> x <> y -> (1 <= r <= nk + 6)%nat ->
    (1 <= tot (pat (sbox_input w x r) (sbox_input w y r)))%nat.
  Proof using Type.
    intros Hnk Hl Hb Hx Hy Hn [H1 H2]. induction r as [|r IH]; [lia|].
    destruct (Nat.eq_dec r 0) as [->|Hr]; [now apply tot_first|].
    eapply (tot_step (pat (sbox_input w x r) (sbox_input w y r))); try apply is01_pat; [apply sbox_input_step; auto; lia|apply IH; lia].
  Qed.

  Lemma two_rounds_active x y r : (4 <= nk)%nat -> length key = (4 * nk)%nat -> bytes key ->
    length x = 16%nat -> bytes x -> length y = 16%nat -> bytes y -> x <> y ->
    (1 <= r)%nat -> (r + 1 <= nk + 6)%nat ->
    (5 <= active (sbox_input w x r) (sbox_input w y r) + active (sbox_input w x (r + 1)) (sbox_input w y (r + 1)))%nat.
  Proof using Type.
    intros Hnk Hl Hb Lx Bx Ly By Hn H1 H2. rewrite !active_tot, Nat.add_1_r.
    apply tot_step; try apply is01_pat; [apply sbox_input_step|apply tot_pos]; auto; try (split; assumption); lia.
  Qed.

  Lemma four_rounds_active x y r : (4 <= nk)%nat -> length key = (4 * nk)%nat -> bytes key ->
    length x = 16%nat -> bytes x -> length y = 16%nat -> bytes y -> x <> y ->
    (1 <= r)%nat -> (r + 3 <= nk + 6)%nat ->
    (25 <= active (sbox_input w x r) (sbox_input w y r) + active (sbox_input w x (r + 1)) (sbox_input w y (r + 1)) +
           active (sbox_input w x (r + 2)) (sbox_input w y (r + 2)) + active (sbox_input w x (r + 3)) (sbox_input w y (r + 3)))%nat.
  Proof using Type.
    intros Hnk Hl Hb Lx Bx Ly By Hn H1 H2. rewrite !active_tot.
    replace (r + 1)%nat with (S r) by lia. replace (r + 2)%nat with (S (S r)) by lia. replace (r + 3)%nat with (S (S (S r))) by lia.
    apply four_rounds; try apply is01_pat; [apply sbox_input_step|apply sbox_input_step|apply sbox_input_step|apply tot_pos];
      auto; try (split; assumption); lia.
  Qed.

  Lemma spec_last x : aes_spec_encrypt nk key x =
    add_round_key (round_key w (nk + 6)) (shift_rows (sub_bytes (sbox_input w x (nk + 6)))).
  Proof using Type.
    unfold aes_spec_encrypt, fips_cipher, sbox_input, w. now replace (nk + 6 + 1)%nat with (nk + 7)%nat by lia.
  Qed.
End Key.

Lemma branch_columns a b c d a' b' c' d' :
  bytes [a; b; c; d] -> bytes [a'; b'; c'; d'] -> [a; b; c; d] <> [a'; b'; c'; d'] ->
  let x := map (fun p => N.lxor (fst p) (snd p)) (combine [a; b; c; d] [a'; b'; c'; d']) in
  let y := map (fun p => N.lxor (fst p) (snd p)) (combine (mix_column a b c d) (mix_column a' b' c' d')) in
  (5 <= weight x + weight y)%nat.
Proof.
  intros B B' Hn x y. split_bytes B. split_bytes B'.
  assert (W : forall p q r s, weight [p; q; r; s] = (nz p + nz q + nz r + nz s)%nat).
  { intros. unfold weight, nz. rewrite filter_sum. unfold list_sum. cbn [map fold_right].
    destruct (p =? 0), (q =? 0), (r =? 0), (s =? 0); reflexivity. }
  subst x y. unfold mix_column, mix_columns. rewrite !mix_with_explicit. cbv zeta. cbn [firstn combine map fst snd].
  rewrite !W, !row_diff.
  apply branch_number; try (apply lxor_byte; assumption).
  intros (E1 & E2 & E3 & E4). apply Hn. apply N.lxor_eq in E1, E2, E3, E4. now subst.
Qed.

(** ** Differences through one S-box *)

Definition unit_diffs : list N := map (fun y => N.lxor (ginv y) (ginv (N.lxor y 1))) all_bytes.

Lemma unit_sweep : forallb (fun g => Nat.leb (length (filter (N.eqb g) unit_diffs)) 4) all_bytes = true.
Proof. vm_compute. reflexivity. Qed.

Lemma unit_count g : g < 256 ->
  (length (filter (fun y => N.eqb g (N.lxor (ginv y) (ginv (N.lxor y 1)))) all_bytes) <= 4)%nat.
Proof.
  intros Hg. pose proof (sweep _ unit_sweep g Hg) as H. apply Nat.leb_le in H.
  unfold unit_diffs in H. rewrite filter_sum, map_map in H. now rewrite filter_sum.
Qed.

Lemma ginv_0 : ginv 0 = 0.
Proof. vm_compute. reflexivity. Qed.

Lemma ginv_mul a b : a < 256 -> b < 256 -> ginv (gmul a b) = gmul (ginv a) (ginv b).
Proof.
  intros Ha Hb. destruct (N.eq_dec a 0) as [->|Na].
  - rewrite (gmul_comm 0 b), gmul_0_r, ginv_0 by (assumption || reflexivity).
    rewrite (gmul_comm 0), gmul_0_r; try reflexivity; apply ginv_lt.
  - destruct (N.eq_dec b 0) as [->|Nb].
    + rewrite gmul_0_r, ginv_0 by assumption. rewrite gmul_0_r; [reflexivity|apply ginv_lt].
    + pose proof (ginv_lt a). pose proof (ginv_lt b).
      apply ginv_eq.
      * split; [|now apply gmul_lt]. pose proof (gmul_no_zero_divisors a b). lia.
      * now apply gmul_lt.
      * rewrite (gmul_comm (ginv a) (ginv b)) by assumption.
        rewrite <- gmul_assoc by (try apply gmul_lt; assumption).
        rewrite (gmul_assoc a b) by assumption. rewrite (ginv_spec b) by lia.
        rewrite (gmul_comm a 1), gmul_1_l by (assumption || reflexivity). apply ginv_spec. lia.
Qed.

(** The affine map of the S-box sends equal differences to equal differences only. *)
Definition lin (u : N) : N := N.lxor (affine u) 0x63.

Lemma lin_sweep : forallb (fun u => forallb (fun i => N.lxor (lin u) (lin (2 ^ i)) =? lin (N.lxor u (2 ^ i))) [0; 1; 2; 3; 4; 5; 6; 7]) all_bytes = true.
Proof. vm_compute. reflexivity. Qed.

Lemma lin_kernel : forallb (fun u => orb (u =? 0) (negb (lin u =? 0))) all_bytes = true.
Proof. vm_compute. reflexivity. Qed.

Lemma lin_add x y : x < 256 -> y < 256 -> lin (N.lxor x y) = N.lxor (lin x) (lin y).
Proof.
  intros Hx Hy. revert x Hx.
  enough (G : y < 256 /\ forall x, x < 256 -> lin (N.lxor x y) = N.lxor (lin x) (lin y)) by apply G.
  revert y Hy. apply byte_span.
  - split; [reflexivity|]. intros x _. rewrite N.lxor_0_r.
    replace (lin 0) with 0 by (vm_compute; reflexivity). now rewrite N.lxor_0_r.
  - intros i Hi. split; [repeat (destruct Hi as [<-|Hi]; [reflexivity|]); destruct Hi|]. intros x Hx.
    pose proof (sweep _ lin_sweep x Hx) as H. cbn [forallb] in H.
    repeat (apply andb_prop in H as [? H]).
    repeat match goal with E : (_ =? _) = true |- _ => apply N.eqb_eq in E end.
    symmetry. repeat (destruct Hi as [<-|Hi]; [assumption|]). destruct Hi.
  - intros y z [Ly Py] [Lz Pz]. split; [now apply lxor_byte|]. intros x Hx.
    rewrite <- N.lxor_assoc, Pz, Py by (try apply lxor_byte; assumption).
    rewrite (Pz y Ly). apply N.lxor_assoc.
Qed.

Lemma lin_inj x y : x < 256 -> y < 256 -> lin x = lin y -> x = y.
Proof.
  intros Hx Hy E. apply N.lxor_eq.
  pose proof (sweep _ lin_kernel (N.lxor x y) (lxor_byte x y Hx Hy)) as K. cbv beta in K.
  rewrite lin_add, E, N.lxor_nilpotent in K by assumption. cbn [N.eqb negb] in K.
  rewrite Bool.orb_false_r in K. now apply N.eqb_eq.
Qed.

Lemma sub_byte_diff x y : x < 256 -> y < 256 ->
  N.lxor (sub_byte x) (sub_byte y) = lin (N.lxor (ginv x) (ginv y)).
Proof.
  intros _ _. rewrite lin_add by apply ginv_lt. unfold lin.
  change (sub_byte x) with (affine (ginv x)). change (sub_byte y) with (affine (ginv y)).
  generalize (affine (ginv x)) (affine (ginv y)). intros a b.
  now rewrite (lxor_swap a 0x63 b 0x63), (N.lxor_nilpotent 0x63), N.lxor_0_r.
Qed.

Lemma sbox_uniform d e l : 0 < d < 256 -> NoDup l ->
  Forall (fun x => x < 256 /\ N.lxor (sub_byte x) (sub_byte (N.lxor x d)) = e) l -> (length l <= 4)%nat.
Proof.
  intros Hd HN HF. destruct l as [|x0 l']; [cbn [length]; lia|].
  set (l := x0 :: l') in *. rewrite Forall_forall in HF.
  set (u := N.lxor (ginv x0) (ginv (N.lxor x0 d))).
  assert (Lu : u < 256) by (apply lxor_byte; apply ginv_lt).
  assert (Hu : forall x, In x l -> x < 256 /\ N.lxor (ginv x) (ginv (N.lxor x d)) = u).
  { intros x Hx. destruct (HF x Hx) as [Lx Ex]. destruct (HF x0 (or_introl eq_refl)) as [Lx0 Ex0].
    split; [exact Lx|]. rewrite sub_byte_diff in Ex, Ex0 by (try apply lxor_byte; lia).
    apply lin_inj; [apply lxor_byte; apply ginv_lt|exact Lu|]. unfold u. congruence. }
  clearbody u. clear HF.
  set (F := filter (fun y => N.eqb (gmul d u) (N.lxor (ginv y) (ginv (N.lxor y 1)))) all_bytes).
  assert (HI : incl l (map (gmul d) F)).
  { intros x Hx. destruct (Hu x Hx) as [Lx Ex]. pose proof (ginv_lt d) as Li. pose proof (ginv_spec d Hd) as Ei.
    assert (Ly : gmul (ginv d) x < 256) by now apply gmul_lt.
    assert (Ey : gmul d (gmul (ginv d) x) = x).
    { rewrite <- gmul_assoc, Ei by lia. now apply gmul_1_l. }
    apply in_map_iff. exists (gmul (ginv d) x). split; [exact Ey|].
    apply filter_In. split; [now apply in_all_bytes|]. apply N.eqb_eq.
    set (y := gmul (ginv d) x) in *. clearbody y. subst x.
    assert (E1 : N.lxor (gmul d y) d = gmul d (N.lxor y 1)).
    { rewrite gmul_linear. f_equal. rewrite gmul_comm by lia. symmetry. apply gmul_1_l. lia. }
    rewrite E1, !ginv_mul in Ex by (try apply lxor_byte; lia).
    rewrite <- gmul_linear in Ex. rewrite <- Ex.
    rewrite <- gmul_assoc, Ei by (try apply lxor_byte; try apply ginv_lt; lia).
    apply gmul_1_l. apply lxor_byte; apply ginv_lt. }
  apply (NoDup_incl_length HN) in HI. rewrite map_length in HI.
  pose proof (unit_count (gmul d u) (gmul_lt d u (proj2 Hd) Lu)) as HC. fold F in HC. lia.
Qed.

Lemma no_fixed_sweep : forallb (fun x => andb (negb (sub_byte x =? x)) (negb (sub_byte x =? 255 - x))) all_bytes = true.
Proof. vm_compute. reflexivity. Qed.

Lemma no_fixed x : x < 256 -> sub_byte x <> x /\ sub_byte x <> 255 - x.
Proof.
  intros Hx. pose proof (sweep _ no_fixed_sweep x Hx) as H. apply andb_prop in H as [H1 H2].
  apply Bool.negb_true_iff in H1, H2. now apply N.eqb_neq in H1, H2.
Qed.

Lemma model_last nk key x : nk = 4%nat \/ nk = 6%nat \/ nk = 8%nat ->
  length key = (4 * nk)%nat -> bytes key -> length x = 16%nat -> bytes x ->
  let w := key_words nk key (4 * (nk + 7)) in
  exists c, aes_make nk key = Ok c /\
    aes_encrypt c x = Ok (add_round_key (round_key w (nk + 6)) (shift_rows (sub_bytes (sbox_input w x (nk + 6))))).
Proof.
  intros H Hl Hb Lx Bx w. destruct (aes_encrypt_conforms nk key x H Hl Hb Lx Bx) as (c & E & F & _).
  exists c. split; [exact E|]. rewrite F. f_equal. apply spec_last.
Qed.

(** The code stopped after any number of rounds. *)
Lemma model_rounds nk key x : nk = 4%nat \/ nk = 6%nat \/ nk = 8%nat ->
  length key = (4 * nk)%nat -> bytes key -> length x = 16%nat -> bytes x ->
  let w := key_words nk key (4 * (nk + 7)) in
  exists c, aes_make nk key = Ok c /\ forall r, (1 <= r <= nk + 6)%nat ->
    aes_encrypt {| aes_keys := aes_keys c; aes_rounds := r |} x =
    Ok (add_round_key (round_key w r) (shift_rows (sub_bytes (sbox_input w x r)))).
Proof.
  intros Hnk Hl Hb Lx Bx w. destruct (aes_make_ok nk key Hnk Hl Hb) as (keys & E & _ & K).
  eexists. split; [exact E|]. cbn [aes_keys]. intros r Hr.
  exact (proj1 (aes_encrypt_eq r w keys x (proj1 Hr) (fun r' H => K r' (Nat.le_trans _ _ _ H (proj2 Hr))) (conj Lx Bx))).
Qed.
