(** * Proofs: how one different byte spreads in AES *)
From Coq Require Import ZifyBool ZifyNat ZifyN.
From Verif Require Import Base BaseLemmas ModelAes SpecAes SpecTrail ProofAesField ProofAes ProofAesKey ProofBranch ProofTrail.
Ltac Zify.zify_post_hook ::= idtac.
Local Open Scope N_scope.

Lemma step_small A A' c : is01 A -> is01 A' -> step_ok A A' -> (c < 4)%nat -> (col (sh A) c <= 1)%nat ->
  (col A' c = 4 * col (sh A) c)%nat.
Proof. intros H H' S Hc L. pose proof (col_le _ c H'). destruct (S c Hc) as [[-> ->]|G]; lia. Qed.

Lemma small_columns A : is01 A -> tot A = 1%nat -> forall c, (c < 4)%nat -> (col (sh A) c <= 1)%nat.
Proof. intros H T c Hc. rewrite <- tot_sh in T. unfold tot in T. four c Hc; lia. Qed.

Lemma one_to_four A A' : is01 A -> is01 A' -> step_ok A A' -> tot A = 1%nat -> tot A' = 4%nat.
Proof.
  intros H H' S T. pose proof (step_small A A') as K. pose proof (small_columns A H T) as L. unfold tot at 1.
  rewrite !K by (auto; apply L; lia). rewrite <- tot_sh in T. unfold tot in T. lia.
Qed.

Lemma four_to_all A A' A'' : is01 A -> is01 A' -> is01 A'' -> step_ok A A' -> step_ok A' A'' -> tot A = 1%nat ->
  forall c, (c < 4)%nat -> col A'' c = 4%nat.
Proof.
  intros H H' H'' S S' T.
  assert (C : forall c, (c < 4)%nat -> (col A' c = 4 * col (sh A) c)%nat).
  { intros c Hc. apply step_small; auto. now apply small_columns. }
  pose proof (small_columns A H T) as L.
  rewrite <- tot_sh in T. unfold tot in T.
  assert (D : forall c, (c < 4)%nat -> col (sh A') c = 1%nat).
  { assert (B : forall r c, (r < 4)%nat -> (c < 4)%nat -> A' r c = col (sh A) c).
    { intros r c Hr Hc. pose proof (C c Hc) as Cc. pose proof (L c Hc) as Lc. unfold col at 1 in Cc.
      pose proof (H' 0 c)%nat. pose proof (H' 1 c)%nat. pose proof (H' 2 c)%nat. pose proof (H' 3 c)%nat.
      four r Hr; lia. }
    intros c Hc. unfold col at 1. unfold sh at 1 2 3 4. rewrite !B by (try apply Nat.mod_upper_bound; lia).
    four c Hc; cbn [Nat.add Nat.modulo Nat.divmod fst snd Nat.sub]; lia. }
  intros c Hc. rewrite (step_small A' A'' c) by (auto; rewrite D by exact Hc; lia). now rewrite D.
Qed.

Lemma all_to_columns A A' : is01 A -> step_ok A A' -> (forall c, (c < 4)%nat -> col A c = 4%nat) ->
  forall c, (c < 4)%nat -> (1 <= col A' c)%nat.
Proof.
  intros H S F c Hc.
  assert (B : forall r c, (r < 4)%nat -> (c < 4)%nat -> A r c = 1%nat).
  { intros r d Hr Hd. pose proof (F d Hd) as Fd. unfold col in Fd.
    pose proof (H 0 d)%nat. pose proof (H 1 d)%nat. pose proof (H 2 d)%nat. pose proof (H 3 d)%nat. four r Hr; lia. }
  assert (E : col (sh A) c = 4%nat) by (unfold col, sh; rewrite !B by (try apply Nat.mod_upper_bound; lia); lia).
  destruct (S c Hc) as [[Z _]|G]; lia.
Qed.

Section Key.
  Context (nk : nat) (key x y : list N) (r : nat).
  Context (Hnk : (4 <= nk)%nat) (Hl : length key = (4 * nk)%nat) (Hb : bytes key)
    (Lx : length x = 16%nat) (Bx : bytes x) (Ly : length y = 16%nat) (By : bytes y) (R1 : (1 <= r)%nat).
  Let w := key_words nk key (4 * (nk + 7)).
  Let A r := pat (sbox_input w x r) (sbox_input w y r).

  Lemma A_step i : (r + i <= nk + 6)%nat -> step_ok (A (r + i)) (A (r + S i)).
  Proof using Hnk Hl Hb Lx Bx Ly By R1.
    intros L. unfold A. replace (r + S i)%nat with (S (r + i)) by lia.
    apply sbox_input_step; auto; [now split|now split|lia].
  Qed.

  Lemma spread_two : (r + 2 <= nk + 6)%nat -> active (sbox_input w x r) (sbox_input w y r) = 1%nat ->
    active (sbox_input w x (r + 1)) (sbox_input w y (r + 1)) = 4%nat /\
    active (sbox_input w x (r + 2)) (sbox_input w y (r + 2)) = 16%nat.
  Proof using Hnk Hl Hb Lx Bx Ly By R1.
    intros L T. rewrite !active_tot in *. fold (A r) in T. fold (A (r + 1)) (A (r + 2)).
    pose proof (A_step 0 ltac:(lia)) as S0. pose proof (A_step 1 ltac:(lia)) as S1. rewrite Nat.add_0_r in S0.
    assert (I : forall i, is01 (A i)) by (intros i; apply is01_pat).
    split; [now apply (one_to_four (A r))|]. unfold tot.
    rewrite !(four_to_all (A r) (A (r + 1)) (A (r + 2))) by (auto; lia). reflexivity.
  Qed.

  Lemma spread_three c : (r + 3 <= nk + 6)%nat -> active (sbox_input w x r) (sbox_input w y r) = 1%nat -> (c < 4)%nat ->
    exists i, (i < 4)%nat /\ nth (i + 4 * c) (sbox_input w x (r + 3)) 0 <> nth (i + 4 * c) (sbox_input w y (r + 3)) 0.
  Proof using Hnk Hl Hb Lx Bx Ly By R1.
    intros L T Hc. rewrite active_tot in T. fold (A r) in T.
    pose proof (A_step 0 ltac:(lia)) as S0. pose proof (A_step 1 ltac:(lia)) as S1. pose proof (A_step 2 ltac:(lia)) as S2.
    rewrite Nat.add_0_r in S0. assert (I : forall i, is01 (A i)) by (intros i; apply is01_pat).
    pose proof (all_to_columns (A (r + 2)) (A (r + 3)) (I _) S2
      (four_to_all (A r) (A (r + 1)) (A (r + 2)) (I _) (I _) (I _) S0 S1 T) c Hc) as K.
    assert (P : forall i, A (r + 3) i c <> 0%nat -> nth (i + 4 * c) (sbox_input w x (r + 3)) 0 <> nth (i + 4 * c) (sbox_input w y (r + 3)) 0).
    { intros i N E. apply N. unfold A, pat, at_. rewrite E, N.lxor_nilpotent. reflexivity. }
    unfold col in K.
    destruct (Nat.eq_dec (A (r + 3) 0 c) 0) as [Z0|Z0]; [|exists 0%nat; split; [lia|now apply P]].
    destruct (Nat.eq_dec (A (r + 3) 1 c) 0) as [Z1|Z1]; [|exists 1%nat; split; [lia|now apply P]].
    destruct (Nat.eq_dec (A (r + 3) 2 c) 0) as [Z2|Z2]; [|exists 2%nat; split; [lia|now apply P]].
    exists 3%nat. split; [lia|]. apply P. lia.
  Qed.
End Key.

Lemma spread_first w x y : active (sbox_input w x 1) (sbox_input w y 1) = active x y.
Proof.
  rewrite !active_tot. unfold tot, sbox_input. cbn [Nat.sub seq fold_left].
  now rewrite !(col_ext (pat (add_round_key (round_key w 0) x) (add_round_key (round_key w 0) y)) (pat x y))
    by (intros; apply pat_add; lia).
Qed.
