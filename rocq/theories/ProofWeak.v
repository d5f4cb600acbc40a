(** * Finney's states of RC4; RC5 without rounds *)
From Coq Require Import ZifyBool ZifyNat ZifyN Permutation.
From Verif Require Import Base BaseLemmas ModelBlock ModelRc SpecBlock SpecEndian SpecWord SpecRc SpecKeys SpecWeak
  ProofEndian ProofMerkle ProofRc4 ProofRc5 ProofKeys.
Ltac Zify.zify_post_hook ::= Z.div_mod_to_equations.
Local Open Scope N_scope.
Local Open Scope list_scope.

Lemma finney_step ks k ks' : ks_valid ks -> rc4_next ks = Ok (k, ks') -> (finney ks <-> finney ks').
Proof.
  intros (T & Hx & Hy) E. rewrite (to_state ks) in E.
  destruct (rc4_next_eq (rc4_state ks, rc4_x ks, rc4_y ks) T Hx Hy) as (F & _).
  rewrite F in E. apply Ok_inj in E. apply (f_equal snd) in E. cbn [snd] in E. subst ks'. clear F.
  unfold rc4_prga. cbn [snd of_state]. unfold finney. cbn [rc4_state rc4_x rc4_y].
  set (s := rc4_state ks) in *. set (x := rc4_x ks) in *. set (y := rc4_y ks) in *.
  pose proof (table_length s T) as L.
  set (x1 := (x + 1) mod 256). assert (X1 : x1 < 256) by (unfold x1; lia).
  pose proof (table_nth s (N.to_nat x1) T) as V. set (v := nth (N.to_nat x1) s 0) in *.
  set (y1 := (y + v) mod 256). assert (Y1 : y1 < 256) by (unfold y1; lia).
  rewrite nth_exchange by lia. rewrite Nat.eqb_refl.
  assert (Q : (if (N.to_nat y1 =? N.to_nat x1)%nat then nth (N.to_nat y1) s 0 else nth (N.to_nat x1) s 0) = v).
  { destruct (Nat.eqb_spec (N.to_nat y1) (N.to_nat x1)) as [E|]; [now rewrite E|reflexivity]. }
  rewrite Q. clear Q. split; intros [E1 E2].
  - rewrite E1 in E2. fold v in E2. split; [unfold y1; rewrite E1, E2; reflexivity|exact E2].
  - assert (y = x1) by (unfold y1 in E1; rewrite E2 in E1; lia). split; [assumption|]. now rewrite H.
Qed.

Lemma finney_never key ks0 bs ks : key <> [] -> bytes key -> rc4_new key = Ok ks0 ->
  yields rc4_next ks0 bs ks -> ~ finney ks.
Proof.
  intros Hk Hb E Y. destruct (rc4_new_eq key Hk Hb) as [E' T]. rewrite E' in E. apply Ok_inj in E. subst ks0.
  assert (G : forall k0 bs k1, yields rc4_next k0 bs k1 -> ks_valid k0 -> ~ finney k0 -> ~ finney k1).
  { clear. induction 1 as [|k0 b k1 bs k2 E _ IH]; intros V N; [exact N|].
    destruct (rc4_next_valid k0 V) as (b' & k1' & E' & _ & V'). rewrite E in E'.
    assert (k1' = k1) by congruence. subst k1'. apply IH; [exact V'|]. intros F. apply N.
    now apply (finney_step k0 (Some b) k1 V E). }
  apply (G _ _ _ Y).
  - split; [exact T|]. split; reflexivity.
  - intros [F _]. discriminate F.
Qed.

(** ** RC5 *)

Lemma le_words_split (block : list N) : length block = 8%nat ->
  groups 4 block = [firstn 4 block; skipn 4 block].
Proof.
  intros H. do 8 (destruct block as [|? block]; [discriminate H|]). destruct block; [|discriminate H]. reflexivity.
Qed.

Lemma rc5_no_rounds key c p ct : rc5_new key 0 = Ok c -> length p = 8%nat -> bytes p -> rc5_encrypt c p = Ok ct ->
  exists s0 s1, rc5_s c = [s0; s1] /\
    le_num (firstn 4 ct) = (le_num (firstn 4 p) + s0) mod 2 ^ 32 /\
    le_num (skipn 4 ct) = (le_num (skipn 4 p) + s1) mod 2 ^ 32.
Proof.
  intros E L B D.
  assert (Hk : (1 <= length key <= 255)%nat).
  { destruct (Nat.lt_ge_cases (length key) 1).
    - destruct key; [|cbn in *; lia]. rewrite rc5_new_empty in E. discriminate E.
    - split; [assumption|]. destruct (Nat.lt_ge_cases (length key) 256); [lia|].
      rewrite rc5_new_long in E by assumption. discriminate E. }
  pose proof (rc5_new_wf key 0 Hk) as W. rewrite rc5_new_ok in E by exact Hk. apply Ok_inj in E. subst c.
  rewrite rc5_encrypt_eq in D by assumption. apply Ok_inj in D. subst ct.
  destruct W as [R2 _]. cbn [rc5_r rc5_s] in *. change (2 * (ix 0 + 1))%nat with 2%nat in R2.
  destruct (rc5_table key (ix 0)) as [|s0 [|s1 [|? ?]]]; try discriminate R2.
  exists s0, s1. split; [reflexivity|]. unfold rc5_spec_encrypt. rewrite le_words_split by exact L.
  change (ix 0) with 0%nat. cbn [seq fold_left map nth].
  match goal with |- le_num (firstn 4 (?x ++ ?y)) = _ /\ _ =>
    change (firstn 4 (x ++ y)) with x; change (skipn 4 (x ++ y)) with y end.
  unfold plus_w. split; apply le_num_bytes; apply N.mod_lt; discriminate.
Qed.

(** One block and its ciphertext say how every other block is encrypted. *)
Lemma rc5_known_block key c p p' ct ct' : rc5_new key 0 = Ok c ->
  length p = 8%nat -> bytes p -> length p' = 8%nat -> bytes p' ->
  rc5_encrypt c p = Ok ct -> rc5_encrypt c p' = Ok ct' ->
  (le_num (firstn 4 ct') + le_num (firstn 4 p)) mod 2 ^ 32 = (le_num (firstn 4 ct) + le_num (firstn 4 p')) mod 2 ^ 32 /\
  (le_num (skipn 4 ct') + le_num (skipn 4 p)) mod 2 ^ 32 = (le_num (skipn 4 ct) + le_num (skipn 4 p')) mod 2 ^ 32.
Proof.
  intros E L B L' B' D D'.
  destruct (rc5_no_rounds key c p ct E L B D) as (s0 & s1 & S & F1 & F2).
  destruct (rc5_no_rounds key c p' ct' E L' B' D') as (s0' & s1' & S' & F1' & F2').
  rewrite S in S'. injection S' as <- <-. rewrite F1, F1', F2, F2'.
  rewrite !N.add_mod_idemp_l by discriminate. split; f_equal; lia.
Qed.
