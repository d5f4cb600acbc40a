(** * The branch number of MixColumns *)
From Coq Require Import ZifyBool ZifyNat ZifyN.
From Verif Require Import Base BaseLemmas ModelAes SpecAes SpecTrail ProofAesField ProofAes.
Ltac Zify.zify_post_hook ::= idtac.
Local Open Scope N_scope.

Definition nz (x : N) : nat := if x =? 0 then 0%nat else 1%nat.

Lemma gmul_0_r m : m < 256 -> gmul m 0 = 0.
Proof.
  intros H. pose proof (gmul_linear m 0 0) as E. rewrite N.lxor_0_r in E.
  rewrite N.lxor_nilpotent in E. exact E.
Qed.

Lemma minor m1 m2 m3 m4 x y : m1 < 256 -> m2 < 256 -> m3 < 256 -> m4 < 256 -> x < 256 -> y < 256 ->
  N.lxor (gmul m1 m4) (gmul m2 m3) <> 0 ->
  N.lxor (gmul m1 x) (gmul m2 y) = 0 -> N.lxor (gmul m3 x) (gmul m4 y) = 0 -> x = 0.
Proof.
  intros H1 H2 H3 H4 Hx Hy D E F. apply N.lxor_eq in E. apply N.lxor_eq in F.
  destruct (N.eq_dec x 0) as [|Hn]; [assumption|exfalso].
  assert (K : gmul (N.lxor (gmul m1 m4) (gmul m2 m3)) x = 0).
  { rewrite gmul_linear_l.
    rewrite (gmul_comm m1 m4), gmul_assoc, E by auto.
    rewrite <- gmul_assoc, (gmul_comm m4 m2), gmul_assoc, <- F by auto.
    rewrite <- gmul_assoc by auto. apply N.lxor_nilpotent. }
  revert K. apply gmul_no_zero_divisors; [|lia].
  split; [lia|]. apply lxor_byte; apply gmul_lt; auto.
Qed.

Lemma single m x : 0 < m < 256 -> x < 256 -> x <> 0 -> gmul m x <> 0.
Proof. intros Hm Hx Hn. apply gmul_no_zero_divisors; lia. Qed.

Ltac by_minor :=
  match goal with
  | E : N.lxor (gmul ?m1 ?x) (gmul ?m2 ?y) = 0, F : N.lxor (gmul ?m3 ?x) (gmul ?m4 ?y) = 0 |- _ =>
      exfalso; apply (minor m1 m2 m3 m4 x y) in E; [auto|reflexivity|reflexivity|reflexivity|reflexivity|assumption|assumption|vm_compute; discriminate|exact F]
  | E : N.lxor (gmul ?m1 ?x) (gmul ?m2 ?y) = 0, F : N.lxor (gmul ?m4 ?y) (gmul ?m3 ?x) = 0 |- _ =>
      rewrite (N.lxor_comm (gmul m4 y)) in F
  end.

Lemma row_zero m0 m1 m2 m3 : m0 < 256 -> m1 < 256 -> m2 < 256 -> m3 < 256 -> row4 m0 m1 m2 m3 0 0 0 0 = 0.
Proof. intros. unfold row4. rewrite !gmul_0_r by assumption. reflexivity. Qed.

(** Rows with at most two nonzero entries. *)
Lemma branch_number a b c d : a < 256 -> b < 256 -> c < 256 -> d < 256 ->
  ~ (a = 0 /\ b = 0 /\ c = 0 /\ d = 0) ->
  (5 <= nz a + nz b + nz c + nz d +
        (nz (row4 2 3 1 1 a b c d) + nz (row4 2 3 1 1 b c d a) +
         nz (row4 2 3 1 1 c d a b) + nz (row4 2 3 1 1 d a b c)))%nat.
Proof.
  intros Ha Hb Hc Hd Hn.
  pose proof (unmix_mix_row a b c d Ha Hb Hc Hd) as Ua.
  pose proof (unmix_mix_row b c d a Hb Hc Hd Ha) as Ub.
  pose proof (unmix_mix_row c d a b Hc Hd Ha Hb) as Uc.
  pose proof (unmix_mix_row d a b c Hd Ha Hb Hc) as Ud.
  assert (L0 : row4 2 3 1 1 a b c d < 256).
  { unfold row4, s4. repeat apply lxor_byte; apply gmul_lt; auto; reflexivity. }
  assert (L1 : row4 2 3 1 1 b c d a < 256).
  { unfold row4, s4. repeat apply lxor_byte; apply gmul_lt; auto; reflexivity. }
  assert (L2 : row4 2 3 1 1 c d a b < 256).
  { unfold row4, s4. repeat apply lxor_byte; apply gmul_lt; auto; reflexivity. }
  assert (L3 : row4 2 3 1 1 d a b c < 256).
  { unfold row4, s4. repeat apply lxor_byte; apply gmul_lt; auto; reflexivity. }
  remember (row4 2 3 1 1 a b c d) as o0 eqn:E0. remember (row4 2 3 1 1 b c d a) as o1 eqn:E1.
  remember (row4 2 3 1 1 c d a b) as o2 eqn:E2. remember (row4 2 3 1 1 d a b c) as o3 eqn:E3.
  unfold row4, s4 in *.
  unfold nz.
  destruct (N.eqb_spec a 0) as [Za|Za], (N.eqb_spec b 0) as [Zb|Zb], (N.eqb_spec c 0) as [Zc|Zc], (N.eqb_spec d 0) as [Zd|Zd];
  destruct (N.eqb_spec o0 0) as [Z0|Z0], (N.eqb_spec o1 0) as [Z1|Z1], (N.eqb_spec o2 0) as [Z2|Z2], (N.eqb_spec o3 0) as [Z3|Z3];
  cbn [Nat.add]; try lia; exfalso; try tauto;
  try rewrite Za in *; try rewrite Zb in *; try rewrite Zc in *; try rewrite Zd in *;
  try rewrite Z0 in *; try rewrite Z1 in *; try rewrite Z2 in *; try rewrite Z3 in *;
  rewrite ?gmul_0_r in * by reflexivity; rewrite ?N.lxor_0_l, ?N.lxor_0_r in *;
  try (symmetry in E0; (revert E0; apply single; (assumption || (split; reflexivity)))); 
  try (symmetry in E1; (revert E1; apply single; (assumption || (split; reflexivity))));
  try (symmetry in E2; (revert E2; apply single; (assumption || (split; reflexivity))));
  try (symmetry in E3; (revert E3; apply single; (assumption || (split; reflexivity))));
  try (revert Ua; apply single; (assumption || (split; reflexivity)));
  try (revert Ub; apply single; (assumption || (split; reflexivity)));
  try (revert Uc; apply single; (assumption || (split; reflexivity)));
  try (revert Ud; apply single; (assumption || (split; reflexivity)));
  try (now symmetry in Ua); try (now symmetry in Ub); try (now symmetry in Uc); try (now symmetry in Ud);
  try symmetry in E0; try symmetry in E1; try symmetry in E2; try symmetry in E3;
  repeat by_minor.
Qed.
