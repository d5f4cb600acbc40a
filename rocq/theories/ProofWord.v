(** * The model's machine arithmetic and the standards' *)
From Coq Require Import ZifyBool ZifyNat ZifyN.
From Verif Require Import Base BaseLemmas SpecWord.

Lemma rol_rotl w x s : 0 < w -> x < 2 ^ w -> rotl w x s = rol w x s.
Proof.
  intros Hw Hx. rewrite rot_mod_l by lia. unfold rol.
  assert (Hs : s mod w < w) by (apply N.mod_lt; lia).
  rewrite rotl_arith by auto. f_equal.
  rewrite (pow2_split w (s mod w)) by lia. rewrite (N.mul_comm (2 ^ (s mod w))).
  rewrite N.mul_mod_distr_r; auto; apply N.pow_nonzero; lia.
Qed.

Lemma ror_rotr w x s : 0 < w -> x < 2 ^ w -> rotr w x s = ror w x s.
Proof.
  intros Hw Hx. rewrite rot_mod_r by lia. unfold ror.
  assert (Hs : s mod w < w) by (apply N.mod_lt; lia).
  now rewrite rotr_arith by auto.
Qed.

Lemma wadd_plus w a b : wadd w a b = plus_w w a b.
Proof. reflexivity. Qed.

Lemma wnot_not w a : a < 2 ^ w -> wnot w a = not_w w a.
Proof. apply wnot_arith. Qed.

Lemma wadd_mod_l w a b : wadd w (a mod 2 ^ w) b = (a + b) mod 2 ^ w.
Proof. unfold wadd. apply N.add_mod_idemp_l. apply N.pow_nonzero; lia. Qed.

Lemma wadd_mod_r w a b : wadd w a (b mod 2 ^ w) = (a + b) mod 2 ^ w.
Proof. unfold wadd. apply N.add_mod_idemp_r. apply N.pow_nonzero; lia. Qed.

Lemma put_set_nth {A} (l : list A) i v : put l i v = set_nth l i v.
Proof. reflexivity. Qed.
