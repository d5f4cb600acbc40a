(** * Proofs for C128: the short cycles of RC4 *)
From Coq Require Import ZifyBool ZifyNat ZifyN Permutation.
From Verif Require Import Base BaseLemmas ModelBlock ModelRc SpecBlock SpecRc SpecFinney
  ProofRc4 ProofKeys.
Ltac Zify.zify_post_hook ::= Z.div_mod_to_equations.
Local Open Scope N_scope.

Definition fin (st : list N * N * N) : Prop := finney (of_state st).
Definition next (st : list N * N * N) : list N * N * N := snd (rc4_prga st).

Lemma next_form s i j : next (s, i, j) =
  let i' := (i + 1) mod 256 in
  let j' := (j + nth (N.to_nat i') s 0) mod 256 in
  (exchange s (N.to_nat i') (N.to_nat j'), i', j').
Proof. reflexivity. Qed.

Lemma fin_next st : st_valid st -> fin st <-> fin (next st).
Proof.
  destruct st as ((s, i), j). intros (T & Hi & Hj). cbn [fst snd] in *.
  pose proof (table_length s T) as L. rewrite next_form. cbv zeta.
  unfold fin, finney, of_state. cbn [rc4_x rc4_y rc4_state].
  set (i' := (i + 1) mod 256). assert (Hi' : i' < 256) by (unfold i'; lia).
  pose proof (table_nth s (N.to_nat i') T) as Hv. set (v := nth (N.to_nat i') s 0) in *.
  rewrite nth_exchange by (rewrite L; lia).
  set (j' := (j + v) mod 256). assert (Hj' : j' < 256) by (unfold j'; lia).
  destruct (Nat.eqb_spec (N.to_nat j') (N.to_nat i')) as [E|E].
  - assert (E' : j' = i') by lia. rewrite E'. fold v. split; intros [A B].
    + exfalso. subst j. fold v in B. unfold j' in *. clear - B E' Hi'. rewrite B in E'. lia.
    + exfalso. clear - A E' Hi'. lia.
  - rewrite Nat.eqb_refl. fold v. split; intros [A B].
    + subst j. fold v in B. split; [|exact B]. unfold j'. now rewrite B.
    + assert (J : j = i') by (unfold j' in A; rewrite B in A; clear - A Hj Hi'; lia).
      split; [exact J|]. rewrite J. exact B.
Qed.

(** The entries after the 1, in their order. *)
Definition ring (st : list N * N * N) (k : N) : N :=
  nth (N.to_nat ((snd st + 1 + k) mod 256)) (fst (fst st)) 0.

Lemma ring_next st k : st_valid st -> fin st -> k < 255 ->
  ring (next st) k = ring st ((k + 1) mod 255).
Proof.
  destruct st as ((s, i), j). intros (T & Hi & Hj) [A B] Hk. cbn [fst snd] in *.
  pose proof (table_length s T) as L. rewrite next_form. cbv zeta.
  unfold of_state in A, B. cbn [rc4_x rc4_y rc4_state] in A, B. rewrite <- A, B.
  unfold ring. cbn [fst snd].
  rewrite nth_exchange by (rewrite L; lia).
  destruct (Nat.eqb_spec (N.to_nat (((j + 1) mod 256 + 1 + k) mod 256)) (N.to_nat j)) as [E|E].
  - assert (K : k = 254) by lia. rewrite K.
    replace ((254 + 1) mod 255) with 0 by reflexivity. do 2 f_equal. lia.
  - rewrite (proj2 (Nat.eqb_neq _ _)) by lia. do 2 f_equal.
    rewrite (N.mod_small (k + 1)) by lia. lia.
Qed.

Lemma next_index st : fin st -> st_valid st ->
  snd (next st) = (snd st + 1) mod 256.
Proof.
  destruct st as ((s, i), j). intros [A B] _. rewrite next_form. cbv zeta.
  unfold of_state in A, B. cbn [rc4_x rc4_y rc4_state fst snd] in *. now rewrite <- A, B.
Qed.

Definition after (n : nat) (st : list N * N * N) := Nat.iter n next st.
Lemma after_S n st : after (S n) st = next (after n st).
Proof. reflexivity. Qed.

Lemma after_valid n st : st_valid st -> st_valid (after n st).
Proof. intros H. induction n; [exact H|]. rewrite after_S. now apply prga_valid. Qed.

Lemma after_fin n st : st_valid st -> fin st <-> fin (after n st).
Proof.
  intros V. induction n as [|n IH]; [reflexivity|]. rewrite after_S, IH.
  apply fin_next. now apply after_valid.
Qed.

Lemma after_index n st : st_valid st -> fin st ->
  snd (after n st) = (snd st + N.of_nat n) mod 256.
Proof.
  intros V F. induction n as [|n IH].
  - destruct V as (_ & _ & V). cbn [after Nat.iter nat_rect]. lia.
  - rewrite after_S, next_index, IH; [lia| |now apply after_valid].
    now apply after_fin.
Qed.

Lemma after_ring n st k : st_valid st -> fin st -> k < 255 ->
  ring (after n st) k = ring st ((k + N.of_nat n) mod 255).
Proof.
  intros V F. revert k. induction n as [|n IH]; intros k Hk.
  - cbn [after Nat.iter nat_rect]. f_equal. lia.
  - rewrite after_S, ring_next, IH; try lia; [f_equal; lia|now apply after_valid|now apply after_fin].
Qed.

Lemma fin_state st st' : st_valid st -> st_valid st' -> fin st -> fin st' ->
  snd st = snd st' -> (forall k, k < 255 -> ring st k = ring st' k) -> st = st'.
Proof.
  destruct st as ((s, i), j), st' as ((s', i'), j').
  intros (T & Hi & Hj) (T' & Hi' & Hj') [A B] [A' B'] E R. cbn [fst snd] in *. subst j'.
  unfold of_state in *. cbn [rc4_x rc4_y rc4_state] in *. unfold ring in R. cbn [fst snd] in R.
  assert (I : i = i') by lia. subst i'. do 2 f_equal.
  pose proof (table_length s T) as L. pose proof (table_length s' T') as L'.
  apply (list_ext 0); [congruence|]. intros p Hp.
  destruct (Nat.eq_dec p (N.to_nat j)) as [->|D]; [congruence|].
  specialize (R ((N.of_nat p + 256 - j - 1) mod 256)).
  replace ((j + 1 + (N.of_nat p + 256 - j - 1) mod 256) mod 256) with (N.of_nat p) in R by lia.
  rewrite Nat2N.id in R. apply R. lia.
Qed.

Lemma fin_period st n : st_valid st -> fin st -> N.of_nat n mod 65280 = 0 -> after n st = st.
Proof.
  intros V F Hn. apply fin_state; auto.
  - now apply after_valid.
  - now apply after_fin.
  - rewrite after_index by auto. destruct V as (_ & _ & V). lia.
  - intros k Hk. rewrite after_ring by auto. f_equal. lia.
Qed.

Lemma fin_period_only st n : st_valid st -> fin st -> after n st = st -> N.of_nat n mod 65280 = 0.
Proof.
  intros V F E. pose proof (after_index n st V F) as I. pose proof (after_ring n st 0 V F) as R.
  rewrite E in I, R. specialize (R ltac:(lia)). destruct V as (T & _ & Hj).
  unfold ring in R. pose proof (table_length _ T) as L.
  assert (D : NoDup (fst (fst st))).
  { eapply Permutation_NoDup; [exact T|]. apply FinFun.Injective_map_NoDup; [intros x y; apply Nat2N.inj|apply seq_NoDup]. }
  rewrite NoDup_nth in D. apply D in R; [|rewrite L; lia|rewrite L; lia]. lia.
Qed.

(** ** The code *)

Lemma of_ks ks : ks = of_state (ks_state ks).
Proof. now destruct ks. Qed.
Lemma valid_ks ks : ks_valid ks -> st_valid (ks_state ks).
Proof. now destruct ks. Qed.
Lemma fin_ks ks : finney ks <-> fin (ks_state ks).
Proof. now destruct ks. Qed.

Lemma next_code ks k ks' : ks_valid ks -> rc4_next ks = Ok (k, ks') ->
  ks_state ks' = next (ks_state ks).
Proof.
  intros V E. apply valid_ks in V. destruct V as (T & Hx & Hy).
  rewrite (of_ks ks) in E. destruct (rc4_next_eq _ T Hx Hy) as (Q & _).
  rewrite Q in E. unfold next. revert E. generalize (rc4_prga (ks_state ks)).
  intros (b & ((s, i), j)) [= _ <-]. reflexivity.
Qed.

Lemma yields_code ks bs ks' : ks_valid ks -> yields rc4_next ks bs ks' ->
  ks_state ks' = after (length bs) (ks_state ks).
Proof.
  intros V Y. induction Y as [ks|ks b ks1 bs ks2 E Y IH]; [reflexivity|].
  pose proof (next_code _ _ _ V E) as S. destruct (rc4_next_valid ks V) as (k & ks'' & E' & _ & V').
  rewrite E in E'. injection E' as -> <-. rewrite (IH V'), S. cbn [length].
  unfold after. generalize (length bs). clear. intros n.
  induction n as [|n IH]; [reflexivity|].
  change (next (Nat.iter n next (next (ks_state ks))) = next (Nat.iter (S n) next (ks_state ks))).
  now rewrite IH.
Qed.

Lemma ks_state_inj ks ks' : ks_state ks = ks_state ks' -> ks = ks'.
Proof. intros E. rewrite (of_ks ks), E. symmetry. apply of_ks. Qed.

Lemma finney_step ks k ks' : ks_valid ks -> rc4_next ks = Ok (k, ks') -> finney ks <-> finney ks'.
Proof.
  intros V E. rewrite !fin_ks, (next_code _ _ _ V E). apply fin_next. now apply valid_ks.
Qed.

Lemma finney_never key ks bs ks' : key <> [] -> bytes key -> rc4_new key = Ok ks ->
  yields rc4_next ks bs ks' -> ~ finney ks'.
Proof.
  intros N1 B E Y. destruct (rc4_new_eq key N1 B) as [Q T]. rewrite Q in E. injection E as <-.
  assert (V : ks_valid (of_state (rc4_ksa key, 0, 0))).
  { split; [exact T|split; reflexivity]. }
  rewrite fin_ks, (yields_code _ _ _ V Y), <- after_fin by now apply valid_ks.
  intros [A _]. discriminate A.
Qed.

Lemma finney_period ks bs : ks_valid ks -> finney ks -> (exists ks', yields rc4_next ks bs ks') ->
  yields rc4_next ks bs ks <-> N.of_nat (length bs) mod 65280 = 0.
Proof.
  intros V F (ks' & Y). pose proof (yields_code _ _ _ V Y) as S.
  pose proof (valid_ks _ V) as V'. apply fin_ks in F. split.
  - intros Y'. apply (fin_period_only (ks_state ks)); auto. now rewrite <- (yields_code _ _ _ V Y').
  - intros H. rewrite (fin_period _ _ V' F H) in S. apply ks_state_inj in S. now subst ks'.
Qed.

Lemma yields_exist ks n : ks_valid ks -> exists bs ks', length bs = n /\ yields rc4_next ks bs ks'.
Proof.
  intros V. apply valid_ks in V as (T & Hx & Hy).
  destruct (rc4_yields n (ks_state ks) T Hx Hy) as (Y & _ & L & _). rewrite <- of_ks in Y. eauto.
Qed.

Lemma finney_cycle ks : ks_valid ks -> finney ks ->
  exists bs, N.of_nat (length bs) = 65280 /\ yields rc4_next ks bs ks.
Proof.
  intros V F. destruct (yields_exist ks (N.to_nat 65280) V) as (bs & ks' & L & Y).
  exists bs. assert (LL : N.of_nat (length bs) = 65280) by (rewrite L; apply N2Nat.id).
  split; [exact LL|]. apply finney_period; eauto. now rewrite LL.
Qed.
