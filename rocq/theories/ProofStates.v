(** * Every permutation is the table for some RC4 key *)
From Coq Require Import ZifyBool ZifyNat ZifyN Permutation.
From Verif Require Import Base BaseLemmas ModelRc SpecRc ProofRc4.
Local Open Scope N_scope.
Ltac Zify.zify_post_hook ::= idtac.

(** The key scheduling with a key of at least as many bytes as steps. *)
Definition step (ks : list N) : list N * N -> nat -> list N * N :=
  fun '(s, j) i => let j := (j + nth i s 0 + nth i ks 0) mod 256 in (exchange s i (N.to_nat j), j).
Definition steps (ks : list N) (n : nat) : list N * N := fold_left (step ks) (seq 0 n) (identity, 0).

Lemma steps_S ks n : steps ks (S n) = step ks (steps ks n) n.
Proof. unfold steps. now rewrite seq_S, fold_left_app. Qed.

Lemma steps_app ks x : forall n, (n <= length ks)%nat -> steps (ks ++ x) n = steps ks n.
Proof.
  induction n; intros H; [reflexivity|]. rewrite !steps_S, IHn by lia. destruct (steps ks n) as [s j].
  unfold step. now rewrite app_nth1 by lia.
Qed.

Lemma exchange_twice s i j : (i < length s)%nat -> (j < length s)%nat -> exchange (exchange s i j) i j = s.
Proof.
  intros Hi Hj. apply (list_ext 0).
  - now rewrite !exchange_length.
  - rewrite !exchange_length. intros k Hk. rewrite nth_exchange by now rewrite exchange_length.
    rewrite !nth_exchange by assumption.
    destruct (Nat.eqb_spec k i), (Nat.eqb_spec k j), (Nat.eqb_spec j i), (Nat.eqb_spec i j), (Nat.eqb_spec i i), (Nat.eqb_spec j j);
      congruence.
Qed.

Lemma identity_nth k : (k < 256)%nat -> nth k identity 0 = N.of_nat k.
Proof. intros H. unfold identity. change 0 with (N.of_nat 0). rewrite map_nth, seq_nth by exact H. reflexivity. Qed.

Definition fixed_from (n : nat) (t : list N) : Prop := forall k, (n <= k < 256)%nat -> nth k t 0 = N.of_nat k.

Lemma table_in t v : rc4_table_ok t -> (v < 256)%nat -> exists k, (k < 256)%nat /\ nth k t 0 = N.of_nat v.
Proof.
  intros T H. assert (I : In (N.of_nat v) t).
  { apply (Permutation_in _ T). unfold identity. apply in_map, in_seq. lia. }
  destruct (In_nth t _ 0 I) as (k & Hk & E). rewrite (table_length t T) in Hk. now exists k.
Qed.

Lemma table_NoDup t : rc4_table_ok t -> NoDup t.
Proof.
  intros T. apply (Permutation_NoDup T). unfold identity. apply FinFun.Injective_map_NoDup; [|apply seq_NoDup].
  intros a b. apply Nat2N.inj.
Qed.

Lemma two_tables t : rc4_table_ok t -> fixed_from 2 t -> t = identity \/ t = exchange identity 0 1.
Proof.
  intros T F. pose proof (table_length t T) as L. pose proof (table_NoDup t T) as D.
  assert (Inj : forall a b, (a < 256)%nat -> (b < 256)%nat -> nth a t 0 = nth b t 0 -> a = b).
  { intros a b Ha Hb E. apply (proj1 (NoDup_nth t 0) D a b); [now rewrite L|now rewrite L|exact E]. }
  assert (V : forall a, (a < 2)%nat -> nth a t 0 = 0 \/ nth a t 0 = 1).
  { intros a Ha. pose proof (table_nth t a T) as Hv.
    assert (C : (N.to_nat (nth a t 0%N) < 2)%nat \/ (2 <= N.to_nat (nth a t 0%N) < 256)%nat) by lia.
    destruct C as [C|C]; [lia|]. pose proof (F _ C) as E. rewrite N2Nat.id in E.
    apply Inj in E; lia. }
  assert (Li : length identity = 256%nat) by reflexivity.
  assert (X : nth 0 t 0 <> nth 1 t 0) by (intros E; apply Inj in E; lia).
  destruct (V 0%nat) as [E0|E0]; [lia| |].
  - left. apply (list_ext 0); [now rewrite L|]. intros k Hk. rewrite L in Hk. rewrite identity_nth by exact Hk.
    destruct k as [|[|k]]; [exact E0| |apply F; lia]. destruct (V 1%nat) as [E1|E1]; [lia| |exact E1]. congruence.
  - right. apply (list_ext 0); [now rewrite exchange_length, L|]. intros k Hk. rewrite L in Hk.
    rewrite nth_exchange by now rewrite Li. rewrite !identity_nth by lia.
    destruct k as [|[|k]]; cbn [Nat.eqb]; [exact E0| |apply F; lia]. destruct (V 1%nat) as [E1|E1]; [lia|exact E1|congruence].
Qed.

Lemma one_more n t : (n < 256)%nat -> rc4_table_ok t -> fixed_from (S n) t ->
  exists t' j', (j' < 256)%nat /\ rc4_table_ok t' /\ fixed_from n t' /\ exchange t' n j' = t /\ nth n t' 0 = N.of_nat n.
Proof.
  intros Hn T F. destruct (table_in t n T Hn) as (j' & Hj & E). pose proof (table_length t T) as L.
  assert (En : nth n (exchange t n j') 0 = N.of_nat n) by (rewrite nth_exchange, Nat.eqb_refl by lia; exact E).
  exists (exchange t n j'), j'. split; [exact Hj|]. split; [now apply table_exchange|].
  split; [|split; [apply exchange_twice; lia|exact En]].
  intros k Hk. destruct (Nat.eq_dec k n) as [->|K]; [exact En|]. rewrite nth_exchange by lia.
  destruct (Nat.eqb_spec k n) as [|_]; [contradiction|]. destruct (Nat.eqb_spec k j') as [->|_]; [|apply F; lia].
  rewrite F in E by lia. lia.
Qed.

Lemma next_byte ks n t j t' j' : length ks = n -> steps ks n = (t', j) -> j < 256 -> (j' < 256)%nat -> (n < 256)%nat ->
  nth n t' 0 = N.of_nat n -> exchange t' n j' = t ->
  steps (ks ++ [(N.of_nat j' + 512 - j - N.of_nat n) mod 256]) (S n) = (t, N.of_nat j').
Proof.
  intros L E Hj Hj' Hn En X. rewrite steps_S, steps_app, E by lia. unfold step.
  rewrite En, app_nth2 by lia. rewrite L, Nat.sub_diag. cbn [nth].
  assert (J : (j + N.of_nat n + (N.of_nat j' + 512 - j - N.of_nat n) mod 256) mod 256 = N.of_nat j').
  { rewrite N.add_mod_idemp_r by discriminate.
    replace (j + N.of_nat n + (N.of_nat j' + 512 - j - N.of_nat n)) with (N.of_nat j' + 2 * 256) by lia.
    rewrite N.mod_add by discriminate. apply N.mod_small. lia. }
  rewrite J, Nat2N.id, X. reflexivity.
Qed.

Lemma two_keys m : forall t, (2 + m <= 256)%nat -> rc4_table_ok t -> fixed_from (2 + m) t ->
  exists ks ks' j j', length ks = (2 + m)%nat /\ length ks' = (2 + m)%nat /\ bytes ks /\ bytes ks' /\ ks <> ks' /\
    steps ks (2 + m) = (t, j) /\ steps ks' (2 + m) = (t, j') /\ j < 256 /\ j' < 256.
Proof.
  induction m as [|m IH]; intros t Hm T F.
  - destruct (two_tables t T F) as [->| ->].
    + exists [0; 0], [1; 255], 1, 0. do 5 (split; [first [reflexivity|discriminate|repeat constructor]|]).
      split; [vm_compute; reflexivity|]. split; [vm_compute; reflexivity|]. split; reflexivity.
    + exists [0; 255], [1; 0], 0, 1. do 5 (split; [first [reflexivity|discriminate|repeat constructor]|]).
      split; [vm_compute; reflexivity|]. split; [vm_compute; reflexivity|]. split; reflexivity.
  - replace (2 + S m)%nat with (S (2 + m)) in * by lia.
    destruct (one_more (2 + m) t) as (t' & i & Hi & T' & F' & X & En); [lia|exact T|exact F|].
    destruct (IH t') as (ks & ks' & j & j' & L & L' & B & B' & D & E & E' & Hj & Hj'); [lia|exact T'|exact F'|].
    assert (H : (2 + m < 256)%nat) by lia.
    exists (ks ++ [(N.of_nat i + 512 - j - N.of_nat (2 + m)) mod 256]), (ks' ++ [(N.of_nat i + 512 - j' - N.of_nat (2 + m)) mod 256]),
      (N.of_nat i), (N.of_nat i).
    split; [rewrite app_length, L; cbn [length]; lia|]. split; [rewrite app_length, L'; cbn [length]; lia|].
    split; [apply Forall_app; split; [exact B|]; constructor; [|constructor]; now apply N.mod_lt|].
    split; [apply Forall_app; split; [exact B'|]; constructor; [|constructor]; now apply N.mod_lt|].
    split; [intros Q; apply app_inj_tail in Q as [Q _]; contradiction|].
    split; [exact (next_byte ks (2 + m) t j t' i L E Hj Hi H En X)|].
    split; [exact (next_byte ks' (2 + m) t j' t' i L' E' Hj' Hi H En X)|]. split; lia.
Qed.

Lemma fold_steps ks is : length ks = 256%nat -> (forall i, In i is -> (i < 256)%nat) -> forall s,
  fold_left (ksa_step ks) is s = fold_left (step ks) is s.
Proof.
  intros L. induction is as [|i is IH]; intros H s; [reflexivity|]. cbn [fold_left].
  rewrite IH by (intros; apply H; now right). f_equal. destruct s as [s j]. unfold ksa_step, step.
  rewrite L, (Nat.mod_small i 256) by (apply H; now left). reflexivity.
Qed.

Lemma below_256 : forall i, In i (seq 0 256) -> (i < 256)%nat.
Proof. intros i Hi. apply in_seq in Hi. lia. Qed.

Lemma steps_ksa ks : length ks = 256%nat -> rc4_ksa ks = fst (steps ks 256).
Proof. intros L. rewrite ksa_eq. unfold steps. rewrite (fold_steps ks (seq 0 256) L below_256). exact eq_refl. Qed.

Lemma every_state t : Permutation (map N.of_nat (seq 0 256)) t ->
  exists key key', length key = 256%nat /\ length key' = 256%nat /\ bytes key /\ bytes key' /\ key <> key' /\
    rc4_new key = Ok {| rc4_state := t; rc4_x := 0; rc4_y := 0 |} /\
    rc4_new key' = Ok {| rc4_state := t; rc4_x := 0; rc4_y := 0 |}.
Proof.
  intros T. destruct (two_keys 254 t) as (ks & ks' & j & j' & L & L' & B & B' & D & E & E' & _); [lia|exact T|intros k Hk; lia|].
  change (2 + 254)%nat with 256%nat in *.
  exists ks, ks'. do 5 (split; [assumption|]).
  assert (N : ks <> []) by (clear - L; intros ->; discriminate L).
  assert (N' : ks' <> []) by (clear - L'; intros ->; discriminate L').
  destruct (rc4_new_eq ks N B) as [-> _]. destruct (rc4_new_eq ks' N' B') as [-> _].
  rewrite (steps_ksa ks L), (steps_ksa ks' L'), E, E'. split; reflexivity.
Qed.
