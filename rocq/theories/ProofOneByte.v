(** * Proofs for C127: which keys of the same length RC2 tells apart *)
From Coq Require Import ZifyBool ZifyNat ZifyN.
From Verif Require Import Base BaseLemmas ModelBlock ModelRc SpecEndian SpecRc SpecKeys
  ProofRc2 ProofKeys.
Ltac Zify.zify_post_hook ::= Z.div_mod_to_equations.
Local Open Scope N_scope.

Lemma schedule_buffer key key' t1 : (1 <= length key <= 128)%nat -> (1 <= length key' <= 128)%nat ->
  bytes key -> bytes key' -> 1 <= t1 <= 1024 ->
  rc2_from_key key t1 = rc2_from_key key' t1 <-> rc2_key_buffer key t1 = rc2_key_buffer key' t1.
Proof.
  intros L L' B B' H. rewrite !rc2_expand_key_eq by assumption. split.
  - intros [= E]. apply (groups_inj _ _ 64); rewrite ?key_buffer_length; auto;
      now apply key_buffer_bytes.
  - intros E. unfold rc2_schedule. now rewrite E.
Qed.

Lemma cons_inj {A} (a b : A) l m : a :: l = b :: m -> a = b /\ l = m.
Proof. now intros [= -> ->]. Qed.

(** ** Keys of two bytes and more *)

Lemma skipn_nth {A} (l : list A) n d : (n < length l)%nat -> skipn n l = nth n l d :: skipn (S n) l.
Proof.
  revert n; induction l as [|a l IH]; intros [|n] H; cbn [length] in H; try lia; [reflexivity|].
  cbn [skipn nth]. apply IH. lia.
Qed.

Lemma extend_back_key t n key key' : (2 <= t)%nat -> length key = t -> length key' = t ->
  bytes key -> bytes key' ->
  skipn n (rc2_extend t n key) = skipn n (rc2_extend t n key') -> key = key'.
Proof.
  intros Ht L L' B B'. induction n as [|n IH]; intros E; [exact E|].
  apply IH. rewrite !extend_S in E. cbv zeta in E.
  pose proof (extend_length t n key) as M. pose proof (extend_length t n key') as M'.
  pose proof (extend_bytes t n key B) as BM. pose proof (extend_bytes t n key' B') as BM'.
  set (m := rc2_extend t n key) in *. set (m' := rc2_extend t n key') in *.
  rewrite !skipn_app in E.
  replace (S n - length m)%nat with 0%nat in E by lia.
  replace (S n - length m')%nat with 0%nat in E by lia. rewrite !skipn_O in E.
  apply app_inj_tail in E as [E1 E2].
  rewrite (skipn_nth m n 0), (skipn_nth m' n 0) by lia. f_equal; [|exact E1].
  apply pi_at_inj in E2; [|lia|lia]. rewrite M, M', L, L' in E2.
  replace (t + n - t)%nat with n in E2 by lia.
  assert (EL : nth (t + n - 1) m 0 = nth (t + n - 1) m' 0).
  { replace (t + n - 1)%nat with (S n + (t - 2))%nat by lia.
    rewrite <- !nth_skipn'. now rewrite E1. }
  rewrite EL in E2. pose proof (nth_byte m n BM). pose proof (nth_byte m' n BM').
  clear -E2 H H0. lia.
Qed.

Lemma rc2_keys_distinct key key' t1 : (2 <= length key <= 128)%nat -> length key = length key' ->
  bytes key -> bytes key' -> 8 * N.of_nat (length key) <= t1 <= 1024 ->
  rc2_from_key key t1 = rc2_from_key key' t1 -> key = key'.
Proof.
  intros L LL B B' H E. apply schedule_buffer in E; try assumption; try lia.
  unfold rc2_key_buffer in E. rewrite <- LL in E.
  set (t := length key) in *. set (s := (128 - N.to_nat ((t1 + 7) / 8))%nat) in *.
  pose proof (extend_length t (128 - t) key) as M. pose proof (extend_length t (128 - t) key') as M'.
  pose proof (extend_bytes t (128 - t) key B) as BM.
  pose proof (extend_bytes t (128 - t) key' B') as BM'.
  apply (extend_back_key t (128 - t)); auto; [lia|].
  set (l := rc2_extend t (128 - t) key) in *. set (l' := rc2_extend t (128 - t) key') in *.
  fold t in M. rewrite <- LL in M'.
  apply extend_back_suffix in E; [|cbn [length]; rewrite !skipn_length; lia].
  apply cons_inj in E as [E1 E2].
  destruct (Nat.le_gt_cases (S s) (128 - t)) as [C|C].
  - replace (128 - t)%nat with (S s + (128 - t - S s))%nat by lia.
    rewrite <- !skipn_skipn'. now rewrite E2.
  - assert (ET : t1 = 8 * N.of_nat t) by (unfold s in C; lia).
    assert (ES : s = (128 - t)%nat) by (unfold s; lia).
    rewrite <- ES. rewrite (skipn_nth l s 0), (skipn_nth l' s 0) by lia.
    f_equal; [|exact E2].
    replace (8 + t1 - 8 * ((t1 + 7) / 8)) with 8 in E1 by lia.
    change (255 mod 2 ^ 8) with (N.ones 8) in E1. rewrite !N.land_ones in E1.
    change (2 ^ 8) with 256 in E1.
    pose proof (nth_byte l s BM). pose proof (nth_byte l' s BM').
    rewrite !N.mod_small in E1 by assumption. now apply pi_at_inj.
Qed.

(** ** Keys of one byte *)

Definition fold1 (a : N) : N := pi_at ((a + a) mod 256).

Lemma iter_succ_r {A} n (f : A -> A) a : Nat.iter (S n) f a = Nat.iter n f (f a).
Proof.
  induction n as [|n IH]; [reflexivity|].
  change (f (Nat.iter (S n) f a) = f (Nat.iter n f (f a))). now rewrite IH.
Qed.
Lemma iter_plus {A} n m (f : A -> A) a : Nat.iter (n + m) f a = Nat.iter n f (Nat.iter m f a).
Proof.
  induction n as [|n IH]; [reflexivity|].
  change (f (Nat.iter (n + m) f a) = f (Nat.iter n f (Nat.iter m f a))). now rewrite IH.
Qed.

Lemma iter_fold_lt n a : a < 256 -> Nat.iter n fold1 a < 256.
Proof. intros H. destruct n; [exact H|apply pi_at_lt]. Qed.

Lemma extend_one n k : rc2_extend 1 n [k] = map (fun i => Nat.iter i fold1 k) (seq 0 (S n)).
Proof.
  induction n as [|n IH]; [reflexivity|]. rewrite extend_S, IH. cbv zeta.
  rewrite (seq_S (S n)), map_app. f_equal. cbn [map plus]. f_equal.
  rewrite map_length, seq_length. replace (S n - 1)%nat with n by lia.
  rewrite (nth_indep _ 0 ((fun i => Nat.iter i fold1 k) 0%nat)) by (rewrite map_length, seq_length; lia).
  rewrite (map_nth (fun i => Nat.iter i fold1 k)), seq_nth by lia. reflexivity.
Qed.

(** What the buffer of a key of one byte depends on. *)
Definition one_tail (k t1 : N) : list N :=
  let t8 := (t1 + 7) / 8 in
  let s := (128 - N.to_nat t8)%nat in
  pi_at (N.land (Nat.iter s fold1 k) (255 mod 2 ^ (8 + t1 - 8 * t8)))
  :: map (fun i => Nat.iter i fold1 k) (seq (S s) (127 - s)).

Lemma skipn_seq a n k : skipn k (seq a n) = seq (a + k) (n - k).
Proof.
  revert a n. induction k as [|k IH]; intros a [|n]; cbn [skipn seq]; try reflexivity.
  - now rewrite Nat.add_0_r.
  - rewrite IH. f_equal; lia.
Qed.

Lemma buffer_one k t1 : 1 <= t1 <= 1024 -> rc2_key_buffer [k] t1 =
  rc2_extend_back (N.to_nat ((t1 + 7) / 8)) (128 - N.to_nat ((t1 + 7) / 8)) (one_tail k t1).
Proof.
  intros H. unfold rc2_key_buffer, one_tail. cbn [length]. change (128 - 1)%nat with 127%nat.
  rewrite (extend_one 127 k). set (s := (128 - N.to_nat ((t1 + 7) / 8))%nat).
  assert (Hs : (s < 128)%nat) by (unfold s; lia).
  f_equal. f_equal.
  - do 2 f_equal.
    rewrite (nth_indep _ 0 ((fun i => Nat.iter i fold1 k) 0%nat)) by (rewrite map_length, seq_length; lia).
    rewrite (map_nth (fun i => Nat.iter i fold1 k)), seq_nth by lia. reflexivity.
  - rewrite skipn_map, skipn_seq. reflexivity.
Qed.

Lemma one_key_bytes k : k < 256 -> bytes [k].
Proof. intros H. now constructor. Qed.

Lemma one_same k k' t1 : k < 256 -> k' < 256 -> 1 <= t1 <= 1024 ->
  rc2_from_key [k] t1 = rc2_from_key [k'] t1 <-> one_tail k t1 = one_tail k' t1.
Proof.
  intros H H' Ht. rewrite schedule_buffer by (cbn [length]; auto using one_key_bytes; lia).
  rewrite !buffer_one by assumption. split; [|now intros ->].
  apply extend_back_suffix. unfold one_tail. cbn [length]. now rewrite !map_length.
Qed.

(** The top bit of the byte is lost. *)
Lemma one_top_bit k t1 : k < 128 -> 1 <= t1 <= 1023 ->
  rc2_from_key [k] t1 = rc2_from_key [k + 128] t1.
Proof.
  intros Hk Ht. apply one_same; try lia. unfold one_tail.
  set (s := (128 - N.to_nat ((t1 + 7) / 8))%nat).
  assert (F : forall i, Nat.iter (S i) fold1 k = Nat.iter (S i) fold1 (k + 128)).
  { intros i. rewrite !iter_succ_r. f_equal. unfold fold1. f_equal. lia. }
  f_equal.
  - f_equal. destruct s as [|s'] eqn:Es; [|now rewrite F].
    cbn [Nat.iter nat_rect].
    assert (T8 : (t1 + 7) / 8 = 128) by (unfold s in Es; lia). rewrite T8.
    assert (C : exists j, 1 <= j <= 7 /\ 8 + t1 - 8 * 128 = j) by (exists (8 + t1 - 8 * 128); lia).
    destruct C as (j & Hj & ->).
    assert (M : 255 mod 2 ^ j = N.ones j).
    { assert (C : j = 1 \/ j = 2 \/ j = 3 \/ j = 4 \/ j = 5 \/ j = 6 \/ j = 7) by lia.
      destruct C as [->|[->|[->|[->|[->|[->| ->]]]]]]; reflexivity. }
    rewrite M, !N.land_ones.
    assert (C : j = 1 \/ j = 2 \/ j = 3 \/ j = 4 \/ j = 5 \/ j = 6 \/ j = 7) by lia.
    destruct C as [->|[->|[->|[->|[->|[->| ->]]]]]];
      match goal with |- _ mod ?a = _ => let v := eval vm_compute in a in change a with v end; lia.
  - apply map_ext_in. intros [|i] Hi; [apply in_seq in Hi; lia|apply F].
Qed.

Lemma one_all_bits k k' : k < 256 -> k' < 256 ->
  rc2_from_key [k] 1024 = rc2_from_key [k'] 1024 -> k = k'.
Proof.
  intros H H' E. apply one_same in E; try lia. unfold one_tail in E.
  change ((1024 + 7) / 8) with 128 in E. change (128 - N.to_nat 128)%nat with 0%nat in E.
  cbn [Nat.iter nat_rect] in E. apply cons_inj in E as [E _].
  change (255 mod 2 ^ (8 + 1024 - 8 * 128)) with (N.ones 8) in E.
  rewrite !N.land_ones in E. change (2 ^ 8) with 256 in E.
  rewrite !N.mod_small in E by assumption. now apply pi_at_inj.
Qed.

(** The keys that are left after some steps. *)
Definition one_reps : list N := [241; 35; 101; 33; 39; 178; 29; 90; 52; 41; 70; 202; 254; 53].

Lemma reps_cover_all : forallb (fun k => existsb (fun r =>
    Nat.iter 32 fold1 (N.of_nat k) =? r) (map (Nat.iter 32 fold1) one_reps)) (seq 0 256) = true.
Proof. vm_compute. reflexivity. Qed.

Lemma reps_cover k : k < 256 -> exists r, In r one_reps /\ Nat.iter 32 fold1 k = Nat.iter 32 fold1 r.
Proof.
  intros H. pose proof reps_cover_all as F. rewrite forallb_forall in F.
  specialize (F (N.to_nat k)). rewrite N2Nat.id in F.
  assert (I : In (N.to_nat k) (seq 0 256)) by (apply in_seq; lia). specialize (F I).
  apply existsb_exists in F as (v & Hv & E). apply in_map_iff in Hv as (r & <- & Hr).
  exists r. split; [exact Hr|]. now apply N.eqb_eq in E.
Qed.

Lemma reps_closed_all : forallb (fun r => existsb (N.eqb (fold1 r)) one_reps) one_reps = true.
Proof. vm_compute. reflexivity. Qed.
Lemma reps_closed r : In r one_reps -> In (fold1 r) one_reps.
Proof.
  intros H. pose proof reps_closed_all as F. rewrite forallb_forall in F. specialize (F r H).
  apply existsb_exists in F as (v & Hv & E). apply N.eqb_eq in E. now rewrite E.
Qed.
Lemma reps_inj_all : forallb (fun r => forallb (fun r' =>
    (r =? r') || negb (fold1 r =? fold1 r')) one_reps) one_reps = true.
Proof. vm_compute. reflexivity. Qed.
Lemma reps_inj r r' : In r one_reps -> In r' one_reps -> fold1 r = fold1 r' -> r = r'.
Proof.
  intros H H' E. pose proof reps_inj_all as F. rewrite forallb_forall in F. specialize (F r H).
  rewrite forallb_forall in F. specialize (F r' H'). rewrite E, N.eqb_refl in F.
  cbn [negb] in F. rewrite orb_false_r in F. now apply N.eqb_eq.
Qed.
Lemma reps_iter n r r' : In r one_reps -> In r' one_reps ->
  Nat.iter n fold1 r = Nat.iter n fold1 r' -> r = r'.
Proof.
  revert r r'. induction n as [|n IH]; intros r r' H H' E; [exact E|].
  rewrite !iter_succ_r in E. apply reps_inj; auto.
  apply IH; auto using reps_closed.
Qed.
Lemma reps_bytes r : In r one_reps -> r < 256.
Proof.
  intros H. assert (F : forallb (fun r => r <? 256) one_reps = true) by reflexivity.
  rewrite forallb_forall in F. apply N.ltb_lt, F, H.
Qed.

Lemma one_reps_reached k t1 : k < 256 -> 1 <= t1 <= 768 ->
  exists r, In r one_reps /\ rc2_from_key [k] t1 = rc2_from_key [r] t1.
Proof.
  intros Hk Ht. destruct (reps_cover k Hk) as (r & Hr & E). exists r. split; [exact Hr|].
  apply one_same; try lia; [now apply reps_bytes|].
  assert (F : forall i, (32 <= i)%nat -> Nat.iter i fold1 k = Nat.iter i fold1 r).
  { intros i Hi. replace i with ((i - 32) + 32)%nat by lia. rewrite !iter_plus.
    now rewrite E. }
  unfold one_tail. set (s := (128 - N.to_nat ((t1 + 7) / 8))%nat).
  assert (Hs : (32 <= s)%nat) by (unfold s; lia).
  rewrite (F s Hs). f_equal. apply map_ext_in. intros i Hi. apply in_seq in Hi. apply F. lia.
Qed.

Lemma one_reps_distinct r r' t1 : In r one_reps -> In r' one_reps -> 8 <= t1 <= 1024 ->
  rc2_from_key [r] t1 = rc2_from_key [r'] t1 -> r = r'.
Proof.
  intros H H' Ht E. apply one_same in E; try lia; try now apply reps_bytes.
  unfold one_tail in E. set (s := (128 - N.to_nat ((t1 + 7) / 8))%nat) in *.
  apply cons_inj in E as [E1 E2]. destruct (Nat.eq_dec s 127) as [Es|Es].
  - assert (T : t1 = 8) by (unfold s in Es; lia). rewrite T in E1.
    change (255 mod 2 ^ (8 + 8 - 8 * ((8 + 7) / 8))) with (N.ones 8) in E1.
    rewrite !N.land_ones in E1. change (2 ^ 8) with 256 in E1.
    rewrite !N.mod_small in E1 by now apply iter_fold_lt, reps_bytes.
    apply pi_at_inj in E1; try now apply iter_fold_lt, reps_bytes.
    now apply (reps_iter s).
  - assert (Hs : (s < 127)%nat) by (unfold s in *; lia).
    replace (127 - s)%nat with (S (126 - s)) in E2 by lia. cbn [seq map] in E2.
    apply cons_inj in E2 as [E2 _]. now apply (reps_iter (S s)).
Qed.

Lemma one_byte_fourteen : exists reps, length reps = 14%nat /\ NoDup reps /\ bytes reps /\
  (forall k t1, k < 256 -> 1 <= t1 <= 768 ->
     exists r, In r reps /\ rc2_from_key [k] t1 = rc2_from_key [r] t1) /\
  (forall r r' t1, In r reps -> In r' reps -> 8 <= t1 <= 1024 ->
     rc2_from_key [r] t1 = rc2_from_key [r'] t1 -> r = r').
Proof.
  exists one_reps. split; [reflexivity|]. split.
  { repeat constructor; cbn [In]; intuition discriminate. }
  split; [repeat constructor|]. split; [exact one_reps_reached|exact one_reps_distinct].
Qed.

Lemma few_bits_collide : exists key key' t1, length key = 2%nat /\ length key' = 2%nat /\
  bytes key /\ bytes key' /\ 8 <= t1 <= 15 /\ key <> key' /\ rc2_from_key key t1 = rc2_from_key key' t1.
Proof.
  exists [0; 0], [133; 1], 8. do 2 (split; [reflexivity|]). do 2 (split; [repeat constructor|]).
  split; [lia|]. split; [discriminate|]. vm_compute. reflexivity.
Qed.
