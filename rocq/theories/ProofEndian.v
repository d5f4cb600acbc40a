From Coq Require Import ZifyBool ZifyNat ZifyN.
From Verif Require Import Base BaseLemmas SpecEndian.

Lemma to_le_le_bytes k v : to_le k v = le_bytes k v.
Proof.
  revert v; induction k; intros v; [reflexivity|].
  unfold le_bytes. cbn [to_le seq map]. f_equal.
  - now rewrite N.pow_0_r, N.div_1_r.
  - rewrite IHk. unfold le_bytes. rewrite <- seq_shift, map_map. apply map_ext. intros i.
    rewrite pow256_S. rewrite N.div_div; auto. discriminate. apply N.pow_nonzero. discriminate.
Qed.

Lemma to_be_be_bytes k v : to_be k v = be_bytes k v.
Proof.
  unfold to_be. rewrite to_le_le_bytes. apply (list_ext 0).
  - unfold le_bytes, be_bytes. now rewrite rev_length, !map_length.
  - unfold le_bytes, be_bytes. rewrite rev_length, map_length, seq_length. intros i Hi.
    rewrite rev_nth by (rewrite map_length, seq_length; lia). rewrite map_length, seq_length.
    rewrite !(nth_indep _ 0 (v / 256 ^ N.of_nat 0 mod 256)) by (rewrite map_length, seq_length; lia).
    rewrite (map_nth (fun i => v / 256 ^ N.of_nat i mod 256)).
    rewrite (nth_indep _ _ (v / 256 ^ N.of_nat (k - 1 - 0) mod 256)) by (rewrite map_length, seq_length; lia).
    rewrite (map_nth (fun i => v / 256 ^ N.of_nat (k - 1 - i) mod 256)).
    rewrite !seq_nth by lia. do 4 f_equal. lia.
Qed.

Lemma from_le_le_num l : from_le l = le_num l.
Proof. reflexivity. Qed.

Lemma from_be_be_num l : from_be l = be_num l.
Proof.
  unfold from_be, be_num. rewrite <- (rev_involutive l) at 2. rewrite <- fold_left_rev_right.
  rewrite rev_involutive. induction (rev l); cbn [from_le fold_right]; auto. rewrite IHl0. lia.
Qed.

Lemma groups_length {A} k (l : list A) : length (groups k l) = (length l / k)%nat.
Proof. unfold groups. now rewrite map_length, seq_length. Qed.

Lemma concat_groups {A} k n (l : list A) : (0 < k)%nat -> length l = (n * k)%nat ->
  concat (groups k l) = l /\ length (groups k l) = n /\ Forall (fun c => length c = k) (groups k l).
Proof.
  intros Hk Hl. assert (Hd : (length l / k)%nat = n) by (rewrite Hl; apply Nat.div_mul; lia).
  rewrite groups_length. unfold groups. rewrite Hd. split; [now apply concat_pieces|].
  split; auto. apply Forall_forall. intros c Hc. apply in_map_iff in Hc as (i & <- & Hi).
  apply in_seq in Hi. rewrite firstn_length, skipn_length. nia.
Qed.

Lemma groups_unique {A} k (l : list A) cs : (0 < k)%nat ->
  concat cs = l -> Forall (fun c => length c = k) cs -> groups k l = cs.
Proof.
  intros Hk Hc Hf. pose proof (concat_length_const _ _ Hf) as Hl. rewrite Hc in Hl.
  destruct (concat_groups k (length cs) l Hk Hl) as (H1 & H2 & H3).
  destruct (chunks_unique k (groups k l) cs [] []); auto.
  rewrite !app_nil_r. congruence.
Qed.

Lemma chunks_exact_groups {A} k n (l : list A) : (0 < k)%nat -> length l = (n * k)%nat ->
  chunks_exact k l = Ok (groups k l, []).
Proof.
  intros Hk Hl. rewrite (chunks_exact_pieces k n) by auto. unfold groups. do 4 f_equal.
  rewrite Hl. symmetry. apply Nat.div_mul. lia.
Qed.

Lemma groups_app {A} k n (l1 l2 : list A) : (0 < k)%nat -> length l1 = (n * k)%nat ->
  (exists m, length l2 = (m * k)%nat) -> groups k (l1 ++ l2) = groups k l1 ++ groups k l2.
Proof.
  intros Hk H1 [m H2]. destruct (concat_groups k n l1 Hk H1) as (A1 & A2 & A3).
  destruct (concat_groups k m l2 Hk H2) as (B1 & B2 & B3).
  apply groups_unique; auto. now rewrite concat_app, A1, B1. now apply Forall_app.
Qed.
