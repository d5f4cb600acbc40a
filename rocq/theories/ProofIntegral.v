(** * The integral property of three AES rounds *)
From Coq Require Import ZifyBool ZifyNat ZifyN FinFun Permutation.
From Verif Require Import Base BaseLemmas ModelAes SpecWord SpecAes SpecTrail SpecIntegral
  ProofAesField ProofAes ProofAesKey ProofBranch ProofTrail.
Ltac Zify.zify_post_hook ::= idtac.
Local Open Scope N_scope.
Local Open Scope list_scope.

(** ** Families of 256 bytes *)

Definition small (f : N -> N) : Prop := forall v, v < 256 -> f v < 256.
Definition perm (f : N -> N) : Prop := forall v v', v < 256 -> v' < 256 -> f v = f v' -> v = v'.
Definition const (f : N -> N) : Prop := forall v v', v < 256 -> v' < 256 -> f v = f v'.
Definition kind (b : bool) (f : N -> N) : Prop := small f /\ if b then perm f else const f.

Lemma xor_cancel_r a b c : N.lxor a c = N.lxor b c -> a = b.
Proof.
  intros H. rewrite <- (N.lxor_0_r a), <- (N.lxor_0_r b), <- (N.lxor_nilpotent c), <- !N.lxor_assoc.
  now rewrite H.
Qed.

Lemma kind_sub b f : kind b f -> kind b (fun v => sub_byte (f v)).
Proof.
  intros [Hs H]. split; [intros v Hv; apply sub_byte_lt; auto|]. destruct b; intros v v' Hv Hv'.
  - intros E. apply H; auto. rewrite <- (inv_sub_sub (f v)), <- (inv_sub_sub (f v')) by auto. now rewrite E.
  - now rewrite (H v v').
Qed.

Lemma kind_gmul m b f : 0 < m < 256 -> kind b f -> kind b (fun v => gmul m (f v)).
Proof.
  intros Hm [Hs H]. split; [intros v Hv; apply gmul_lt; [lia|auto]|]. destruct b; intros v v' Hv Hv'.
  - intros E. apply H; auto. apply N.lxor_eq. destruct (N.eq_dec (N.lxor (f v) (f v')) 0) as [|Hn]; [assumption|].
    exfalso. apply (single m (N.lxor (f v) (f v'))); auto.
    + apply lxor_byte; apply Hs; assumption.
    + rewrite gmul_linear, E. apply N.lxor_nilpotent.
  - now rewrite (H v v').
Qed.

Lemma kind_xor b b' f g : kind b f -> kind b' g -> andb b b' = false -> kind (orb b b') (fun v => N.lxor (f v) (g v)).
Proof.
  intros [Hf Pf] [Hg Pg] Hb. split; [intros v Hv; apply lxor_byte; [now apply Hf|now apply Hg]|].
  destruct b, b'; try discriminate; cbn [orb]; intros v v' Hv Hv'.
  - intros E. apply Pf; auto. rewrite (Pg v v') in E by assumption. now apply xor_cancel_r in E.
  - intros E. apply Pg; auto. rewrite (Pf v v'), !(N.lxor_comm (f v')) in E by assumption. now apply xor_cancel_r in E.
  - now rewrite (Pf v v'), (Pg v v').
Qed.

Lemma kind_key b f k : k < 256 -> kind b f -> kind b (fun v => N.lxor (f v) k).
Proof.
  intros Hk H. pose proof (kind_xor b false f (fun _ => k) H) as Q. rewrite orb_false_r in Q. apply Q.
  - split; [intros v _; exact Hk|]. intros v v' _ _. reflexivity.
  - apply andb_false_r.
Qed.

Definition sum (f : N -> N) : N := fold_left N.lxor (map f all_bytes) 0.

Lemma fold_lxor_acc l a : fold_left N.lxor l a = N.lxor a (fold_left N.lxor l 0).
Proof.
  revert a. induction l as [|x l IH]; intros a; cbn [fold_left]; [now rewrite N.lxor_0_r|].
  rewrite IH, (IH (N.lxor 0 x)), N.lxor_0_l, N.lxor_assoc. reflexivity.
Qed.

Lemma fold_lxor_perm l l' : Permutation l l' -> forall a, fold_left N.lxor l a = fold_left N.lxor l' a.
Proof.
  induction 1 as [|x l l' _ IH|x y l|l1 l2 l3 _ IH1 _ IH2]; intros a; cbn [fold_left]; auto.
  - now rewrite !N.lxor_assoc, (N.lxor_comm x).
  - now rewrite IH1.
Qed.

Lemma all_bytes_nodup : NoDup all_bytes.
Proof. apply Injective_map_NoDup; [intros a b E; lia|apply seq_NoDup]. Qed.

Lemma sum_perm f : kind true f -> sum f = 0.
Proof.
  intros [Hs Hp]. unfold sum. rewrite <- (fold_lxor_perm all_bytes).
  - vm_compute. reflexivity.
  - symmetry. apply NoDup_Permutation_bis.
    + assert (Q : forall l, NoDup l -> (forall x, In x l -> x < 256) -> NoDup (map f l)).
      { induction 1 as [|x l Hx Hl IH]; intros H; cbn [map]; constructor.
        - intros Hin. apply in_map_iff in Hin as (y & E & Hy). apply Hx.
          rewrite (Hp x y); auto using in_eq, in_cons.
        - apply IH. intros y Hy. apply H. now right. }
      apply Q; [apply all_bytes_nodup|apply all_bytes_lt].
    + rewrite map_length. reflexivity.
    + intros x Hx. apply in_map_iff in Hx as (v & <- & Hv). apply in_all_bytes, Hs, all_bytes_lt, Hv.
Qed.

Lemma sum_const k : sum (fun _ => k) = 0.
Proof.
  unfold sum. assert (Q : forall l, fold_left N.lxor (map (fun _ : N => k) (l ++ l)) 0 = 0).
  { intros l. rewrite map_app, fold_left_app, fold_lxor_acc. apply N.lxor_nilpotent. }
  assert (E : map (fun _ : N => k) all_bytes = map (fun _ => k) (firstn 128 all_bytes ++ firstn 128 all_bytes)) by reflexivity.
  rewrite E. apply Q.
Qed.

Lemma sum_xor f g : sum (fun v => N.lxor (f v) (g v)) = N.lxor (sum f) (sum g).
Proof.
  unfold sum. generalize all_bytes. induction l as [|x l IH]; [reflexivity|]. cbn [map fold_left].
  rewrite !N.lxor_0_l, (fold_lxor_acc _ (N.lxor (f x) (g x))), (fold_lxor_acc _ (f x)), (fold_lxor_acc _ (g x)), IH.
  apply lxor_swap.
Qed.

(** ** One round *)

Definition kinds (K : nat -> nat -> bool) (S : N -> list N) : Prop :=
  forall r c, (r < 4)%nat -> (c < 4)%nat -> kind (K r c) (fun v => at_ (S v) r c).

(** At most one varying byte. *)
Definition at_most_one (a b c d : bool) : bool :=
  negb (andb a b) && negb (andb (orb a b) c) && negb (andb (orb (orb a b) c) d).
Definition shifted (K : nat -> nat -> bool) (r c : nat) : bool := K r ((c + r) mod 4)%nat.
Definition any (K : nat -> nat -> bool) (c : nat) : bool :=
  orb (orb (orb (shifted K 0 c) (shifted K 1 c)) (shifted K 2 c)) (shifted K 3 c).

Lemma at_sub s r c : length s = 16%nat -> (r < 4)%nat -> (c < 4)%nat -> at_ (sub_bytes s) r c = sub_byte (at_ s r c).
Proof.
  intros L Hr Hc. unfold at_, sub_bytes. rewrite (nth_indep _ 0 (sub_byte 0)) by (rewrite map_length; lia).
  apply map_nth.
Qed.

Lemma at_key k s r c : (r < 4)%nat -> (c < 4)%nat -> at_ (add_round_key k s) r c = N.lxor (at_ s r c) (at_ k r c).
Proof. intros Hr Hc. unfold at_, add_round_key. four r Hr; four c Hc; reflexivity. Qed.

Lemma at_round k s r c : length s = 16%nat -> (r < 4)%nat -> (c < 4)%nat ->
  at_ (round_step k s) r c =
    let b i := sub_byte (at_ s i ((c + i) mod 4)) in
    N.lxor (N.lxor (N.lxor (N.lxor (gmul 2 (b r)) (gmul 3 (b ((r + 1) mod 4)%nat)))
      (gmul 1 (b ((r + 2) mod 4)%nat))) (gmul 1 (b ((r + 3) mod 4)%nat))) (at_ k r c).
Proof.
  intros L Hr Hc. unfold round_step. rewrite at_key by assumption. unfold mix_columns, mix_with.
  rewrite at_make by assumption. unfold shift_rows.
  assert (M : forall n, (n mod 4 < 4)%nat) by (intros n; apply Nat.mod_upper_bound; discriminate).
  rewrite !at_make by auto. rewrite !at_sub by auto. reflexivity.
Qed.

Lemma kind_ext b f g : (forall v, v < 256 -> f v = g v) -> kind b g -> kind b f.
Proof.
  intros E [Hs H]. split; [intros v Hv; rewrite E by exact Hv; auto|].
  destruct b; intros v v' Hv Hv'; rewrite !E by assumption; auto.
Qed.

Lemma round_kinds K S k : (forall v, v < 256 -> wf16 (S v)) -> bytes k -> kinds K S ->
  (forall c, (c < 4)%nat -> at_most_one (shifted K 0 c) (shifted K 1 c) (shifted K 2 c) (shifted K 3 c) = true) ->
  kinds (fun _ c => any K c) (fun v => round_step k (S v)).
Proof.
  intros HS Hk HK H1 r c Hr Hc. specialize (H1 c Hc).
  apply (kind_ext _ _ (fun v => let b i := sub_byte (at_ (S v) i ((c + i) mod 4)) in
    N.lxor (N.lxor (N.lxor (N.lxor (gmul 2 (b r)) (gmul 3 (b ((r + 1) mod 4)%nat)))
      (gmul 1 (b ((r + 2) mod 4)%nat))) (gmul 1 (b ((r + 3) mod 4)%nat))) (at_ k r c))).
  { intros v Hv. apply at_round; auto. now destruct (HS v Hv). }
  cbv zeta. apply kind_key; [now apply at_lt|].
  remember (fun i v => sub_byte (at_ (S v) i ((c + i) mod 4))) as g eqn:Eg.
  assert (B : forall i, (i < 4)%nat -> kind (shifted K i c) (g i)).
  { intros i Hi. rewrite Eg. apply kind_sub. unfold shifted. apply HK; [exact Hi|]. apply Nat.mod_upper_bound. discriminate. }
  assert (Goal' : kind (any K c) (fun v => N.lxor (N.lxor (N.lxor (gmul 2 (g r v)) (gmul 3 (g ((r + 1) mod 4)%nat v)))
    (gmul 1 (g ((r + 2) mod 4)%nat v))) (gmul 1 (g ((r + 3) mod 4)%nat v)))); [|rewrite Eg in Goal'; exact Goal'].
  clear Eg.
  pose proof (B 0%nat ltac:(lia)) as B0. pose proof (B 1%nat ltac:(lia)) as B1.
  pose proof (B 2%nat ltac:(lia)) as B2. pose proof (B 3%nat ltac:(lia)) as B3. clear B. unfold any.
  assert (G : forall m b f, 0 < m < 4 -> kind b f -> kind b (fun v => gmul m (f v))).
  { intros m b f Hm. apply kind_gmul. lia. }
  assert (X : forall a0 a1 a2 a3 f0 f1 f2 f3, kind a0 f0 -> kind a1 f1 -> kind a2 f2 -> kind a3 f3 ->
    at_most_one a0 a1 a2 a3 = true ->
    kind (orb (orb (orb a0 a1) a2) a3)
      (fun v => N.lxor (N.lxor (N.lxor (gmul 2 (f0 v)) (gmul 3 (f1 v))) (gmul 1 (f2 v))) (gmul 1 (f3 v)))).
  { intros a0 a1 a2 a3 f0 f1 f2 f3 F0 F1 F2 F3 M. unfold at_most_one in M.
    apply andb_prop in M as [M M3]. apply andb_prop in M as [M1 M2].
    apply negb_true_iff in M1, M2, M3.
    apply (kind_xor (orb (orb a0 a1) a2) a3
      (fun v => N.lxor (N.lxor (gmul 2 (f0 v)) (gmul 3 (f1 v))) (gmul 1 (f2 v))) (fun v => gmul 1 (f3 v))); auto.
    2: { apply G; [lia|exact F3]. }
    apply (kind_xor (orb a0 a1) a2
      (fun v => N.lxor (gmul 2 (f0 v)) (gmul 3 (f1 v))) (fun v => gmul 1 (f2 v))); auto.
    2: { apply G; [lia|exact F2]. }
    apply (kind_xor a0 a1 (fun v => gmul 2 (f0 v)) (fun v => gmul 3 (f1 v))); auto; apply G; auto; lia. }
  assert (P : forall a0 a1 a2 a3, at_most_one a0 a1 a2 a3 = at_most_one a1 a2 a3 a0 /\
    orb (orb (orb a0 a1) a2) a3 = orb (orb (orb a1 a2) a3) a0) by (intros [] [] [] []; auto).
  destruct r as [|[|[|[|r]]]]; [| | | |lia]; cbn [Nat.add Nat.modulo Nat.divmod Nat.sub fst snd].
  - exact (X _ _ _ _ (g 0%nat) (g 1%nat) (g 2%nat) (g 3%nat) B0 B1 B2 B3 H1).
  - rewrite (proj2 (P _ _ _ _)). rewrite (proj1 (P _ _ _ _)) in H1.
    exact (X _ _ _ _ (g 1%nat) (g 2%nat) (g 3%nat) (g 0%nat) B1 B2 B3 B0 H1).
  - rewrite (proj2 (P _ _ _ _)), (proj2 (P _ _ _ _)). rewrite (proj1 (P _ _ _ _)), (proj1 (P _ _ _ _)) in H1.
    exact (X _ _ _ _ (g 2%nat) (g 3%nat) (g 0%nat) (g 1%nat) B2 B3 B0 B1 H1).
  - rewrite (proj2 (P _ _ _ _)), (proj2 (P _ _ _ _)), (proj2 (P _ _ _ _)).
    rewrite (proj1 (P _ _ _ _)), (proj1 (P _ _ _ _)), (proj1 (P _ _ _ _)) in H1.
    exact (X _ _ _ _ (g 3%nat) (g 0%nat) (g 1%nat) (g 2%nat) B3 B0 B1 B2 H1).
Qed.

(** A round on states in which every byte varies. *)
Lemma round_sum S k r c : (forall v, v < 256 -> wf16 (S v)) -> kinds (fun _ _ => true) S -> (r < 4)%nat -> (c < 4)%nat ->
  sum (fun v => at_ (round_step k (S v)) r c) = 0.
Proof.
  intros HS HK Hr Hc.
  assert (E : sum (fun v => at_ (round_step k (S v)) r c) = sum (fun v => let b i := sub_byte (at_ (S v) i ((c + i) mod 4)) in
    N.lxor (N.lxor (N.lxor (N.lxor (gmul 2 (b r)) (gmul 3 (b ((r + 1) mod 4)%nat)))
      (gmul 1 (b ((r + 2) mod 4)%nat))) (gmul 1 (b ((r + 3) mod 4)%nat))) (at_ k r c))).
  { unfold sum. f_equal. apply map_ext_in. intros v Hv. apply at_round; auto.
    destruct (HS v (all_bytes_lt v Hv)); assumption. }
  rewrite E. cbv zeta. clear E. rewrite !sum_xor, sum_const.
  assert (M : forall n, (n mod 4 < 4)%nat) by (intros n; apply Nat.mod_upper_bound; discriminate).
  rewrite !sum_perm; [reflexivity|..]; apply kind_gmul; try lia; apply kind_sub; apply (HK _ _); auto.
Qed.

(** ** The rounds of the cipher *)

Section Key.
  Context (nk : nat) (key : list N).
  Let w := key_words nk key (4 * (nk + 7)).

  Lemma position_of i : (i < 16)%nat -> exists r c, (r < 4)%nat /\ (c < 4)%nat /\ i = (r + 4 * c)%nat.
  Proof using Type.
    intros H. exists (i mod 4)%nat, (i / 4)%nat. split; [apply Nat.mod_upper_bound; discriminate|].
    split; [apply Nat.div_lt_upper_bound; lia|]. pose proof (Nat.div_mod i 4). lia.
  Qed.

  Definition only (i : nat) (r c : nat) : bool := (r + 4 * c =? i)%nat.

  Lemma lambda_kinds S i : (forall v, v < 256 -> wf16 (S v)) -> (i < 16)%nat -> lambda_set S i -> kinds (only i) S.
  Proof using Type.
    intros HS Hi H r c Hr Hc. split.
    - intros v Hv. apply at_lt. now destruct (HS v Hv).
    - unfold only, at_. destruct (Nat.eqb_spec (r + 4 * c) i) as [E|E].
      + intros v v' Hv Hv'. rewrite E. apply (H v v' Hv Hv').
      + intros v v' Hv Hv'. apply (H v v' Hv Hv'); [lia|exact E].
  Qed.

  Lemma two_rounds_kinds S i : (4 <= nk)%nat -> length key = (4 * nk)%nat -> bytes key -> (i < 16)%nat ->
    (forall v, v < 256 -> wf16 (S v)) -> lambda_set S i -> forall k k', bytes k -> bytes k' ->
    kinds (fun _ _ => true) (fun v => round_step k' (round_step k (S v))).
  Proof using Type.
    intros Hnk Hl Hb Hi HS HL k k' Hk Hk'.
    assert (K1 : kinds (fun _ c => any (only i) c) (fun v => round_step k (S v))).
    { apply round_kinds; auto.
      - now apply lambda_kinds.
      - intros c Hc. do 16 (destruct i as [|i]; [four c Hc; reflexivity|]). lia. }
    assert (W1 : forall v, v < 256 -> wf16 (round_step k (S v))) by (intros; apply round_step_wf; auto).
    pose proof (round_kinds _ _ k' W1 Hk' K1) as K2.
    intros r c Hr Hc. assert (Q : any (fun _ c => any (only i) c) c = true).
    { do 16 (destruct i as [|i]; [four c Hc; reflexivity|]). lia. }
    rewrite <- Q. apply K2; auto. clear - Hi. intros c Hc.
    do 16 (destruct i as [|i]; [four c Hc; reflexivity|]). lia.
  Qed.

  Lemma integral_two X r i j : (4 <= nk)%nat -> length key = (4 * nk)%nat -> bytes key ->
    (forall v, v < 256 -> length (X v) = 16%nat /\ bytes (X v)) -> (1 <= r)%nat -> (r + 2 <= nk + 6)%nat ->
    (i < 16)%nat -> (j < 16)%nat -> lambda_set (fun v => sbox_input w (X v) r) i ->
    forall v v', v < 256 -> v' < 256 ->
      nth j (sbox_input w (X v) (r + 2)) 0 = nth j (sbox_input w (X v') (r + 2)) 0 -> v = v'.
  Proof using Type.
    intros Hnk Hl Hb HX Hr1 Hr2 Hi Hj HL v v' Hv Hv'.
    replace (r + 2)%nat with (S (S r)) by lia. unfold w. rewrite !sbox_input_S by lia. fold w.
    destruct (position_of j Hj) as (a & b & Ha & Hc & ->).
    assert (HS : forall v, v < 256 -> wf16 (sbox_input w (X v) r)).
    { intros u Hu. apply sbox_input_wf; auto; [|lia]. apply (HX u Hu). }
    pose proof (two_rounds_kinds (fun v => sbox_input w (X v) r) i Hnk Hl Hb Hi HS HL
      (round_key w r) (round_key w (S r))) as Q.
    destruct (Q (proj2 (rk_wf nk key r Hnk Hl Hb ltac:(lia))) (proj2 (rk_wf nk key (S r) Hnk Hl Hb ltac:(lia))) a b Ha Hc)
      as [_ P]. exact (P v v' Hv Hv').
  Qed.

  Lemma integral_three X r i j : (4 <= nk)%nat -> length key = (4 * nk)%nat -> bytes key ->
    (forall v, v < 256 -> length (X v) = 16%nat /\ bytes (X v)) -> (1 <= r)%nat -> (r + 3 <= nk + 6)%nat ->
    (i < 16)%nat -> (j < 16)%nat -> lambda_set (fun v => sbox_input w (X v) r) i ->
    byte_sum (fun v => sbox_input w (X v) (r + 3)) j = 0.
  Proof using Type.
    intros Hnk Hl Hb HX Hr1 Hr2 Hi Hj HL.
    destruct (position_of j Hj) as (a & b & Ha & Hc & ->).
    assert (HS : forall v, v < 256 -> wf16 (sbox_input w (X v) r)).
    { intros u Hu. apply sbox_input_wf; auto; [|lia]. apply (HX u Hu). }
    pose proof (two_rounds_kinds (fun v => sbox_input w (X v) r) i Hnk Hl Hb Hi HS HL
      (round_key w r) (round_key w (S r)) (proj2 (rk_wf nk key r Hnk Hl Hb ltac:(lia)))
      (proj2 (rk_wf nk key (S r) Hnk Hl Hb ltac:(lia)))) as K.
    pose proof (rk_wf nk key r Hnk Hl Hb ltac:(lia)) as W1.
    pose proof (rk_wf nk key (S r) Hnk Hl Hb ltac:(lia)) as W2. fold w in W1, W2.
    assert (W : forall v, v < 256 -> wf16 (round_step (round_key w (S r)) (round_step (round_key w r) (sbox_input w (X v) r)))).
    { intros v Hv. apply round_step_wf; [apply W2|]. apply round_step_wf; [apply W1|]. auto. }
    rewrite <- (round_sum _ (round_key w (S (S r))) a b W K Ha Hc).
    unfold byte_sum, sum. f_equal. apply map_ext. intros v.
    replace (r + 3)%nat with (S (S (S r))) by lia. rewrite !sbox_input_S by lia. reflexivity.
  Qed.

  Lemma lambda_plaintexts x i : length x = 16%nat -> (i < 16)%nat ->
    lambda_set (fun v => sbox_input w (put x i v) 1) i.
  Proof using Type.
    intros L Hi v v' Hv Hv'. unfold sbox_input. cbn [Nat.sub seq fold_left].
    assert (E : forall s j, (j < 16)%nat -> nth j (add_round_key (round_key w 0) s) 0 = N.lxor (nth j s 0) (nth j (round_key w 0) 0)).
    { intros s j Hj. destruct (position_of j Hj) as (a & b & Ha & Hc & ->). apply (at_key (round_key w 0) s a b Ha Hc). }
    assert (P1 : forall u, nth i (put x i u) 0 = u).
    { intros u. unfold put. rewrite app_nth2; rewrite firstn_length; [|lia]. now replace (i - Nat.min i (length x))%nat with 0%nat by lia. }
    assert (P2 : forall u j, j <> i -> nth j (put x i u) 0 = nth j x 0).
    { intros u j Hj. unfold put. destruct (Nat.lt_ge_cases j i).
      - rewrite app_nth1 by (rewrite firstn_length; lia). now rewrite nth_firstn'.
      - rewrite app_nth2; rewrite firstn_length; [|lia]. destruct (j - Nat.min i (length x))%nat eqn:D; [lia|].
        cbn [nth]. rewrite nth_skipn'. f_equal. lia. }
    split.
    - rewrite !E by exact Hi. rewrite !P1. intros Q. now apply xor_cancel_r in Q.
    - intros j Hj Hn. rewrite !E by exact Hj. now rewrite !P2.
  Qed.

  Lemma plaintext_wf x i : length x = 16%nat -> bytes x -> (i < 16)%nat ->
    forall v, v < 256 -> length (put x i v) = 16%nat /\ bytes (put x i v).
  Proof using Type.
    intros L B Hi v Hv. unfold put. split.
    - rewrite app_length. cbn [length]. rewrite firstn_length, skipn_length. lia.
    - apply Forall_app. split; [now apply Forall_firstn|]. constructor; [exact Hv|now apply Forall_skipn].
  Qed.
End Key.
