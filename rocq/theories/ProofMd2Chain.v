(** * MD2: the mixing of a block and the checksum lose nothing *)
From Coq Require Import ZifyBool ZifyNat ZifyN.
From Verif Require Import Base BaseLemmas ModelMd SpecEndian SpecMd SpecMd2Chain ProofMd2.
Local Open Scope N_scope.
Local Open Scope list_scope.

(** ** The table is a permutation *)

Lemma md2_s_inverse : forallb (fun a => nth (N.to_nat (md2_s a))
    (map (fun c => match position (fun s => s =? c) MD2_S with Some i => N.of_nat i | None => 0 end)
      (map N.of_nat (seq 0 256))) 0 =? a) (map N.of_nat (seq 0 256)) = true.
Proof. vm_compute. reflexivity. Qed.

Lemma md2_s_inj a b : a < 256 -> b < 256 -> md2_s a = md2_s b -> a = b.
Proof.
  intros Ha Hb E. pose proof md2_s_inverse as H. rewrite forallb_forall in H.
  assert (Q : forall x, x < 256 -> In x (map N.of_nat (seq 0 256))).
  { intros x Hx. apply in_map_iff. exists (N.to_nat x). split; [lia|]. apply in_seq. lia. }
  pose proof (H a (Q a Ha)) as H1. pose proof (H b (Q b Hb)) as H2.
  apply N.eqb_eq in H1, H2. rewrite E in H1. rewrite <- H1. exact H2.
Qed.

Lemma lxor_cancel_r a b c : N.lxor a c = N.lxor b c -> a = b.
Proof.
  intros H. rewrite <- (N.lxor_0_r a), <- (N.lxor_0_r b), <- (N.lxor_nilpotent c), <- !N.lxor_assoc.
  now rewrite H.
Qed.
Lemma lxor_cancel_l a b c : N.lxor c a = N.lxor c b -> a = b.
Proof. rewrite !(N.lxor_comm c). apply lxor_cancel_r. Qed.

Lemma cons_inj {A} (a a' : A) l l' : a :: l = a' :: l' -> a = a' /\ l = l'.
Proof. intros H. now injection H. Qed.

Lemma app_inj_length {A} (a a' b b' : list A) : length a = length a' -> a ++ b = a' ++ b' -> a = a' /\ b = b'.
Proof.
  revert a'. induction a as [|x a IH]; intros [|x' a'] L E; try discriminate; auto.
  injection L as L. injection E as -> E. destruct (IH a' L E) as [-> ->]. auto.
Qed.

(** ** The mixing *)

Lemma round_last x : forall t d, snd (md2_round x t) = match x with [] => t | _ => last (fst (md2_round x t)) d end.
Proof.
  induction x as [|v x IH]; intros t d; [reflexivity|]. cbn [md2_round].
  specialize (IH (N.lxor v (md2_s t)) d). destruct (md2_round x _) as [y u] eqn:E. cbn [fst snd] in *.
  destruct x; [|destruct y].
  - cbn in E. injection E as <- <-. reflexivity.
  - cbn in E. destruct (md2_round x _) in E. discriminate E.
  - exact IH.
Qed.

Lemma round_inj x : forall x' t, length x = length x' -> fst (md2_round x t) = fst (md2_round x' t) -> x = x'.
Proof.
  induction x as [|v x IH]; intros [|v' x'] t L E; try discriminate L; [reflexivity|].
  cbn [md2_round] in E. injection L as L. specialize (IH x').
  destruct (md2_round x (N.lxor v (md2_s t))) as [y u] eqn:E1.
  destruct (md2_round x' (N.lxor v' (md2_s t))) as [y' u'] eqn:E2. cbn [fst] in E. apply cons_inj in E as [Ev Ey].
  apply lxor_cancel_r in Ev. subst v' y'. f_equal.
  apply (IH (N.lxor v (md2_s t)) L). rewrite E1, E2. reflexivity.
Qed.

(** All bytes but the first are determined whatever [t] was. *)
Lemma round_tail v x v' x' t t' : length x = length x' ->
  fst (md2_round (v :: x) t) = fst (md2_round (v' :: x') t') -> x = x'.
Proof.
  intros L E. cbn [md2_round] in E.
  destruct (md2_round x (N.lxor v (md2_s t))) as [y u] eqn:E1.
  destruct (md2_round x' (N.lxor v' (md2_s t'))) as [y' u'] eqn:E2. cbn [fst] in E. apply cons_inj in E as [Ev Ey].
  subst y'. rewrite <- Ev in E2. apply (round_inj x x' (N.lxor v (md2_s t)) L). rewrite E1, E2. reflexivity.
Qed.

Lemma round_length x t : length (fst (md2_round x t)) = length x.
Proof.
  revert t. induction x as [|v x IH]; intros t; [reflexivity|]. cbn [md2_round].
  specialize (IH (N.lxor v (md2_s t))). destruct (md2_round x _). cbn [fst length] in *. now rewrite IH.
Qed.

Definition after (n : nat) (x : list N) : list N * N := fold_left md2_pass_j (seq 0 n) (x, 0).

Lemma after_S n x : after (S n) x = md2_pass_j (after n x) n.
Proof. unfold after. now rewrite seq_S, fold_left_app. Qed.

Lemma after_length n x : length (fst (after n x)) = length x.
Proof.
  induction n as [|n IH]; [reflexivity|]. rewrite after_S. destruct (after n x) as [y t]. unfold md2_pass_j.
  pose proof (round_length y t) as L. destruct (md2_round y t). cbn [fst] in *. lia.
Qed.

(** [t] after a pass is known from the bytes. *)
Lemma after_t n x : x <> [] -> snd (after (S n) x) = (last (fst (after (S n) x)) 0 + N.of_nat n) mod 256.
Proof.
  intros Hx. rewrite after_S. pose proof (after_length n x) as L. destruct (after n x) as [y t]. unfold md2_pass_j.
  pose proof (round_last y t 0) as Q. destruct (md2_round y t) as [z u]. cbn [fst snd] in *.
  destruct y; [destruct x; [congruence|discriminate L]|]. now rewrite Q.
Qed.

Lemma after_inj n x : forall x', (2 <= length x)%nat -> length x = length x' ->
  fst (after n x) = fst (after n x') -> x = x'.
Proof.
  induction n as [|n IH]; intros x' L2 L E; [exact E|]. apply IH; auto. rewrite !after_S in E.
  pose proof (after_length n x) as L1. pose proof (after_length n x') as L1'.
  assert (T : last (fst (after n x)) 0 = last (fst (after n x')) 0 -> snd (after n x) = snd (after n x')).
  { destruct n as [|n]; [reflexivity|]. intros Q.
    rewrite !after_t by (intros ->; cbn in L2, L; lia). now rewrite Q. }
  destruct (after n x) as [y t]. destruct (after n x') as [y' t']. cbn [fst snd] in *. unfold md2_pass_j in E.
  destruct y as [|v y], y' as [|v' y']; cbn [length] in *; try lia.
  assert (Ey : y = y').
  { apply (round_tail v y v' y' t t'); [lia|].
    destruct (md2_round (v :: y) t), (md2_round (v' :: y') t'). exact E. }
  subst y'. destruct y as [|w y]; [cbn [length] in *; lia|].
  rewrite T in E by reflexivity. apply (round_inj (v :: w :: y) (v' :: w :: y) t'); [reflexivity|].
  destruct (md2_round (v :: w :: y) t'), (md2_round (v' :: w :: y) t'). exact E.
Qed.

Lemma block_inj x x' c c' : length x = 48%nat -> length x' = 48%nat -> length c = 16%nat -> length c' = 16%nat ->
  md2_block x c = md2_block x' c' -> c = c' /\ firstn 16 x = firstn 16 x'.
Proof.
  intros Lx Lx' Lc Lc' E. unfold md2_block in E. apply (after_inj 18) in E.
  - apply (f_equal (firstn 32)) in E as E1.
    assert (F : forall (a b z : list N), length a = 16%nat -> length b = 16%nat -> firstn 32 (a ++ b ++ z) = a ++ b).
    { intros a b z La Lb. rewrite app_assoc, firstn_app, firstn_all2 by (rewrite app_length; lia).
      rewrite app_length, La, Lb. cbn [Nat.add Nat.sub firstn]. apply app_nil_r. }
    rewrite !F in E1 by (auto; rewrite firstn_length; lia).
    apply app_inj_length in E1 as [E1 E2]; [auto|]; now rewrite !firstn_length, Lx, Lx'.
  - rewrite !app_length, firstn_length. lia.
  - rewrite !app_length, !firstn_length, !map_length. lia.
Qed.

(** ** The checksum *)

Lemma checksum_block_inj c : forall b b' l, length c = length b -> length c = length b' ->
  bytes b -> bytes b' -> bytes c -> l < 256 ->
  fst (md2_checksum_block c b l) = fst (md2_checksum_block c b' l) -> b = b'.
Proof.
  induction c as [|cj c IH]; intros [|x b] [|x' b'] l L L' Hb Hb' Hc Hl E; try discriminate L; try discriminate L'; [reflexivity|].
  apply Forall_cons_iff in Hb as [Hx Hb]. apply Forall_cons_iff in Hb' as [Hx' Hb'].
  apply Forall_cons_iff in Hc as [Hcj Hc].
  cbn [md2_checksum_block length] in *.
  destruct (md2_checksum_block c b (N.lxor cj (md2_s (N.lxor x l)))) as [y u] eqn:E1.
  destruct (md2_checksum_block c b' (N.lxor cj (md2_s (N.lxor x' l)))) as [y' u'] eqn:E2.
  cbn [fst] in E. apply cons_inj in E as [Ev Ey]. apply lxor_cancel_l in Ev.
  pose proof (md2_s_inj _ _ (lxor_byte _ _ Hx Hl) (lxor_byte _ _ Hx' Hl) Ev) as Ex.
  apply lxor_cancel_r in Ex. clear Ev. subst x' y'. f_equal.
  apply (IH b b' (N.lxor cj (md2_s (N.lxor x l)))); auto.
  - apply lxor_byte; [exact Hcj|apply md2_s_lt].
  - rewrite E1, E2. reflexivity.
Qed.

Lemma checksum_length c : forall b l, length c = length b -> length (fst (md2_checksum_block c b l)) = length c.
Proof.
  induction c as [|cj c IH]; intros [|x b] l L; try discriminate; [reflexivity|]. cbn [md2_checksum_block].
  injection L as L. specialize (IH b (N.lxor cj (md2_s (N.lxor x l))) L).
  destruct (md2_checksum_block c b _). cbn [fst length] in *. now rewrite IH.
Qed.

Lemma checksum_last c : forall b l d, length c = length b ->
  snd (md2_checksum_block c b l) = match c with [] => l | _ => last (fst (md2_checksum_block c b l)) d end.
Proof.
  induction c as [|cj c IH]; intros [|x b] l d L; try discriminate; [reflexivity|]. cbn [md2_checksum_block].
  injection L as L. pose proof (checksum_length c b (N.lxor cj (md2_s (N.lxor x l))) L) as Q.
  specialize (IH b (N.lxor cj (md2_s (N.lxor x l))) d L).
  destruct (md2_checksum_block c b _) as [y u] eqn:E. cbn [fst snd] in *.
  destruct c as [|c0 c]; [|destruct y].
  - destruct b; [|discriminate L]. cbn in E. injection E as <- <-. reflexivity.
  - discriminate Q.
  - exact IH.
Qed.

Lemma checksum_state_inj c : forall c' b l, length c = length b -> length c' = length b ->
  fst (md2_checksum_block c b l) = fst (md2_checksum_block c' b l) -> c = c'.
Proof.
  induction c as [|v c IH]; intros [|v' c'] [|x b] l L L' E; try discriminate L; try discriminate L'; [reflexivity|].
  injection L as L. injection L' as L'. cbn [md2_checksum_block] in E. specialize (IH c' b).
  destruct (md2_checksum_block c b (N.lxor v (md2_s (N.lxor x l)))) as [y u] eqn:E1.
  destruct (md2_checksum_block c' b (N.lxor v' (md2_s (N.lxor x l)))) as [y' u'] eqn:E2.
  cbn [fst] in E. apply cons_inj in E as [Ev Ey]. apply lxor_cancel_r in Ev. subst v' y'. f_equal.
  apply (IH (N.lxor v (md2_s (N.lxor x l))) L L'). rewrite E1, E2. reflexivity.
Qed.

Lemma checksum_state_tail v c v' c' x b l l' : length c = length b -> length c' = length b ->
  fst (md2_checksum_block (v :: c) (x :: b) l) = fst (md2_checksum_block (v' :: c') (x :: b) l') -> c = c'.
Proof.
  intros L L' E. cbn [md2_checksum_block] in E.
  destruct (md2_checksum_block c b (N.lxor v (md2_s (N.lxor x l)))) as [y u] eqn:E1.
  destruct (md2_checksum_block c' b (N.lxor v' (md2_s (N.lxor x l')))) as [y' u'] eqn:E2.
  cbn [fst] in E. apply cons_inj in E as [Ev Ey]. subst y'. rewrite <- Ev in E2.
  apply (checksum_state_inj c c' b (N.lxor v (md2_s (N.lxor x l))) L L'). rewrite E1, E2. reflexivity.
Qed.

(** With the last byte of the checksum as [l], as everywhere in the algorithm. *)
Lemma checksum_step_inj c c' b : length c = 16%nat -> length c' = 16%nat -> length b = 16%nat ->
  fst (md2_checksum_block c b (last c 0)) = fst (md2_checksum_block c' b (last c' 0)) -> c = c'.
Proof.
  intros L L' Lb E.
  destruct c as [|v c]; [discriminate|]. destruct c' as [|v' c']; [discriminate|].
  destruct b as [|x b]; [discriminate|].
  assert (Ec : c = c').
  { apply (checksum_state_tail v c v' c' x b (last (v :: c) 0) (last (v' :: c') 0)); cbn [length] in *; congruence. }
  subst c'. destruct c as [|w c]; [discriminate|].
  change (last (v' :: w :: c) 0) with (last (w :: c) 0) in E.
  change (last (v :: w :: c) 0) with (last (w :: c) 0) in E.
  apply (checksum_state_inj _ _ (x :: b) (last (w :: c) 0)); auto; cbn [length] in *; congruence.
Qed.

Lemma step_last cl b : length (fst cl) = 16%nat -> length b = 16%nat ->
  length (fst (md2_checksum_step cl b)) = 16%nat /\
  snd (md2_checksum_step cl b) = last (fst (md2_checksum_step cl b)) 0.
Proof.
  intros L Lb. unfold md2_checksum_step. rewrite checksum_length by congruence. split; [exact L|].
  rewrite (checksum_last _ _ _ 0) by congruence. destruct (fst cl); [discriminate|reflexivity].
Qed.

Lemma steps_inj cs : forall cl cl', blocks16 cs -> length (fst cl) = 16%nat -> length (fst cl') = 16%nat ->
  snd cl = last (fst cl) 0 -> snd cl' = last (fst cl') 0 ->
  fst (fold_left md2_checksum_step cs cl) = fst (fold_left md2_checksum_step cs cl') -> fst cl = fst cl'.
Proof.
  induction cs as [|b cs IH]; intros cl cl' H L L' S S' E; [exact E|].
  apply Forall_cons_iff in H as [[Lb Bb] H]. cbn [fold_left] in E.
  destruct (step_last cl b L Lb) as [A1 A2]. destruct (step_last cl' b L' Lb) as [A1' A2'].
  specialize (IH _ _ H A1 A1' A2 A2' E). unfold md2_checksum_step in IH. rewrite S, S' in IH.
  now apply (checksum_step_inj _ _ b).
Qed.

(** ** The hasher *)

Lemma process_full h : md2_full h -> md2_process_chunk h =
  Ok {| md2_chunk := [];
        ModelMd.md2_checksum := fst (md2_checksum_block (ModelMd.md2_checksum h) (md2_chunk h) (md2_l h));
        md2_l := snd (md2_checksum_block (ModelMd.md2_checksum h) (md2_chunk h) (md2_l h));
        md2_x := md2_block (md2_x h) (md2_chunk h) |}.
Proof.
  destruct h as [r ck l x]. unfold md2_full, md2_process_chunk. cbn [md2_chunk ModelMd.md2_checksum md2_l md2_x].
  intros (Lr & Br & A1 & A2 & A3 & A4 & A5).
  rewrite slice_ok by lia. cbn [bind skipn]. rewrite firstn_all2 by lia.
  rewrite to_array_ok by auto. cbn [bind].
  destruct (md2_checksum_loop r [] ck l ltac:(lia) A2 Br A3) as (E & _).
  unfold enumerate at 1. cbn [length app] in E. rewrite E. cbn [bind].
  rewrite md2_x_loop by auto. cbn [bind]. unfold md2_block.
  set (y := firstn 16 x ++ r ++ map (fun j => N.lxor (nth j r 0) (nth j (firstn 16 x) 0)) (seq 0 16)).
  assert (By : bytes y).
  { apply Forall_app. split; [now apply Forall_firstn|]. apply Forall_app. split; auto.
    apply Forall_forall. intros v Hv. apply in_map_iff in Hv as (j & <- & _).
    apply lxor_byte; apply nth_byte0; auto. now apply Forall_firstn. }
  destruct (md2_rounds_loop y By) as (t & Et & _ & _). rewrite Et. cbn [bind]. reflexivity.
Qed.

Lemma mixing_injective h h' r r' : md2_full h -> md2_full h' ->
  md2_process_chunk h = Ok r -> md2_process_chunk h' = Ok r' -> md2_x r = md2_x r' ->
  md2_chunk h = md2_chunk h' /\ firstn 16 (md2_x h) = firstn 16 (md2_x h').
Proof.
  intros H H'. rewrite !process_full by assumption. intros [= <-] [= <-]. cbn [md2_x].
  destruct H as (Lr & _ & _ & _ & _ & Lx & _), H' as (Lr' & _ & _ & _ & _ & Lx' & _). now apply block_inj.
Qed.

(** Only the first 16 bytes of the state and the chunk enter. *)
Lemma mixing_inputs h h' r r' : md2_full h -> md2_full h' ->
  md2_process_chunk h = Ok r -> md2_process_chunk h' = Ok r' ->
  md2_chunk h = md2_chunk h' -> firstn 16 (md2_x h) = firstn 16 (md2_x h') -> md2_x r = md2_x r'.
Proof.
  intros H H'. rewrite !process_full by assumption. intros [= <-] [= <-]. cbn [md2_x].
  intros -> E. unfold md2_block. now rewrite E.
Qed.

Lemma checksum_of_chunk h h' r r' : md2_full h -> md2_full h' ->
  ModelMd.md2_checksum h = ModelMd.md2_checksum h' -> md2_l h = md2_l h' ->
  md2_process_chunk h = Ok r -> md2_process_chunk h' = Ok r' ->
  ModelMd.md2_checksum r = ModelMd.md2_checksum r' -> md2_chunk h = md2_chunk h'.
Proof.
  intros H H' E1 E2. rewrite !process_full by assumption. intros [= <-] [= <-].
  cbn [ModelMd.md2_checksum]. rewrite <- E1, <- E2.
  destruct H as (Lr & Br & Lc & Bc & Hl & _), H' as (Lr' & Br' & _).
  apply checksum_block_inj; auto; congruence.
Qed.

Lemma decomposition_unique cs : forall cs' (r r' : list N), blocks16 cs -> blocks16 cs' ->
  (length r < 16)%nat -> (length r' < 16)%nat -> concat cs ++ r = concat cs' ++ r' -> cs = cs' /\ r = r'.
Proof.
  induction cs as [|c cs IH]; intros [|c' cs'] r r' H H' L L' E.
  - auto.
  - apply Forall_cons_iff in H' as [[Lc _] _]. cbn [concat app] in E. apply (f_equal (@length N)) in E.
    rewrite !app_length in E. lia.
  - apply Forall_cons_iff in H as [[Lc _] _]. cbn [concat app] in E. apply (f_equal (@length N)) in E.
    rewrite !app_length in E. lia.
  - apply Forall_cons_iff in H as [[Lc _] H]. apply Forall_cons_iff in H' as [[Lc' _] H'].
    cbn [concat] in E. rewrite <- !app_assoc in E. apply app_inj_length in E as [-> E]; [|congruence].
    destruct (IH cs' r r' H H' L L' E) as [-> ->]. auto.
Qed.

Lemma absorb_decomposed cs r : blocks16 cs -> (length r < 16)%nat -> bytes r ->
  md2_absorb (concat cs ++ r) = Ok (md2_state cs r).
Proof.
  intros H L B. assert (Bm : bytes (concat cs ++ r)).
  { apply Forall_app. split; auto. clear - H. induction H as [|c cs [_ Hc] H IH]; [constructor|].
    cbn [concat]. apply Forall_app. auto. }
  destruct (md2_consume_all _ Bm) as (cs' & r' & E & D & H' & L' & _).
  destruct (decomposition_unique cs cs' r r' H H' L L' D) as [-> ->]. exact E.
Qed.

Lemma whole_blocks m : bytes m -> (length m mod 16 = 0)%nat -> exists cs, m = concat cs /\ blocks16 cs.
Proof.
  intros B L. destruct (md2_consume_all m B) as (cs & r & _ & -> & H & Lr & _).
  exists cs. split; auto. assert (Lc : length (concat cs) = (16 * length cs)%nat).
  { clear - H. induction H as [|c cs [Hc _] H IH]; [reflexivity|]. cbn [concat length]. rewrite app_length. lia. }
  rewrite app_length, Lc in L. assert (length r = 0%nat).
  { rewrite Nat.mul_comm, Nat.add_comm, Nat.mod_add in L by lia. rewrite Nat.mod_small in L by exact Lr. exact L. }
  destruct r; [|discriminate]. apply app_nil_r.
Qed.

Lemma one_block pre b b' post h h' : bytes pre -> bytes b -> bytes b' -> bytes post ->
  (length pre mod 16 = 0)%nat -> length b = 16%nat -> length b' = 16%nat -> b <> b' ->
  md2_absorb (pre ++ b ++ post) = Ok h -> md2_absorb (pre ++ b' ++ post) = Ok h' ->
  ModelMd.md2_checksum h <> ModelMd.md2_checksum h'.
Proof.
  intros Bp Bb Bb' Bq Lp Lb Lb' D.
  destruct (whole_blocks pre Bp Lp) as (cs & -> & Hcs).
  destruct (md2_consume_all post Bq) as (cs3 & r & _ & -> & H3 & Lr & Br).
  assert (Q : forall b, bytes b -> length b = 16%nat ->
    md2_absorb (concat cs ++ b ++ concat cs3 ++ r) = Ok (md2_state (cs ++ b :: cs3) r)).
  { intros c Bc Lc. rewrite <- absorb_decomposed; auto.
    - f_equal. rewrite concat_app. cbn [concat]. now rewrite <- !app_assoc.
    - apply Forall_app. split; auto. }
  rewrite !Q by assumption. intros [= <-] [= <-]. cbn [ModelMd.md2_checksum md2_state]. intros E. apply D.
  rewrite !fold_left_app in E. cbn [fold_left] in E.
  destruct (md2_state_wf cs Hcs) as (A1 & A2 & A3 & _ & _).
  set (cl := fold_left md2_checksum_step cs (repeat 0 16, 0)) in *.
  destruct (step_last cl b A1 Lb) as [S1 S2]. destruct (step_last cl b' A1 Lb') as [S1' S2'].
  apply steps_inj in E; auto. unfold md2_checksum_step in E.
  apply checksum_block_inj in E; auto; congruence.
Qed.
