(** * MD2 *)
From Coq Require Import ZifyBool ZifyNat ZifyN.
From Verif Require Import Base BaseLemmas ModelMd SpecEndian SpecWord SpecMd ProofEndian.
Ltac Zify.zify_post_hook ::= Z.div_mod_to_equations.

Lemma md2_table_eq : MD2_S = md2_table.
Proof. vm_compute. reflexivity. Qed.

Lemma md2_S_bytes : bytes MD2_S.
Proof.
  assert (H : forallb (fun b => b <? 256) MD2_S = true) by (vm_compute; reflexivity).
  apply Forall_forall. intros x Hx. rewrite forallb_forall in H. apply H in Hx.
  unfold byte. now apply N.ltb_lt.
Qed.

Lemma md2_lookup b : b < 256 -> idx MD2_S (ix b) = Ok (md2_s b).
Proof.
  intros H. unfold md2_s. rewrite <- md2_table_eq. apply idx_nth.
  change (length MD2_S) with 256%nat. unfold ix. lia.
Qed.

Lemma nth_byte0 l i : bytes l -> nth i l 0 < 256.
Proof.
  intros H. destruct (Nat.lt_ge_cases i (length l)).
  - now apply (Forall_nth_lt byte).
  - now rewrite nth_overflow.
Qed.

Lemma md2_s_lt b : md2_s b < 256.
Proof. unfold md2_s. rewrite <- md2_table_eq. apply nth_byte0, md2_S_bytes. Qed.

Global Opaque md2_table MD2_S.

Lemma md2_pass_eq x t : bytes x -> t < 256 ->
  md2_pass x t = Ok (md2_round x t) /\
  length (fst (md2_round x t)) = length x /\ bytes (fst (md2_round x t)) /\ snd (md2_round x t) < 256.
Proof.
  intros Hx. revert t. induction Hx as [|v x Hv Hx IH]; intros t Ht.
  - cbn [md2_pass md2_round fst snd]. repeat split; auto. constructor.
  - cbn [md2_pass md2_round]. rewrite md2_lookup by auto. cbn [bind].
    assert (Hv' : N.lxor v (md2_s t) < 256) by (apply lxor_byte; [auto|apply md2_s_lt]).
    destruct (IH _ Hv') as (E & L & B & T). rewrite E. cbn [bind].
    destruct (md2_round x (N.lxor v (md2_s t))) as (x', t'). cbn [fst snd length] in *.
    repeat split; auto. constructor; auto.
Qed.

Lemma md2_checksum_loop chunk : forall pre c l,
  length c = length chunk -> bytes c -> bytes chunk -> l < 256 ->
  forM (enumerate_from (length pre) chunk) (fun '(j, c) '(checksum, l) =>
      let* s := idx MD2_S (ix (N.lxor c l)) in
      let* cj := idx checksum j in
      let* checksum := upd checksum j (N.lxor cj s) in
      let* l := idx checksum j in
      Ok (checksum, l)) (pre ++ c, l)
  = Ok (pre ++ fst (md2_checksum_block c chunk l), snd (md2_checksum_block c chunk l)) /\
  length (fst (md2_checksum_block c chunk l)) = length c /\
  bytes (fst (md2_checksum_block c chunk l)) /\ snd (md2_checksum_block c chunk l) < 256.
Proof.
  induction chunk as [|b chunk IH]; intros pre c l Hl Hc Hb Hll.
  - destruct c; [|discriminate Hl]. cbn [enumerate_from forM md2_checksum_block fst snd].
    repeat split; auto.
  - destruct c as [|cj c]; [discriminate Hl|]. cbn [length] in Hl.
    inversion Hc; subst. inversion Hb; subst.
    cbn [enumerate_from forM].
    rewrite md2_lookup by (now apply lxor_byte). cbn [bind].
    rewrite (idx_nth _ _ 0) by (rewrite app_length; cbn [length]; lia). cbn [bind].
    rewrite app_nth2, Nat.sub_diag by lia. cbn [nth].
    rewrite upd_ok by (rewrite app_length; cbn [length]; lia). cbn [bind].
    rewrite set_nth_app_r by (cbn [length]; lia). cbn [skipn].
    rewrite (idx_nth _ _ 0) by (rewrite app_length; cbn [length]; lia). cbn [bind].
    rewrite app_nth2, Nat.sub_diag by lia. cbn [nth].
    set (v := N.lxor cj (md2_s (N.lxor b l))).
    assert (Hv : v < 256) by (apply lxor_byte; [auto|apply md2_s_lt]).
    specialize (IH (pre ++ [v]) c v ltac:(lia) ltac:(auto) ltac:(auto) Hv) as (E & L & B & T).
    rewrite app_length in E. cbn [length] in E. rewrite Nat.add_1_r in E.
    rewrite <- !app_assoc in E. cbn [app] in E. rewrite E.
    cbn [md2_checksum_block]. fold v. destruct (md2_checksum_block c chunk v) as (c', l').
    cbn [fst snd length] in *. repeat split; auto. constructor; auto.
Qed.

Lemma md2_x_loop chunk x : length chunk = 16%nat -> length x = 48%nat ->
  forM (enumerate chunk) (fun '(j, c) x =>
      let* x := upd x (j + 16) c in
      let* a := idx x (j + 16) in
      let* b := idx x j in
      upd x (j + 32) (N.lxor a b)) x
  = Ok (firstn 16 x ++ chunk ++
        map (fun j => N.lxor (nth j chunk 0) (nth j (firstn 16 x) 0)) (seq 0 16)).
Proof.
  intros Hc Hx.
  do 16 (destruct chunk as [|? chunk]; [discriminate Hc|]). destruct chunk; [|discriminate Hc].
  do 48 (destruct x as [|? x]; [discriminate Hx|]). destruct x; [|discriminate Hx].
  reflexivity.
Qed.

Lemma md2_rounds_loop x : bytes x ->
  exists t, forM (range 0 18) (fun j '(x, t) =>
      let* (x, t) := md2_pass x t in
      Ok (x, wadd 8 t (N.of_nat j))) (x, 0) = Ok (fst (fold_left md2_pass_j (seq 0 18) (x, 0)), t) /\
    length (fst (fold_left md2_pass_j (seq 0 18) (x, 0))) = length x /\
    bytes (fst (fold_left md2_pass_j (seq 0 18) (x, 0))).
Proof.
  intros Hx.
  match goal with |- exists t, forM _ ?f ?s0 = _ /\ _ =>
    destruct (forM_fold (range 0 18) f (fun j st => md2_pass_j st j)
      (fun st => length (fst st) = length x /\ bytes (fst st) /\ snd st < 256) s0) as [E P] end.
  - cbn [fst snd]. repeat split; auto.
  - intros j (y, t) _ (L & B & T). cbn [fst snd] in *.
    destruct (md2_pass_eq y t B T) as (Ep & Lp & Bp & Tp). rewrite Ep. cbn [bind]. unfold md2_pass_j.
    destruct (md2_round y t) as (y', t'). cbn [fst snd] in *.
    split; [reflexivity|]. split; [lia|]. split; auto. lia.
  - rewrite E. change (range 0 18) with (seq 0 18) in *.
    change (fun (s : list N * N) (a : nat) => md2_pass_j s a) with md2_pass_j in *.
    destruct (fold_left md2_pass_j (seq 0 18) (x, 0)) as (y, t). cbn [fst snd] in *.
    exists t. tauto.
Qed.

(** ** Blocks *)

(** The hasher after the blocks [cs] and the bytes [r]. *)
Definition md2_state (cs : list (list N)) (r : list N) : md2_hasher :=
  let cl := fold_left md2_checksum_step cs (repeat 0 16, 0) in
  {| md2_chunk := r; ModelMd.md2_checksum := fst cl; md2_l := snd cl;
     md2_x := fold_left md2_block cs (repeat 0 48) |}.

Definition blocks16 (cs : list (list N)) : Prop := Forall (fun c => length c = 16%nat /\ bytes c) cs.

Lemma md2_block_wf x c : length x = 48%nat -> bytes x -> length c = 16%nat -> bytes c ->
  length (md2_block x c) = 48%nat /\ bytes (md2_block x c).
Proof.
  intros Lx Bx Lc Bc. unfold md2_block.
  set (y := firstn 16 x ++ c ++ map (fun j => N.lxor (nth j c 0) (nth j (firstn 16 x) 0)) (seq 0 16)).
  assert (By : bytes y).
  { apply Forall_app. split; [now apply Forall_firstn|]. apply Forall_app. split; auto.
    apply Forall_forall. intros v Hv. apply in_map_iff in Hv as (j & <- & _).
    apply lxor_byte; apply nth_byte0; auto. now apply Forall_firstn. }
  destruct (md2_rounds_loop y By) as (_ & _ & L & B). split; auto. rewrite L.
  unfold y. rewrite !app_length, firstn_length, map_length, seq_length. lia.
Qed.

Lemma md2_state_wf cs : blocks16 cs ->
  length (fst (fold_left md2_checksum_step cs (repeat 0 16, 0))) = 16%nat /\
  bytes (fst (fold_left md2_checksum_step cs (repeat 0 16, 0))) /\
  snd (fold_left md2_checksum_step cs (repeat 0 16, 0)) < 256 /\
  length (fold_left md2_block cs (repeat 0 48)) = 48%nat /\
  bytes (fold_left md2_block cs (repeat 0 48)).
Proof.
  induction cs as [|c cs IH] using rev_ind; intros H.
  - cbn [fold_left fst snd]. repeat split; auto; apply Forall_repeat; reflexivity.
  - apply Forall_app in H as [H1 H2]. inversion H2 as [|? ? [Lc Bc] _]; subst.
    destruct (IH H1) as (A1 & A2 & A3 & A4 & A5). rewrite !fold_left_app. cbn [fold_left].
    destruct (fold_left md2_checksum_step cs (repeat 0 16, 0)) as (ck, l). cbn [fst snd] in *.
    unfold md2_checksum_step. cbn [fst snd].
    destruct (md2_checksum_loop c [] ck l ltac:(lia) A2 Bc A3) as (_ & L & B & T).
    destruct (md2_block_wf _ c A4 A5 Lc Bc). rewrite L. auto.
Qed.

Lemma md2_process_eq cs r : blocks16 cs -> length r = 16%nat -> bytes r ->
  md2_process_chunk (md2_state cs r) = Ok (md2_state (cs ++ [r]) []).
Proof.
  intros Hcs Lr Br. destruct (md2_state_wf cs Hcs) as (A1 & A2 & A3 & A4 & A5).
  unfold md2_state, md2_process_chunk. cbn [md2_chunk ModelMd.md2_checksum md2_l md2_x].
  rewrite slice_ok by lia. cbn [bind skipn]. rewrite firstn_all2 by lia.
  rewrite to_array_ok by auto. cbn [bind].
  rewrite !fold_left_app. cbn [fold_left].
  destruct (fold_left md2_checksum_step cs (repeat 0 16, 0)) as (ck, l). cbn [fst snd] in *.
  destruct (md2_checksum_loop r [] ck l ltac:(lia) A2 Br A3) as (E & _).
  unfold enumerate at 1. cbn [length app] in E. rewrite E. cbn [bind].
  rewrite md2_x_loop by auto. cbn [bind].
  set (x := fold_left md2_block cs (repeat 0 48)) in *.
  set (y := firstn 16 x ++ r ++ map (fun j => N.lxor (nth j r 0) (nth j (firstn 16 x) 0)) (seq 0 16)).
  assert (By : bytes y).
  { apply Forall_app. split; [now apply Forall_firstn|]. apply Forall_app. split; auto.
    apply Forall_forall. intros v Hv. apply in_map_iff in Hv as (j & <- & _).
    apply lxor_byte; apply nth_byte0; auto. now apply Forall_firstn. }
  destruct (md2_rounds_loop y By) as (t & Et & _ & _). rewrite Et. cbn [bind].
  reflexivity.
Qed.

Lemma md2_consume_all m : bytes m ->
  exists cs r, forM m (fun b h => md2_consume h b) md2_new = Ok (md2_state cs r) /\
    m = concat cs ++ r /\ blocks16 cs /\ (length r < 16)%nat /\ bytes r.
Proof.
  intros Hm.
  destruct (forM_inv (fun l h => exists cs r, h = md2_state cs r /\ l = concat cs ++ r /\
      blocks16 cs /\ (length r < 16)%nat /\ bytes r) (fun b h => md2_consume h b) m md2_new)
    as (h & E & cs & r & -> & H).
  - exists [], []. repeat split; auto; try constructor. cbn; lia.
  - intros l1 b l2 h El (cs & r & -> & -> & Hcs & Lr & Br).
    assert (Hb : byte b).
    { rewrite El in Hm. apply Forall_app in Hm as [_ Hm]. now inversion Hm. }
    assert (Br' : bytes (r ++ [b])) by (apply Forall_app; split; auto).
    unfold md2_consume. cbn [md2_chunk md2_state]. rewrite app_length. cbn [length].
    destruct (Nat.eqb_spec (length r + 1) 16) as [L|L].
    + change {| md2_chunk := r ++ [b]; ModelMd.md2_checksum := ModelMd.md2_checksum (md2_state cs r);
                md2_l := md2_l (md2_state cs r); md2_x := md2_x (md2_state cs r) |}
        with (md2_state cs (r ++ [b])).
      rewrite md2_process_eq by (auto; rewrite app_length; cbn [length]; lia).
      eexists. split; [reflexivity|]. exists (cs ++ [r ++ [b]]), []. split; [reflexivity|].
      split. { rewrite concat_app. cbn [concat]. now rewrite !app_nil_r, app_assoc. }
      split. { apply Forall_app. split; auto. constructor; auto. split; auto. rewrite app_length. cbn. lia. }
      split; [cbn; lia|constructor].
    + eexists. split; [reflexivity|]. exists cs, (r ++ [b]). split; [reflexivity|].
      split; [now rewrite app_assoc|]. split; auto. split; auto. rewrite app_length. cbn [length]. lia.
  - exists cs, r. tauto.
Qed.

Lemma forM_push_const {A} n (c : A) l : forM (range 0 n) (fun _ l => Ok (l ++ [c])) l = Ok (l ++ repeat c n).
Proof.
  destruct (forM_range_inv (fun i l' => l' = l ++ repeat c i) (fun _ l => Ok (l ++ [c])) 0 n l)
    as (l' & E & ->); auto; try lia.
  - cbn. now rewrite app_nil_r.
  - intros i s _ ->. eexists. split; [reflexivity|]. rewrite <- app_assoc. f_equal.
    change [c] with (repeat c 1). rewrite <- repeat_app. f_equal. lia.
Qed.

Lemma md2_conforms m : bytes m ->
  md2_hash m = Ok (md2_spec m) /\ length (md2_spec m) = 16%nat /\ bytes (md2_spec m).
Proof.
  intros Hm. unfold md2_hash.
  destruct (md2_consume_all m Hm) as (cs & r & E & Em & Hcs & Lr & Br). rewrite E. cbn [bind].
  assert (F16 : Forall (fun c => length c = 16%nat) cs).
  { eapply Forall_impl; [|exact Hcs]. cbn. tauto. }
  pose proof (concat_length_const 16 cs F16) as Lcs.
  assert (Lm : (length m mod 16)%nat = length r).
  { rewrite Em, app_length, Lcs, Nat.add_comm, Nat.mod_add by lia. now apply Nat.mod_small. }
  unfold md2_finish. cbn [md2_chunk md2_state].
  rewrite N.mod_small by lia. rewrite csub_ok by lia. cbn [bind].
  rewrite forM_push_const. cbn [bind].
  set (i := (16 - length r)%nat).
  replace (ix (16 - N.of_nat (length r))) with i by (unfold ix, i; lia).
  replace (16 - N.of_nat (length r)) with (N.of_nat i) by (unfold i; lia).
  set (r' := r ++ repeat (N.of_nat i) i).
  assert (Lr' : length r' = 16%nat) by (unfold r'; rewrite app_length, repeat_length; unfold i; lia).
  assert (Br' : bytes r').
  { apply Forall_app. split; auto. apply Forall_repeat. unfold byte, i. lia. }
  match goal with |- context [md2_process_chunk ?h] => change h with (md2_state cs r') end.
  rewrite md2_process_eq by auto. cbn [bind].
  set (cs' := cs ++ [r']).
  assert (Hcs' : blocks16 cs') by (apply Forall_app; split; auto).
  assert (Ep : md2_pad m = concat cs').
  { unfold md2_pad. rewrite Lm. fold i. rewrite Em. unfold cs'. rewrite concat_app. cbn [concat].
    rewrite app_nil_r. unfold r'. now rewrite app_assoc. }
  assert (F16' : Forall (fun c => length c = 16%nat) cs').
  { eapply Forall_impl; [|exact Hcs']. cbn. tauto. }
  assert (Eg : groups 16 (md2_pad m) = cs') by (apply groups_unique; auto; lia).
  destruct (md2_state_wf cs' Hcs') as (A1 & A2 & A3 & A4 & A5).
  set (ck := fst (fold_left md2_checksum_step cs' (repeat 0 16, 0))) in *.
  assert (Eck : md2_checksum (md2_pad m) = ck) by (unfold md2_checksum; now rewrite Eg).
  cbn [md2_chunk md2_state app].
  match goal with |- context [md2_process_chunk ?h] => change h with (md2_state cs' ck) end.
  rewrite md2_process_eq by auto. cbn [bind md2_x md2_state].
  assert (Hcs'' : blocks16 (cs' ++ [ck])) by (apply Forall_app; split; auto).
  destruct (md2_state_wf _ Hcs'') as (_ & _ & _ & A4' & A5').
  rewrite slice_ok by lia. cbn [bind skipn]. change (16 - 0)%nat with 16%nat.
  rewrite to_array_ok by (rewrite firstn_length; lia).
  assert (Es : md2_spec m = firstn 16 (fold_left md2_block (cs' ++ [ck]) (repeat 0 48))).
  { unfold md2_spec. rewrite Eck. rewrite (groups_unique 16 (md2_pad m ++ ck) (cs' ++ [ck])); auto.
    - lia.
    - rewrite concat_app. cbn [concat]. now rewrite app_nil_r, Ep.
    - apply Forall_app. split; auto. }
  rewrite Es. split; [reflexivity|]. split; [rewrite firstn_length; lia|].
  now apply Forall_firstn.
Qed.
