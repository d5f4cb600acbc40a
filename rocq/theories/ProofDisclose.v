(** * Proofs for C126: what is visible of MD2, RC4 and RC2 discloses the message
    and the keys *)
From Coq Require Import Permutation.
From Verif Require Import Base BaseLemmas ModelBlock ModelSha ModelMd ModelRc ModelTrace
  SpecRc SpecMd SpecMd2Chain ProofTraceErase ProofMd2 ProofMd2Chain ProofRc2 ProofRc4.

Lemma fst_bind {A B} (m : tr A) (f : A -> tr B) :
  fst (tbind m f) = fst m ++ match snd m with Ok a => fst (f a) | Panic _ => [] end.
Proof.
  destruct m as [e [a|p]]; cbn [tbind fst snd]; [now destruct (f a)|].
  now rewrite app_nil_r.
Qed.
Lemma fst_bind_ok {A B} (m : tr A) (f : A -> tr B) a : snd m = Ok a ->
  fst (tbind m f) = fst m ++ fst (f a).
Proof. intros H. now rewrite fst_bind, H. Qed.
Lemma fst_see {A} e (f : unit -> tr A) : fst (tbind (tsee e) f) = e :: fst (f tt).
Proof. cbn [tbind tsee]. now destruct (f tt). Qed.

Lemma lxor_cancel_r a b l : N.lxor a l = N.lxor b l -> a = b.
Proof.
  intros H. apply (f_equal (fun x => N.lxor x l)) in H.
  now rewrite !N.lxor_assoc, N.lxor_nilpotent, !N.lxor_0_r in H.
Qed.

(** ** MD2 *)

Definition md2_ck_step : nat * N -> list N * N -> tr (list N * N) :=
  fun '(j, c) '(checksum, l) =>
      let^ s := t_idx MD2_S (ix (N.lxor c l)) in
      let^ cj := t_idx checksum j in
      let^ checksum := t_upd checksum j (N.lxor cj s) in
      let^ l := t_idx checksum j in
      tret (checksum, l).

Lemma md2_ck_step_ok j c ck l : c < 256 -> l < 256 -> (j < length ck)%nat -> bytes ck ->
  exists ck' l', snd (md2_ck_step (j, c) (ck, l)) = Ok (ck', l') /\
    length ck' = length ck /\ bytes ck' /\ l' < 256.
Proof.
  intros Hc Hl Hj Hb. unfold md2_ck_step.
  assert (B : N.lxor c l < 256) by now apply lxor_byte.
  assert (V : N.lxor (nth j ck 0) (md2_s (N.lxor c l)) < 256).
  { apply lxor_byte; [|apply md2_s_lt]. now apply (Forall_nth_lt byte). }
  eexists _, _. split.
  - transitivity (let* s := idx MD2_S (ix (N.lxor c l)) in
      let* cj := idx ck j in
      let* checksum := upd ck j (N.lxor cj s) in
      let* l := idx checksum j in
      Ok (checksum, l)); [er|].
    rewrite md2_lookup by exact B. cbn [bind].
    rewrite (idx_nth _ _ 0) by exact Hj. cbn [bind].
    rewrite upd_ok by exact Hj. cbn [bind].
    rewrite (idx_nth _ _ 0); [reflexivity|]. now rewrite set_nth_length.
  - assert (BB : bytes (set_nth ck j (N.lxor (nth j ck 0) (md2_s (N.lxor c l)))))
      by now apply Forall_set_nth.
    split; [now apply set_nth_length|]. split; [exact BB|].
    apply (Forall_nth_lt byte); [exact BB|]. now rewrite set_nth_length.
Qed.

Lemma md2_ck_first j c ck l :
  exists r, fst (md2_ck_step (j, c) (ck, l)) = EAt (ix (N.lxor c l)) :: r.
Proof.
  unfold md2_ck_step. rewrite (fst_bind (t_idx MD2_S _)). cbn [t_idx tlog fst app].
  eexists. reflexivity.
Qed.

Lemma md2_ck_learn c : forall c' j ck l t t', length c = length c' -> bytes c -> bytes c' ->
  l < 256 -> (j + length c <= length ck)%nat -> bytes ck ->
  fst (t_forM (enumerate_from j c) md2_ck_step (ck, l)) ++ t =
  fst (t_forM (enumerate_from j c') md2_ck_step (ck, l)) ++ t' -> c = c'.
Proof.
  induction c as [|b c IH]; intros [|b' c'] j ck l t t' HL Hc Hc' Hl Hj Hb E;
    try discriminate HL; [reflexivity|].
  apply Forall_cons_iff in Hc as [Hb0 Hc]. apply Forall_cons_iff in Hc' as [Hb0' Hc'].
  cbn [length] in *. cbn [enumerate_from t_forM] in E. rewrite !fst_see in E.
  assert (EB : b = b').
  { cbv beta in E. rewrite !(fst_bind (md2_ck_step _ _)) in E.
    destruct (md2_ck_first j b ck l) as (r & Er), (md2_ck_first j b' ck l) as (r' & Er').
    rewrite Er, Er' in E. apply (f_equal (fun l => nth 1 l EDone)) in E.
    cbn [nth app] in E. injection E as E.
    apply (lxor_cancel_r b b' l). unfold ix in E. lia. }
  subst b'. f_equal.
  destruct (md2_ck_step_ok j b ck l Hb0 Hl ltac:(lia) Hb) as (ck' & l' & S1 & L1 & B1 & T1).
  cbv beta in E. rewrite !(fst_bind_ok _ _ _ S1) in E. rewrite <- !app_comm_cons, <- !app_assoc in E.
  injection E as E. apply app_inv_head in E.
  apply (IH c' (S j) ck' l' t t'); auto; lia.
Qed.

Lemma md2_process_learn h h' t t' :
  md2_full h -> md2_full h' -> ModelMd.md2_checksum h = ModelMd.md2_checksum h' ->
  md2_l h = md2_l h' -> md2_x h = md2_x h' ->
  fst (t_md2_process_chunk h) ++ t = fst (t_md2_process_chunk h') ++ t' ->
  h = h' /\ t = t'.
Proof.
  intros H H' E1 E2 E3 E.
  assert (h = h').
  { destruct h as [r ck l x], h' as [r' ck' l' x']. cbn [ModelMd.md2_checksum md2_l md2_x] in *.
    subst ck' l' x'. f_equal. unfold md2_full in H, H'.
    cbn [md2_chunk ModelMd.md2_checksum md2_l md2_x] in H, H'.
    destruct H as (Lr & Br & A1 & A2 & A3 & A4 & A5).
    destruct H' as (Lr' & Br' & _).
    unfold t_md2_process_chunk in E. cbn [md2_chunk ModelMd.md2_checksum md2_l md2_x] in E.
    assert (S1 : forall q : list N, length q = 16%nat -> snd (t_slice q 0 16) = Ok q).
    { intros q Lq. cbn [t_slice tlog snd]. rewrite slice_ok by lia. cbn [skipn].
      now rewrite firstn_all2 by lia. }
    assert (S2 : forall q : list N, length q = 16%nat -> snd (t_to_array 16 q) = Ok q).
    { intros q Lq. cbn [t_to_array tlog snd]. now apply to_array_ok. }
    rewrite (fst_bind_ok _ _ _ (S1 r Lr)), (fst_bind_ok _ _ _ (S1 r' Lr')) in E.
    rewrite (fst_bind_ok _ _ _ (S2 r Lr)), (fst_bind_ok _ _ _ (S2 r' Lr')) in E.
    cbn [t_slice t_to_array tlog fst] in E. rewrite Lr, Lr' in E.
    rewrite <- !app_assoc in E. apply app_inv_head in E. apply app_inv_head in E.
    rewrite !fst_bind in E. rewrite <- !app_assoc in E.
    apply (md2_ck_learn r r' 0 ck l _ _ (eq_trans Lr (eq_sym Lr')) Br Br' A3 ltac:(lia) A2 E). }
  subst h'. split; [reflexivity|]. now apply app_inv_head in E.
Qed.

(** What Rust's types say of a hasher between bytes. *)
Definition md2_part (h : md2_hasher) : Prop :=
  (length (md2_chunk h) < 16)%nat /\ bytes (md2_chunk h) /\
  length (ModelMd.md2_checksum h) = 16%nat /\ bytes (ModelMd.md2_checksum h) /\
  md2_l h < 256 /\ length (md2_x h) = 48%nat /\ bytes (md2_x h).
(** Hashers that differ at most in the bytes of the chunk. *)
Definition md2_peer (h h' : md2_hasher) : Prop :=
  length (md2_chunk h) = length (md2_chunk h') /\
  ModelMd.md2_checksum h = ModelMd.md2_checksum h' /\
  md2_l h = md2_l h' /\ md2_x h = md2_x h'.

Lemma md2_process_wf h : md2_full h -> exists h', md2_process_chunk h = Ok h' /\
  md2_chunk h' = [] /\ md2_part h'.
Proof.
  intros H. rewrite process_full by exact H. eexists. split; [reflexivity|].
  split; [reflexivity|]. destruct H as (Lr & Br & A1 & A2 & A3 & A4 & A5).
  destruct (md2_checksum_loop (md2_chunk h) [] (ModelMd.md2_checksum h) (md2_l h)
    ltac:(lia) A2 Br A3) as (_ & L & B & T).
  destruct (md2_block_wf (md2_x h) (md2_chunk h) A4 A5 Lr Br) as [L2 B2].
  unfold md2_part. cbn [md2_chunk ModelMd.md2_checksum md2_l md2_x length].
  repeat split; auto; try lia. constructor.
Qed.

Section Profile.
Context {P : profile}.

Definition md2_rest (h : md2_hasher) (data : list N) : tr (list N) :=
  let^ h := t_forM data (fun b h => t_md2_consume h b) h in t_md2_finish h.

(** The events of the loop that pads. *)
Lemma pad_loop (pad : N) n : exists ev, forall c,
  t_forM (range 0 n) (fun (_ : nat) chunk => tret (chunk ++ [pad])) c =
  (ev, Ok (c ++ repeat pad n)).
Proof using.
  unfold range. rewrite Nat.sub_0_r. generalize 0%nat.
  induction n as [|n IH]; intros i.
  - exists [EDone]. intros c. cbn [seq t_forM repeat]. rewrite app_nil_r. reflexivity.
  - destruct (IH (S i)) as [ev H]. exists (EIter :: ev). intros c.
    cbn [seq t_forM]. unfold tbind, tsee, tret.
    rewrite H, <- app_assoc. reflexivity.
Qed.

Lemma md2_finish_learn h h' : md2_part h -> md2_part h' -> md2_peer h h' ->
  fst (t_md2_finish h) = fst (t_md2_finish h') -> md2_chunk h = md2_chunk h'.
Proof using.
  intros (L & B & A1 & A2 & A3 & A4 & A5) (L' & B' & _) (Q0 & Q1 & Q2 & Q3) E.
  unfold t_md2_finish in E.
  set (n := length (md2_chunk h)) in *.
  rewrite <- Q0 in E.
  assert (S1 : snd (t_csub 8 16 (N.of_nat n mod 256)) = Ok (16 - N.of_nat n)).
  { cbn [t_csub tlog snd]. unfold csub. rewrite (N.mod_small (N.of_nat n)) by lia.
    replace (N.of_nat n <=? 16) with true by lia. reflexivity. }
  rewrite !(fst_bind_ok _ _ _ S1) in E. apply app_inv_head in E.
  destruct (pad_loop (16 - N.of_nat n) (ix (16 - N.of_nat n))) as [ev HP].
  rewrite (fst_bind_ok (t_forM _ _ (md2_chunk h)) _ _ (f_equal snd (HP (md2_chunk h)))) in E.
  rewrite (fst_bind_ok (t_forM _ _ (md2_chunk h')) _ _ (f_equal snd (HP (md2_chunk h')))) in E.
  rewrite !HP in E. cbn [fst] in E. apply app_inv_head in E. rename E into EE.
  rewrite (fst_bind (t_md2_process_chunk _)) in EE.
  rewrite (fst_bind (t_md2_process_chunk {| md2_chunk := md2_chunk h' ++ _ |})) in EE.
  assert (F : forall g : md2_hasher, length (md2_chunk g) = n -> bytes (md2_chunk g) ->
    md2_full {| md2_chunk := md2_chunk g ++ repeat (16 - N.of_nat n) (ix (16 - N.of_nat n));
      ModelMd.md2_checksum := ModelMd.md2_checksum h; md2_l := md2_l h; md2_x := md2_x h |}).
  { intros g Lg Bg. unfold md2_full. cbn [md2_chunk ModelMd.md2_checksum md2_l md2_x].
    split; [rewrite app_length, repeat_length; unfold ix; lia|].
    split; [apply Forall_app; split; [exact Bg|apply Forall_repeat; unfold byte; lia]|].
    auto. }
  rewrite <- Q1, <- Q2, <- Q3 in EE.
  apply (md2_process_learn _ _ _ _ (F h eq_refl B) (F h' (eq_sym Q0) B')
    eq_refl eq_refl eq_refl) in EE as [EE _].
  injection EE as EE. now apply app_inv_tail in EE.
Qed.

Lemma md2_rest_learn data : forall data' h h', md2_part h -> md2_part h' -> md2_peer h h' ->
  bytes data -> bytes data' ->
  fst (md2_rest h data) = fst (md2_rest h' data') ->
  md2_chunk h ++ data = md2_chunk h' ++ data'.
Proof using.
  induction data as [|b data IH]; intros [|b' data'] h h' H H' HP Hd Hd' E;
    unfold md2_rest in E; cbn [t_forM] in E.
  - rewrite !app_nil_r. apply md2_finish_learn; try assumption.
    rewrite !fst_bind in E. cbn [tbind tsee tret fst snd app] in E.
    injection E as E. exact E.
  - exfalso. rewrite !(fst_bind _ t_md2_finish), !fst_see in E. discriminate E.
  - exfalso. rewrite !(fst_bind _ t_md2_finish), !fst_see in E. discriminate E.
  - apply Forall_cons_iff in Hd as [Hb Hd]. apply Forall_cons_iff in Hd' as [Hb' Hd'].
    rewrite !(fst_bind _ t_md2_finish) in E.
    rewrite !fst_see, !er_see in E. rewrite <- !app_comm_cons in E. injection E as E.
    rewrite <- !(fst_bind _ t_md2_finish) in E.
    assert (AS : forall x g (d : list N), 
      fst (tbind (tbind (t_md2_consume g x) (fun s' => t_forM d (fun b h => t_md2_consume h b) s'))
        t_md2_finish) =
      fst (tbind (t_md2_consume g x) (fun s' => md2_rest s' d))).
    { intros x g d. unfold md2_rest. destruct (t_md2_consume g x) as [ev [s|p]];
        [|reflexivity]. unfold tbind at 2 3.
      destruct (t_forM d _ s) as [ev2 [s2|p2]]; unfold tbind; [|reflexivity].
      destruct (t_md2_finish s2) as [ev3 r3]. cbn [fst]. now rewrite app_assoc. }
    rewrite !AS in E. clear AS. 
    destruct H as (L & B & A1 & A2 & A3 & A4 & A5). destruct H' as (L' & B' & A').
    destruct HP as (Q0 & Q1 & Q2 & Q3).
    set (g := {| md2_chunk := md2_chunk h ++ [b]; ModelMd.md2_checksum := ModelMd.md2_checksum h;
                 md2_l := md2_l h; md2_x := md2_x h |}).
    set (g' := {| md2_chunk := md2_chunk h' ++ [b']; ModelMd.md2_checksum := ModelMd.md2_checksum h';
                 md2_l := md2_l h'; md2_x := md2_x h' |}).
    assert (Lg : length (md2_chunk g) = S (length (md2_chunk h))).
    { unfold g. cbn [md2_chunk]. rewrite app_length. cbn [length]. lia. }
    assert (Lg' : length (md2_chunk g') = S (length (md2_chunk h))).
    { unfold g'. cbn [md2_chunk]. rewrite app_length. cbn [length]. lia. }
    assert (Bg : bytes (md2_chunk g)) by (apply Forall_app; auto).
    assert (Bg' : bytes (md2_chunk g')) by (apply Forall_app; auto).
    unfold t_md2_consume in E. fold g g' in E. cbv zeta in E.
    destruct (Nat.eq_dec (length (md2_chunk h)) 15) as [E15|N15].
    + assert (Fg : md2_full g) by (unfold md2_full; repeat split; auto; lia).
      assert (Fg' : md2_full g').
      { unfold md2_full. destruct A' as (A1' & A2' & A3' & A4' & A5'). repeat split; auto; lia. }
      unfold tif in E. rewrite Lg, Lg', E15 in E. cbn [Nat.eqb] in E.
      change ((let^ _ := tsee (EIf true) in if true then t_md2_process_chunk g else tret g))
        with (let^ _ := tsee (EIf true) in t_md2_process_chunk g) in E.
      change ((let^ _ := tsee (EIf true) in if true then t_md2_process_chunk g' else tret g'))
        with (let^ _ := tsee (EIf true) in t_md2_process_chunk g') in E.
      rewrite (fst_bind (tbind (tsee (EIf true)) _)) in E.
      rewrite (fst_bind (tbind (tsee (EIf true)) (fun _ => t_md2_process_chunk g'))) in E.
      rewrite !fst_see, !er_see in E. rewrite <- !app_comm_cons in E. injection E as E.
      apply (md2_process_learn _ _ _ _ Fg Fg' Q1 Q2 Q3) in E as [EG E].
      rewrite <- EG in E. rewrite er_md2_process_chunk in E.
      destruct (md2_process_wf g Fg) as (h1 & Eh1 & C1 & P1). rewrite Eh1 in E.
      assert (HP1 : md2_peer h1 h1) by (repeat split; reflexivity).
      pose proof (IH data' h1 h1 P1 P1 HP1 Hd Hd' E) as HD.
      rewrite C1 in HD. cbn [app] in HD. subst data'.
      apply (f_equal md2_chunk) in EG. unfold g, g' in EG. cbn [md2_chunk] in EG.
      apply app_inj_tail in EG as [-> ->]. reflexivity.
    + assert (Pg : md2_part g) by (unfold md2_part; repeat split; auto; lia).
      assert (Pg' : md2_part g').
      { unfold md2_part. destruct A' as (A1' & A2' & A3' & A4' & A5'). repeat split; auto; lia. }
      unfold tif in E. rewrite Lg, Lg' in E.
      replace (S (length (md2_chunk h)) =? 16)%nat with false in E by lia.
      change ((let^ _ := tsee (EIf false) in if false then t_md2_process_chunk g else tret g))
        with (let^ _ := tsee (EIf false) in tret g) in E.
      change ((let^ _ := tsee (EIf false) in if false then t_md2_process_chunk g' else tret g'))
        with (let^ _ := tsee (EIf false) in tret g') in E.
      rewrite (fst_bind (tbind (tsee (EIf false)) _)) in E.
      rewrite (fst_bind (tbind (tsee (EIf false)) (fun _ => tret g'))) in E.
      rewrite !fst_see, !er_see in E. cbn [tret fst snd app] in E. injection E as E.
      assert (HPg : md2_peer g g') by (unfold md2_peer; repeat split; auto; lia).
      pose proof (IH data' g g' Pg Pg' HPg Hd Hd' E) as HD.
      unfold g, g' in HD. cbn [md2_chunk] in HD. rewrite <- !app_assoc in HD. exact HD.
Qed.

Lemma md2_disclosed m m' : bytes m -> bytes m' ->
  fst (t_md2_hash m) = fst (t_md2_hash m') -> m = m'.
Proof using.
  intros Hm Hm' E.
  assert (W : md2_part md2_new).
  { unfold md2_part, md2_new. cbn [md2_chunk ModelMd.md2_checksum md2_l md2_x].
    rewrite !repeat_length. repeat split; try (cbn [length]; lia); try lia;
      try (apply Forall_repeat; unfold byte; lia). constructor. }
  apply (md2_rest_learn m m' md2_new md2_new W W); auto. repeat split; reflexivity.
Qed.
End Profile.

(** ** RC4 *)

Definition rc4_ksa_step (key_data : list N) : nat -> list N * N -> tr (list N * N) :=
  fun i '(state, j) =>
      let^ ki := match length key_data with
                 | O => tpanic PDivZero
                 | len => tret (i mod len)%nat
                 end in
      let^ k := t_idx key_data ki in
      let^ s := t_idx state i in
      let j := wadd 8 (wadd 8 k s) j in
      let^ state := t_swap state i (ix j) in
      tret (state, j).

Lemma rc4_step_run key i st j : key <> [] -> bytes key -> rc4_table_ok st -> (i < 256)%nat ->
  rc4_ksa_step key i (st, j) =
  ([EAt (i mod length key); EAt i; EAt i;
    EAt (N.to_nat ((j + nth i st 0 + nth (i mod length key) key 0) mod 256))],
   Ok (exchange st i (N.to_nat ((j + nth i st 0 + nth (i mod length key) key 0) mod 256)),
       (j + nth i st 0 + nth (i mod length key) key 0) mod 256)).
Proof.
  intros Hne Hb T Hi. unfold rc4_ksa_step.
  assert (Hl : (0 < length key)%nat) by (destruct key; [congruence|cbn; lia]).
  replace (match length key with O => tpanic PDivZero | S n => tret (i mod S n)%nat end)
    with (tret (i mod length key)%nat) by (destruct (length key); [lia|reflexivity]).
  assert (Hm : (i mod length key < length key)%nat) by (apply Nat.mod_upper_bound; lia).
  pose proof (table_length st T) as L.
  unfold t_idx, tlog. cbn [tbind tret].
  rewrite (idx_nth key _ 0) by exact Hm. cbn [tbind]. rewrite (idx_nth st _ 0) by lia.
  set (k := nth (i mod length key) key 0). set (v := nth i st 0).
  assert (Hj : wadd 8 (wadd 8 k v) j = (j + v + k) mod 256).
  { unfold wadd. change (2 ^ 8) with 256. lia. }
  cbn [tbind tret]. rewrite Hj. unfold t_swap, tlog.
  rewrite swap_exchange by (unfold ix; lia). reflexivity.
Qed.

Lemma rc4_learn key key' : key <> [] -> key' <> [] -> bytes key -> bytes key' ->
  forall l st j t t', rc4_table_ok st -> Forall (fun i => i < 256)%nat l ->
  fst (t_forM l (rc4_ksa_step key) (st, j)) ++ t =
  fst (t_forM l (rc4_ksa_step key') (st, j)) ++ t' ->
  forall i, In i l -> (i mod length key = i mod length key')%nat /\
    nth (i mod length key) key 0 = nth (i mod length key') key' 0.
Proof.
  intros N1 N2 B1 B2. induction l as [|a l IH]; intros st j t t' T F E i Hi; [destruct Hi|].
  apply Forall_cons_iff in F as [Ha F]. cbn [t_forM] in E. rewrite !fst_see in E.
  rewrite !rc4_step_run in E by assumption.
  set (v := nth a st 0) in *. set (k := nth (a mod length key) key 0) in *.
  set (k' := nth (a mod length key') key' 0) in *.
  unfold tbind in E.
  destruct (t_forM l (rc4_ksa_step key)
      (exchange st a (N.to_nat ((j + v + k) mod 256)), (j + v + k) mod 256)) as [e1 r1] eqn:E1.
  destruct (t_forM l (rc4_ksa_step key')
      (exchange st a (N.to_nat ((j + v + k') mod 256)), (j + v + k') mod 256)) as [e2 r2] eqn:E2.
  cbn [fst app] in E. injection E as Em Ej E.
  assert (K : k = k').
  { assert (k < 256) by (apply (Forall_nth_lt byte); [assumption|];
      apply Nat.mod_upper_bound; destruct key; [congruence|cbn; lia]).
    assert (k' < 256) by (apply (Forall_nth_lt byte); [assumption|];
      apply Nat.mod_upper_bound; destruct key'; [congruence|cbn; lia]).
    assert (Ej' : (j + v + k) mod 256 = (j + v + k') mod 256) by lia. clear -Ej' H H0.
    lia. }
  destruct Hi as [<-|Hi]; [split; [exact Em|exact K]|].
  rewrite <- K in E2.
  apply (IH (exchange st a (N.to_nat ((j + v + k) mod 256))) ((j + v + k) mod 256) t t'); auto.
  - apply table_exchange; auto. lia.
  - now rewrite E1, E2.
Qed.

Lemma cut_head {A B} (m : tr A) a (k k' : A -> tr B) : snd m = Ok a ->
  fst (tbind m k) = fst (tbind m k') -> fst (k a) = fst (k' a).
Proof. intros H. rewrite !(fst_bind_ok _ _ _ H). apply app_inv_head. Qed.

Definition rc4_first (_ : unit) : tr (list N) :=
  t_forM (range 0 256) (fun i state => t_upd state i (N.of_nat i)) (repeat 0 256).
Lemma rc4_first_loop : snd (rc4_first tt) = Ok identity.
Proof.
  rewrite <- init_loop. unfold rc4_first.
  exact (er_forM (range 0 256) (fun i state => t_upd state i (N.of_nat i))
    (fun i state => upd state i (N.of_nat i))
    (fun _ _ => eq_refl) (repeat 0 256)).
Qed.
Lemma rc4_new_form key : t_rc4_new key =
  tbind (rc4_first tt) (fun state =>
  tbind (t_forM (range 0 256) (rc4_ksa_step key) (state, 0)) (fun '(state, _) =>
  tret {| rc4_state := state; rc4_x := 0; rc4_y := 0 |})).
Proof. reflexivity. Qed.

Lemma rc4_disclosed key key' : key <> [] -> key' <> [] -> bytes key -> bytes key' ->
  (length key <= 256)%nat -> (length key' <= 256)%nat ->
  fst (t_rc4_new key) = fst (t_rc4_new key') -> key = key'.
Proof.
  intros N1 N2 B1 B2 L1 L2 E. rewrite (rc4_new_form key), (rc4_new_form key') in E.
  apply (cut_head _ _ _ _ rc4_first_loop) in E. cbv beta in E.
  assert (T0 : rc4_table_ok identity) by apply Permutation_refl.
  revert T0 E. generalize identity. intros st0 T0 E. rewrite !fst_bind in E.
  assert (F : Forall (fun i => i < 256)%nat (range 0 256)).
  { apply Forall_forall. intros i Hi. unfold range in Hi. apply in_seq in Hi. lia. }
  pose proof (rc4_learn key key' N1 N2 B1 B2 (range 0 256) st0 0 _ _
    T0 F E) as H.
  assert (H' : forall i, (i < 256)%nat -> (i mod length key = i mod length key')%nat /\
    nth (i mod length key) key 0 = nth (i mod length key') key' 0).
  { intros i Hi. apply H. unfold range. apply in_seq. lia. }
  clear H E F.
  assert (P1 : (0 < length key)%nat) by (destruct key; [congruence|cbn; lia]).
  assert (P2 : (0 < length key')%nat) by (destruct key'; [congruence|cbn; lia]).
  assert (LL : length key = length key').
  { destruct (Nat.lt_trichotomy (length key) (length key')) as [D|[D|D]]; [|exact D|].
    - destruct (H' (length key) ltac:(lia)) as [Q _].
      rewrite Nat.mod_same in Q by lia. rewrite Nat.mod_small in Q by lia. lia.
    - destruct (H' (length key') ltac:(lia)) as [Q _].
      rewrite Nat.mod_same in Q by lia. rewrite Nat.mod_small in Q by lia. lia. }
  apply (nth_ext _ _ 0 0 LL). intros i Hi.
  destruct (H' i ltac:(lia)) as [_ Q]. rewrite !Nat.mod_small in Q by lia. exact Q.
Qed.

(** ** RC2 *)

Section Profile2.
Context {P : profile}.

Definition rc2_ext_step (t : nat) : nat -> list N -> tr (list N) := fun i l =>
      let^ i1 := t_nsub i 1 in
      let^ a := t_idx l i1 in
      let^ it := t_nsub i t in
      let^ b := t_idx l it in
      let^ v := t_idx PITABLE (ix (wadd 8 a b)) in
      t_upd l i v.

Lemma rc2_step_run t i l : length l = 128%nat -> bytes l -> (1 <= t <= i)%nat -> (i < 128)%nat ->
  rc2_ext_step t i l =
  ([EIf true; EAt (i - 1); EIf true; EAt (i - t);
    EAt (N.to_nat ((nth (i - 1) l 0 + nth (i - t) l 0) mod 256)); EAt i],
   Ok (set_nth l i (pi_at ((nth (i - 1) l 0 + nth (i - t) l 0) mod 256)))).
Proof using.
  intros L B Ht Hi. unfold rc2_ext_step, t_nsub, nsub, t_idx, t_upd, tlog.
  replace (1 <=? i)%nat with true by lia. replace (t <=? i)%nat with true by lia.
  cbn [tbind]. rewrite (idx_nth l (i - 1) 0) by lia. cbn [tbind].
  rewrite (idx_nth l (i - t) 0) by lia. cbn [tbind].
  unfold wadd. change (2 ^ 8) with 256.
  rewrite pi_lookup by lia. cbn [tbind]. rewrite upd_ok by lia. reflexivity.
Qed.

Lemma rc2_learn t n : (1 <= t)%nat -> forall i l l' e e',
  length l = 128%nat -> length l' = 128%nat -> bytes l -> bytes l' ->
  (t <= i)%nat -> (i + n <= 128)%nat ->
  (forall p, (t <= p < i)%nat -> nth p l 0 = nth p l' 0) ->
  fst (t_forM (seq i n) (rc2_ext_step t) l) ++ e =
  fst (t_forM (seq i n) (rc2_ext_step t) l') ++ e' ->
  (forall j, (i <= j < i + n)%nat -> (t < j < 2 * t)%nat -> nth (j - t) l 0 = nth (j - t) l' 0) /\
  (i = t -> (1 <= n)%nat -> (nth (t - 1) l 0 + nth 0 l 0) mod 256 = (nth (t - 1) l' 0 + nth 0 l' 0) mod 256).
Proof using.
  intros Ht. induction n as [|n IH]; intros i l l' e e' L L' B B' Hti Hin HA E.
  - split; intros; lia.
  - cbn [seq t_forM] in E. rewrite !fst_see in E.
    rewrite !rc2_step_run in E by (assumption || lia).
    set (s := (nth (i - 1) l 0 + nth (i - t) l 0) mod 256) in *.
    set (s' := (nth (i - 1) l' 0 + nth (i - t) l' 0) mod 256) in *.
    unfold tbind in E.
    destruct (t_forM (seq (S i) n) (rc2_ext_step t) (set_nth l i (pi_at s))) as [v1 r1] eqn:E1.
    destruct (t_forM (seq (S i) n) (rc2_ext_step t) (set_nth l' i (pi_at s'))) as [v2 r2] eqn:E2.
    cbn [fst app] in E. injection E as Es E.
    assert (Es' : s = s') by lia. clear Es.
    destruct (IH (S i) (set_nth l i (pi_at s)) (set_nth l' i (pi_at s')) e e') as [C1 _].
    + rewrite set_nth_length; lia.
    + rewrite set_nth_length; lia.
    + apply Forall_set_nth; [assumption|apply pi_at_lt].
    + apply Forall_set_nth; [assumption|apply pi_at_lt].
    + lia.
    + lia.
    + intros p Hp. rewrite Es'. destruct (Nat.eq_dec p i) as [->|Np].
      * rewrite !nth_set_nth_eq by lia. reflexivity.
      * rewrite !nth_set_nth_neq by lia. apply HA. lia.
    + rewrite E1, E2. exact E.
    + split.
      * intros j Hj Hj2. destruct (Nat.eq_dec j i) as [->|Nj].
        { assert (A : nth (i - 1) l 0 = nth (i - 1) l' 0) by (apply HA; lia).
          assert (nth (i - t) l 0 < 256) by (apply (Forall_nth_lt byte); [assumption|lia]).
          assert (nth (i - t) l' 0 < 256) by (apply (Forall_nth_lt byte); [assumption|lia]).
          unfold s, s' in Es'. rewrite A in Es'. clear -Es' H H0. lia. }
        specialize (C1 j ltac:(lia) Hj2). rewrite !nth_set_nth_neq in C1 by lia. exact C1.
      * intros -> _. unfold s, s' in Es'. now rewrite Nat.sub_diag in Es'.
Qed.

Lemma rc2_disclosed key key' n n' : bytes key -> bytes key' ->
  (2 <= length key <= 64)%nat -> (2 <= length key' <= 64)%nat ->
  fst (t_rc2_expand_key key n) = fst (t_rc2_expand_key key' n') -> key = key'.
Proof using.
  intros B B' L L' E. unfold t_rc2_expand_key in E.
  assert (LL : length key = length key').
  { rewrite !(fst_bind (t_copy_range _ _ _ _)) in E. cbn [t_copy_range tlog fst app] in E.
    now injection E. }
  assert (S1 : forall k : list N, length k = length key ->
    snd (t_copy_range (repeat 0 128) 0 (length k) k) =
    Ok (k ++ repeat 0 (128 - length key))).
  { intros k Lk. cbn [t_copy_range tlog snd]. rewrite copy_range_ok by (rewrite ?repeat_length; lia).
    cbn [firstn app]. rewrite Lk. f_equal. f_equal. now rewrite skipn_repeat. }
  rewrite (fst_bind_ok _ _ _ (S1 key eq_refl)) in E.
  rewrite (fst_bind_ok _ _ _ (S1 key' (eq_sym LL))) in E.
  cbn [t_copy_range tlog fst] in E. rewrite <- LL in E. apply app_inv_head in E.
  cbv zeta in E. rewrite (fst_bind (t_forM (range (length key) 128) _ _)) in E.
  rewrite (fst_bind (t_forM (range (length key) 128) _ (key' ++ _))) in E.
  set (l := key ++ repeat 0 (128 - length key)) in *.
  set (l' := key' ++ repeat 0 (128 - length key)) in *.
  assert (Ll : length l = 128%nat) by (unfold l; rewrite app_length, repeat_length; lia).
  assert (Ll' : length l' = 128%nat) by (unfold l'; rewrite app_length, repeat_length; lia).
  assert (Bl : bytes l).
  { apply Forall_app. split; [assumption|apply Forall_repeat; unfold byte; lia]. }
  assert (Bl' : bytes l').
  { apply Forall_app. split; [assumption|apply Forall_repeat; unfold byte; lia]. }
  destruct (rc2_learn (length key) (128 - length key) ltac:(lia) (length key) l l' _ _
    Ll Ll' Bl Bl' (le_n _) ltac:(lia) ltac:(intros; lia) E) as [C1 C2].
  assert (N1 : forall p, (p < length key)%nat -> nth p l 0 = nth p key 0).
  { intros p Hp. unfold l. now apply app_nth1. }
  assert (N2 : forall p, (p < length key)%nat -> nth p l' 0 = nth p key' 0).
  { intros p Hp. unfold l'. apply app_nth1. lia. }
  assert (T1 : forall p, (1 <= p < length key)%nat -> nth p key 0 = nth p key' 0).
  { intros p Hp. rewrite <- N1, <- N2 by lia.
    specialize (C1 (p + length key)%nat ltac:(lia) ltac:(lia)).
    now replace (p + length key - length key)%nat with p in C1 by lia. }
  apply (nth_ext _ _ 0 0 LL). intros [|p] Hp; [|apply T1; lia].
  specialize (C2 eq_refl ltac:(lia)). rewrite !N1, !N2 in C2 by lia.
  rewrite (T1 (length key - 1)%nat ltac:(lia)) in C2.
  assert (nth 0 key 0 < 256) by (apply (Forall_nth_lt byte); [assumption|lia]).
  assert (nth 0 key' 0 < 256) by (apply (Forall_nth_lt byte); [assumption|lia]).
  clear -C2 H H0. lia.
Qed.
End Profile2.
