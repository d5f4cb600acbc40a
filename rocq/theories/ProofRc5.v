(** * RC5 *)
From Coq Require Import ZifyBool ZifyNat ZifyN.
From Verif Require Import Base BaseLemmas ModelBlock ModelRc SpecBlock SpecEndian SpecWord SpecRc
  ProofEndian ProofWord.
Ltac Zify.zify_post_hook ::= Z.div_mod_to_equations.

(** ** General *)

Lemma chunks_all {A} n (l : list A) : (0 < n)%nat ->
  chunks n l = Ok (map (fun i => firstn n (skipn (n * i) l)) (seq 0 ((length l + (n - 1)) / n))).
Proof.
  intros Hn. unfold chunks.
  destruct (chunks_exact_spec n l Hn) as (cs & r & E & Hl & F & Hr). rewrite E. cbn [bind].
  pose proof (concat_length_const n cs F) as Lc. set (k := length cs) in *.
  assert (Ll : length l = (k * n + length r)%nat) by (rewrite Hl, app_length; lia).
  assert (Ec : map (fun i => firstn n (skipn (n * i) l)) (seq 0 k) = cs).
  { assert (Ec : map (fun i => firstn n (skipn (n * i) (concat cs))) (seq 0 k) = cs).
    { apply (proj1 (chunks_unique n (map (fun i => firstn n (skipn (n * i) (concat cs))) (seq 0 k)) cs
        [] [] Hn ltac:(apply Forall_forall; intros x Hx; apply in_map_iff in Hx as (i & <- & Hi);
          apply in_seq in Hi; rewrite firstn_length, skipn_length; nia) F ltac:(cbn; lia) ltac:(cbn; lia)
        ltac:(rewrite concat_pieces by lia; reflexivity))). }
    etransitivity; [|exact Ec]. apply map_ext_in. intros i Hi. apply in_seq in Hi.
    rewrite Hl, skipn_app, firstn_app, skipn_length.
    replace (n - (length (concat cs) - n * i))%nat with O by nia.
    now rewrite app_nil_r. }
  destruct r as [|x r].
  - cbn [length] in Ll. replace ((length l + (n - 1)) / n)%nat with k.
    + now rewrite Ec.
    + rewrite Ll. replace (k * n + 0 + (n - 1))%nat with ((n - 1) + k * n)%nat by lia.
      rewrite Nat.div_add by lia. rewrite Nat.div_small by lia. reflexivity.
  - set (r' := x :: r) in *.
    assert (Lr : (1 <= length r')%nat) by (cbn; lia).
    replace ((length l + (n - 1)) / n)%nat with (S k).
    + rewrite seq_S, map_app, Ec. cbn [map plus]. do 3 f_equal.
      rewrite Hl. replace (n * k)%nat with (length (concat cs)) by lia.
      rewrite skipn_app_exact by auto. rewrite firstn_all2 by lia. reflexivity.
    + rewrite Ll. replace (k * n + length r' + (n - 1))%nat with ((length r' - 1) + S k * n)%nat by lia.
      rewrite Nat.div_add by lia. rewrite Nat.div_small by lia. reflexivity.
Qed.

Lemma forM_push {A B} (f : A -> list B -> res (list B)) (g : A -> B) l acc :
  (forall a acc, In a l -> f a acc = Ok (acc ++ [g a])) ->
  forM l f acc = Ok (acc ++ map g l).
Proof.
  revert acc. induction l as [|a l IH]; intros acc H; cbn [forM map].
  - now rewrite app_nil_r.
  - rewrite (H a) by (now left). cbn [bind]. rewrite IH by (intros; apply H; now right).
    now rewrite <- app_assoc.
Qed.

Lemma iter_S_r {A} n (g : A -> A) s : Nat.iter (S n) g s = Nat.iter n g (g s).
Proof. induction n; [reflexivity|]. change (g (Nat.iter (S n) g s) = g (Nat.iter n g (g s))). now rewrite IHn. Qed.

Lemma forM_iter {A St} (l : list A) (f : St -> res St) (g : St -> St) (P : St -> Prop) s :
  P s -> (forall s, P s -> f s = Ok (g s) /\ P (g s)) ->
  forM l (fun _ => f) s = Ok (Nat.iter (length l) g s) /\ P (Nat.iter (length l) g s).
Proof.
  intros Hs H. revert s Hs. induction l as [|a l IH]; intros s Hs; cbn [forM length].
  - auto.
  - destruct (H s Hs) as [E Hg]. rewrite E. cbn [bind]. rewrite iter_S_r. apply IH, Hg.
Qed.

(** ** Key expansion *)

Lemma key_words_loop key : (0 < length key)%nat -> rc5_key_words key = Ok (rc5_words key).
Proof.
  intros Hl. unfold rc5_key_words. rewrite chunks_all by lia. cbn [bind].
  rewrite (forM_push _ (fun chunk => le_num (chunk ++ repeat 0 (4 - length chunk)))).
  - cbn [app]. f_equal. unfold rc5_words. rewrite map_map.
    rewrite Nat.max_r by lia.
    apply map_ext_in. intros j Hj. apply in_seq in Hj. f_equal.
    set (c := firstn 4 (skipn (4 * j) key)).
    assert (Lc : (length c <= 4)%nat) by (unfold c; rewrite firstn_length; lia).
    apply (list_ext 0).
    + rewrite app_length, repeat_length, map_length, seq_length. lia.
    + rewrite app_length, repeat_length. intros k Hk.
      rewrite (nth_indep (map _ _) 0 ((fun k => nth (4 * j + k) key 0) O))
        by (rewrite map_length, seq_length; lia).
      rewrite (map_nth (fun k => nth (4 * j + k) key 0)), seq_nth by lia. cbn [plus].
      destruct (Nat.lt_ge_cases k (length c)) as [Hc|Hc].
      * rewrite app_nth1 by auto. unfold c. rewrite nth_firstn' by lia. now rewrite nth_skipn'.
      * rewrite app_nth2 by auto. rewrite nth_repeat_any by lia. symmetry. apply nth_overflow.
        unfold c in Hc. rewrite firstn_length, skipn_length in Hc. lia.
  - intros a acc Ha. apply in_map_iff in Ha as (i & <- & _).
    set (c := firstn 4 (skipn (4 * i) key)).
    assert (Lc : (length c <= 4)%nat) by (unfold c; rewrite firstn_length; lia).
    rewrite copy_range_ok by (rewrite ?repeat_length; lia). cbn [bind firstn app].
    now rewrite skipn_repeat, from_le_le_num.
Qed.

Lemma rc5_init_S t : rc5_init (S t) = rc5_init t ++ [(rc5_p + N.of_nat t * rc5_q) mod 2 ^ 32].
Proof. unfold rc5_init. rewrite seq_S, map_app. reflexivity. Qed.

Lemma rc5_init_length t : length (rc5_init t) = t.
Proof. unfold rc5_init. now rewrite map_length, seq_length. Qed.

Lemma rc5_init_words t : Forall (fun w => w < 2 ^ 32) (rc5_init t).
Proof.
  apply Forall_forall. intros x Hx. apply in_map_iff in Hx as (i & <- & _). apply mod_pow2_lt.
Qed.

Lemma rc5_init_nth t i : (i < t)%nat -> nth i (rc5_init t) 0 = (rc5_p + N.of_nat i * rc5_q) mod 2 ^ 32.
Proof.
  intros H. unfold rc5_init. set (f := fun i => (rc5_p + N.of_nat i * rc5_q) mod 2 ^ 32).
  rewrite (nth_indep _ 0 (f O)) by (rewrite map_length, seq_length; lia).
  rewrite map_nth, seq_nth by lia. reflexivity.
Qed.

Lemma init_loop t : (1 <= t)%nat ->
  forM (range 1 t) (fun i s =>
      let* i1 := nsub i 1 in
      let* p := idx s i1 in
      Ok (s ++ [wadd 32 p Q32])) [P32] = Ok (rc5_init t).
Proof.
  intros Ht. match goal with |- forM _ ?f _ = _ =>
    destruct (forM_range_inv (fun i s => s = rc5_init i) f 1 t [P32]) as (s & E & P) end; auto.
  - intros i s Hi ->. rewrite nsub_ok by lia. cbn [bind].
    rewrite (idx_nth _ _ 0) by (rewrite rc5_init_length; lia). cbn [bind].
    eexists. split; [reflexivity|]. rewrite rc5_init_S. do 2 f_equal.
    rewrite rc5_init_nth by lia. rewrite wadd_mod_l. f_equal.
    replace (N.of_nat i) with (N.of_nat (i - 1) + 1) by lia.
    change Q32 with rc5_q. lia.
  - now rewrite E, P.
Qed.

Definition step_ok (t c : nat) (st : list N * list N * nat * nat * N * N) : Prop :=
  let '(s, l, i, j, a, b) := st in
  length s = t /\ length l = c /\ (i < t)%nat /\ (j < c)%nat /\
  Forall (fun w => w < 2 ^ 32) s.

Lemma step_eq t c st : step_ok t c st ->
  (fun '(s, l, i, j, a, b) =>
      let a_b := wadd 32 a b in
      let* si := idx s i in
      let a := rotl 32 (wadd 32 si a_b) 3 in
      let* s := upd s i a in
      let a_b := wadd 32 a b in
      let* lj := idx l j in
      let b := rotl 32 (wadd 32 lj a_b) a_b in
      let* l := upd l j b in
      let i := ((i + 1) mod t)%nat in
      let* j := match c with
                | O => Panic PDivZero
                | _ => Ok ((j + 1) mod c)%nat
                end in
      Ok (s, l, i, j, a, b)) st = Ok (rc5_step st) /\ step_ok t c (rc5_step st).
Proof.
  destruct st as (((((s, l), i), j), a), b). intros (Hs & Hl & Hi & Hj & Hw).
  unfold rc5_step. cbv beta iota zeta.
  rewrite (idx_nth s i 0) by lia. cbn [bind].
  assert (Ea : rotl 32 (wadd 32 (nth i s 0) (wadd 32 a b)) 3 = rol 32 ((nth i s 0 + a + b) mod 2 ^ 32) 3).
  { rewrite rol_rotl by (try apply wadd_lt; lia). f_equal. unfold wadd at 2. rewrite wadd_mod_r. f_equal. lia. }
  rewrite Ea. set (a' := rol 32 ((nth i s 0 + a + b) mod 2 ^ 32) 3).
  assert (La : a' < 2 ^ 32) by (unfold a'; rewrite <- Ea; apply rotl_lt, wadd_lt).
  rewrite upd_ok by lia. cbn [bind].
  rewrite (idx_nth l j 0) by lia. cbn [bind].
  assert (Eb : rotl 32 (wadd 32 (nth j l 0) (wadd 32 a' b)) (wadd 32 a' b)
             = rol 32 ((nth j l 0 + a' + b) mod 2 ^ 32) ((a' + b) mod 2 ^ 32)).
  { rewrite rol_rotl by (try apply wadd_lt; lia). unfold wadd at 2 3. rewrite wadd_mod_r. f_equal. f_equal. lia. }
  rewrite Eb. set (b' := rol 32 ((nth j l 0 + a' + b) mod 2 ^ 32) ((a' + b) mod 2 ^ 32)).
  rewrite upd_ok by lia. cbn [bind].
  change (@put N) with (@set_nth N). rewrite !set_nth_length by lia.
  replace (match c with O => Panic PDivZero | S _ => Ok ((j + 1) mod c)%nat end)
      with (Ok ((j + 1) mod c)%nat) by (destruct c; [lia|reflexivity]).
  cbn [bind]. rewrite Hs, Hl. split; [reflexivity|].
  repeat split.
  - now rewrite set_nth_length by lia.
  - now rewrite set_nth_length by lia.
  - apply Nat.mod_upper_bound. lia.
  - apply Nat.mod_upper_bound. lia.
  - now apply Forall_set_nth.
Qed.

Lemma rc5_words_length key : length (rc5_words key) = Nat.max 1 ((length key + 3) / 4).
Proof. unfold rc5_words. now rewrite map_length, seq_length. Qed.

Lemma rc5_expand_key_eq key r : (0 < length key)%nat ->
  rc5_expand_key key r = Ok (rc5_table key (ix r)) /\
  length (rc5_table key (ix r)) = (2 * (ix r + 1))%nat /\
  Forall (fun w => w < 2 ^ 32) (rc5_table key (ix r)).
Proof.
  intros Hk. unfold rc5_expand_key. rewrite key_words_loop by auto. cbn [bind].
  rewrite init_loop by lia. cbn [bind].
  set (t := (2 * (ix r + 1))%nat). set (c := ((length key + 3) / 4)%nat).
  assert (Lw : length (rc5_words key) = c) by (rewrite rc5_words_length; unfold c; lia).
  assert (Hc : (1 <= c)%nat) by (unfold c; lia).
  match goal with |- context [forM (range 0 ?n) (fun _ => ?f) ?s0] =>
    destruct (forM_iter (range 0 n) f rc5_step (step_ok t c) s0) as [E P] end.
  - split; [apply rc5_init_length|]. split; [exact Lw|]. repeat split; try (unfold t; lia).
    apply rc5_init_words.
  - intros st Hst. exact (step_eq t c st Hst).
  - rewrite E. rewrite range_length, Nat.sub_0_r in *. unfold rc5_table. fold t. rewrite Lw.
    destruct (Nat.iter (3 * Nat.max t c) rc5_step (rc5_init t, rc5_words key, O, O, 0, 0))
      as (((((s, l), i), j), a), b).
    cbn [bind]. destruct P as (P1 & P2 & P3 & P4 & P5). auto.
Qed.

Lemma rc5_new_ok key r : (1 <= length key <= 255)%nat ->
  rc5_new key r = Ok {| rc5_s := rc5_table key (ix r); rc5_r := r |}.
Proof.
  intros H. unfold rc5_new. rewrite (proj2 (Nat.ltb_lt _ _)) by lia.
  destruct (rc5_expand_key_eq key r) as [-> _]; [lia|reflexivity].
Qed.

Lemma rc5_new_long key r : (256 <= length key)%nat -> rc5_new key r = Panic PAssert.
Proof. intros H. unfold rc5_new. now rewrite (proj2 (Nat.ltb_ge _ _)) by lia. Qed.

Lemma rc5_new_empty r : rc5_new [] r = Panic PIndex.
Proof.
  unfold rc5_new. cbn [length Nat.ltb Nat.leb]. unfold rc5_expand_key.
  change (rc5_key_words []) with (Ok (@nil N)). cbn [bind length].
  rewrite init_loop by lia. cbn [bind].
  replace (3 * Nat.max (2 * (ix r + 1)) ((0 + 3) / 4))%nat with (S (6 * ix r + 5)) by (cbn; lia).
  rewrite range_cons by lia. cbn [forM].
  rewrite (idx_nth _ _ 0) by (rewrite rc5_init_length; lia). cbn [bind].
  rewrite upd_ok by (rewrite rc5_init_length; lia). cbn [bind]. reflexivity.
Qed.

(** ** Encryption and decryption *)

Definition rc5_ok (c : rc5) : Prop :=
  length (rc5_s c) = (2 * (ix (rc5_r c) + 1))%nat /\ Forall (fun w => w < 2 ^ 32) (rc5_s c).

Definition pair_ok (p : N * N) : Prop := fst p < 2 ^ 32 /\ snd p < 2 ^ 32.

Lemma rc5_new_wf key r : (1 <= length key <= 255)%nat ->
  rc5_ok {| rc5_s := rc5_table key (ix r); rc5_r := r |}.
Proof. intros H. destruct (rc5_expand_key_eq key r) as (_ & H1 & H2); [lia|]. split; auto. Qed.

Lemma rc5_key_lt c i : rc5_ok c -> nth i (rc5_s c) 0 < 2 ^ 32.
Proof.
  intros [Hl H]. destruct (Nat.lt_ge_cases i (length (rc5_s c))).
  - now apply (Forall_nth_lt (fun w => w < 2 ^ 32)).
  - rewrite nth_overflow by auto. reflexivity.
Qed.

Lemma rc5_round_lt s ab i : pair_ok (rc5_round s ab i).
Proof. destruct ab. split; apply mod_pow2_lt. Qed.

Lemma encrypt_32_eq c a b : rc5_ok c -> pair_ok (a, b) ->
  rc5_encrypt_32 c (a, b) =
    Ok (fold_left (rc5_round (rc5_s c)) (seq 1 (ix (rc5_r c)))
       (plus_w 32 a (nth 0 (rc5_s c) 0), plus_w 32 b (nth 1 (rc5_s c) 0))).
Proof.
  intros Hc [Ha Hb]. pose proof (proj1 Hc) as Hl. unfold rc5_encrypt_32.
  rewrite (idx_nth _ 0 0) by lia. cbn [bind]. rewrite (idx_nth _ 1 0) by lia. cbn [bind].
  match goal with |- forM _ ?f ?s0 = _ =>
    destruct (forM_fold (range 1 (ix (rc5_r c) + 1)) f (fun i p => rc5_round (rc5_s c) p i) pair_ok s0)
      as [E _] end.
  - split; apply mod_pow2_lt.
  - intros i (x, y) Hi [Hx Hy]. apply in_range in Hi. cbn [fst snd] in Hx, Hy.
    rewrite (idx_nth _ (2 * i) 0) by lia. cbn [bind]. rewrite (idx_nth _ (2 * i + 1) 0) by lia. cbn [bind].
    split; [|apply rc5_round_lt]. unfold rc5_round.
    rewrite (rol_rotl 32 (N.lxor x y)) by (try apply lxor_lt; auto; lia).
    rewrite rol_rotl by (try apply lxor_lt; auto; try apply mod_pow2_lt; lia). reflexivity.
  - rewrite E. unfold range. replace (ix (rc5_r c) + 1 - 1)%nat with (ix (rc5_r c)) by lia. reflexivity.
Qed.

Lemma rc5_load_eq block : length block = 8%nat ->
  rc5_load block = Ok (nth 0 (map le_num (groups 4 block)) 0, nth 1 (map le_num (groups 4 block)) 0).
Proof.
  intros H. do 8 (destruct block as [|? block]; try discriminate H).
  destruct block; [|discriminate H]. reflexivity.
Qed.

Lemma rc5_store_eq a b : rc5_store (a, b) = Ok (le_bytes 4 a ++ le_bytes 4 b).
Proof. unfold rc5_store. rewrite !to_le_le_bytes. reflexivity. Qed.

Lemma rc5_load_words block : length block = 8%nat -> bytes block ->
  exists a b, rc5_load block = Ok (a, b) /\ pair_ok (a, b) /\ le_bytes 4 a ++ le_bytes 4 b = block.
Proof.
  intros H Hb. rewrite rc5_load_eq by auto. do 2 eexists. split; [reflexivity|].
  do 8 (destruct block as [|? block]; try discriminate H).
  destruct block; [|discriminate H].
  unfold bytes in Hb. rewrite !Forall_cons_iff in Hb. unfold byte in Hb.
  change (nth 0 (map le_num (groups 4 [n; n0; n1; n2; n3; n4; n5; n6])) 0) with (le_num [n; n0; n1; n2]).
  change (nth 1 (map le_num (groups 4 [n; n0; n1; n2; n3; n4; n5; n6])) 0) with (le_num [n3; n4; n5; n6]).
  split.
  - split; cbn [fst snd]; unfold le_num; cbn [fold_right]; change (2 ^ 32) with 4294967296; lia.
  - rewrite <- !to_le_le_bytes. change le_num with from_le.
    pose proof (to_le_from_le [n; n0; n1; n2]) as E1. pose proof (to_le_from_le [n3; n4; n5; n6]) as E2.
    cbn [length] in E1, E2. rewrite E1, E2 by (repeat (apply Forall_cons; [unfold byte; tauto|]); apply Forall_nil). reflexivity.
Qed.

Lemma rc5_load_store a b : pair_ok (a, b) -> rc5_load (le_bytes 4 a ++ le_bytes 4 b) = Ok (a, b).
Proof.
  intros [Ha Hb]. cbn [fst snd] in *. rewrite rc5_load_eq by reflexivity.
  rewrite (groups_unique 4 _ [le_bytes 4 a; le_bytes 4 b]).
  - cbn [map nth]. rewrite <- !to_le_le_bytes, <- !from_le_le_num.
    rewrite !from_le_to_le, !N.mod_small by auto. reflexivity.
  - lia.
  - cbn [concat]. now rewrite app_nil_r.
  - repeat constructor.
Qed.

Lemma rc5_store_wf a b : length (le_bytes 4 a ++ le_bytes 4 b) = 8%nat /\
  bytes (le_bytes 4 a ++ le_bytes 4 b).
Proof.
  split; [reflexivity|]. apply Forall_app. rewrite <- !to_le_le_bytes. split; apply to_le_bytes.
Qed.

Lemma rc5_encrypt_eq c block : rc5_ok c -> length block = 8%nat -> bytes block ->
  rc5_encrypt c block = Ok (rc5_spec_encrypt (rc5_s c) (ix (rc5_r c)) block).
Proof.
  intros Hc Hl Hb. unfold rc5_encrypt, rc5_spec_encrypt.
  destruct (rc5_load_words block Hl Hb) as (a & b & E & Hp & _). rewrite E. cbn [bind].
  rewrite rc5_load_eq in E by auto. apply Ok_inj in E. injection E as -> ->.
  rewrite encrypt_32_eq by auto. cbn [bind].
  destruct (fold_left _ _ _) as (x, y). apply rc5_store_eq.
Qed.

(** Inversion. *)
Definition rc5_unround (s : list N) (i : nat) (ab : N * N) : N * N :=
  let (a, b) := ab in
  let b := N.lxor (rotr 32 (wsub 32 b (nth (2 * i + 1) s 0)) a) a in
  let a := N.lxor (rotr 32 (wsub 32 a (nth (2 * i) s 0)) b) b in
  (a, b).

Lemma lxor_cancel a b : N.lxor (N.lxor a b) b = a.
Proof. now rewrite N.lxor_assoc, N.lxor_nilpotent, N.lxor_0_r. Qed.

Lemma rc5_unround_lt s i ab : pair_ok ab -> pair_ok (rc5_unround s i ab).
Proof.
  destruct ab as (a, b). intros [Ha Hb]. cbn [fst snd] in *.
  assert (Hb' : N.lxor (rotr 32 (wsub 32 b (nth (2 * i + 1) s 0)) a) a < 2 ^ 32)
    by (apply lxor_lt; auto; apply rotr_lt, wsub_lt).
  split; cbn [rc5_unround fst snd]; [|exact Hb'].
  apply lxor_lt; [|exact Hb']. apply rotr_lt, wsub_lt.
Qed.

Lemma unround_round c i ab : rc5_ok c -> pair_ok ab ->
  rc5_unround (rc5_s c) i (rc5_round (rc5_s c) ab i) = ab.
Proof.
  destruct ab as (a, b). intros Hc [Ha Hb]. cbn [fst snd] in *.
  pose proof (rc5_key_lt c (2 * i) Hc) as K0. pose proof (rc5_key_lt c (2 * i + 1) Hc) as K1.
  unfold rc5_round. rewrite <- (rol_rotl 32 (N.lxor a b)) by (try apply lxor_lt; auto; lia).
  rewrite <- !wadd_plus.
  set (a' := wadd 32 (rotl 32 (N.lxor a b) b) (nth (2 * i) (rc5_s c) 0)).
  assert (Ha' : a' < 2 ^ 32) by apply wadd_lt.
  rewrite <- (rol_rotl 32 (N.lxor b a')) by (try apply lxor_lt; auto; lia).
  unfold rc5_unround.
  rewrite wsub_wadd by (auto; apply rotl_lt, lxor_lt; auto).
  rewrite rotr_rotl by (try apply lxor_lt; auto; lia).
  rewrite lxor_cancel. unfold a'.
  rewrite wsub_wadd by (auto; apply rotl_lt, lxor_lt; auto).
  rewrite rotr_rotl by (try apply lxor_lt; auto; lia).
  now rewrite lxor_cancel.
Qed.

Lemma round_unround c i ab : rc5_ok c -> pair_ok ab ->
  rc5_round (rc5_s c) (rc5_unround (rc5_s c) i ab) i = ab.
Proof.
  destruct ab as (a, b). intros Hc [Ha Hb]. cbn [fst snd] in *.
  pose proof (rc5_key_lt c (2 * i) Hc) as K0. pose proof (rc5_key_lt c (2 * i + 1) Hc) as K1.
  unfold rc5_unround.
  set (b' := N.lxor (rotr 32 (wsub 32 b (nth (2 * i + 1) (rc5_s c) 0)) a) a).
  assert (Hb' : b' < 2 ^ 32) by (apply lxor_lt; auto; apply rotr_lt, wsub_lt).
  unfold rc5_round. rewrite lxor_cancel.
  rewrite <- rol_rotl by (try apply rotr_lt, wsub_lt; lia).
  rewrite rotl_rotr by (try apply wsub_lt; lia).
  rewrite <- !wadd_plus. rewrite wadd_wsub by auto.
  unfold b'. rewrite lxor_cancel.
  rewrite <- rol_rotl by (try apply rotr_lt, wsub_lt; lia).
  rewrite rotl_rotr by (try apply wsub_lt; lia).
  rewrite wadd_wsub by auto. reflexivity.
Qed.

Lemma fold_rounds_lt s l ab : pair_ok ab -> pair_ok (fold_left (rc5_round s) l ab).
Proof. revert ab. induction l; intros ab H; cbn [fold_left]; auto. apply IHl, rc5_round_lt. Qed.

Lemma fold_unrounds_lt s l ab : pair_ok ab ->
  pair_ok (fold_left (fun ab i => rc5_unround s i ab) l ab).
Proof. revert ab. induction l; intros ab H; cbn [fold_left]; auto. apply IHl. now apply rc5_unround_lt. Qed.

Lemma unrounds_rounds c l ab : rc5_ok c -> pair_ok ab ->
  fold_left (fun ab i => rc5_unround (rc5_s c) i ab) (rev l) (fold_left (rc5_round (rc5_s c)) l ab) = ab.
Proof.
  intros Hc. revert ab. induction l as [|i l IH]; intros ab H; [reflexivity|].
  cbn [fold_left rev]. rewrite fold_left_app, IH by apply rc5_round_lt. cbn [fold_left].
  now apply unround_round.
Qed.

Lemma rounds_unrounds c l ab : rc5_ok c -> pair_ok ab ->
  fold_left (rc5_round (rc5_s c)) l (fold_left (fun ab i => rc5_unround (rc5_s c) i ab) (rev l) ab) = ab.
Proof.
  intros Hc. revert ab. induction l as [|i l IH] using rev_ind; intros ab H; [reflexivity|].
  rewrite rev_app_distr. cbn [rev app fold_left]. rewrite fold_left_app, IH by now apply rc5_unround_lt.
  cbn [fold_left]. now apply round_unround.
Qed.

Definition rc5_unrounds (c : rc5) (p : N * N) : N * N :=
  let (a, b) := fold_left (fun ab i => rc5_unround (rc5_s c) i ab) (rev (seq 1 (ix (rc5_r c)))) p in
  (wsub 32 a (nth 0 (rc5_s c) 0), wsub 32 b (nth 1 (rc5_s c) 0)).

Lemma decrypt_32_eq c a b : rc5_ok c -> rc5_decrypt_32 c (a, b) = Ok (rc5_unrounds c (a, b)).
Proof.
  intros Hc. pose proof (proj1 Hc) as Hl. unfold rc5_decrypt_32, rc5_unrounds.
  match goal with |- bind (forM _ ?f ?s0) _ = _ =>
    destruct (forM_fold (rev (range 1 (ix (rc5_r c) + 1))) f (fun i p => rc5_unround (rc5_s c) i p)
      (fun _ => True) s0) as [E _] end; auto.
  - intros i (x, y) Hi _. apply in_rev in Hi. apply in_range in Hi.
    rewrite (idx_nth _ (2 * i) 0) by lia. cbn [bind]. rewrite (idx_nth _ (2 * i + 1) 0) by lia. cbn [bind].
    split; [reflexivity|exact I].
  - rewrite E. cbn [bind]. unfold range. replace (ix (rc5_r c) + 1 - 1)%nat with (ix (rc5_r c)) by lia.
    clear E. rewrite (idx_nth _ 0 0), (idx_nth _ 1 0) by lia. cbn [bind].
    match goal with |- context [fold_left ?f ?l ?p] => destruct (fold_left f l p) as (x, y) end.
    reflexivity.
Qed.

Lemma rc5_inverse c block : rc5_ok c -> length block = 8%nat -> bytes block ->
  exists e d, rc5_encrypt c block = Ok e /\ length e = 8%nat /\ bytes e /\ rc5_decrypt c e = Ok block /\
              rc5_decrypt c block = Ok d /\ length d = 8%nat /\ bytes d /\ rc5_encrypt c d = Ok block.
Proof.
  intros Hc Hl Hb. destruct (rc5_load_words block Hl Hb) as (a & b & E & Hp & Hs).
  pose proof (rc5_key_lt c 0 Hc) as K0. pose proof (rc5_key_lt c 1 Hc) as K1.
  pose proof Hp as [Ha Hbb]. cbn [fst snd] in Ha, Hbb.
  set (w := (plus_w 32 a (nth 0 (rc5_s c) 0), plus_w 32 b (nth 1 (rc5_s c) 0))).
  assert (Hw : pair_ok w) by (split; apply mod_pow2_lt).
  pose proof (fold_rounds_lt (rc5_s c) (seq 1 (ix (rc5_r c))) w Hw) as He.
  pose proof (unrounds_rounds c (seq 1 (ix (rc5_r c))) w Hc Hw) as I1.
  pose proof (encrypt_32_eq c a b Hc Hp) as Ee. fold w in Ee.
  destruct (fold_left (rc5_round (rc5_s c)) (seq 1 (ix (rc5_r c))) w) as (x, y) eqn:Ex.
  pose proof (rounds_unrounds c (seq 1 (ix (rc5_r c))) (a, b) Hc Hp) as I2.
  pose proof (fold_unrounds_lt (rc5_s c) (rev (seq 1 (ix (rc5_r c)))) (a, b) Hp) as Hd.
  pose proof (decrypt_32_eq c a b Hc) as Ed. unfold rc5_unrounds in Ed.
  destruct (fold_left (fun ab i => rc5_unround (rc5_s c) i ab) (rev (seq 1 (ix (rc5_r c)))) (a, b))
    as (u, v) eqn:Eu.
  destruct Hd as [Hu Hv]. cbn [fst snd] in Hu, Hv.
  exists (le_bytes 4 x ++ le_bytes 4 y),
    (le_bytes 4 (wsub 32 u (nth 0 (rc5_s c) 0)) ++ le_bytes 4 (wsub 32 v (nth 1 (rc5_s c) 0))).
  split; [|split; [apply rc5_store_wf|split; [apply rc5_store_wf|split]]];
    [| |split; [|split; [apply rc5_store_wf|split; [apply rc5_store_wf|]]]].
  - unfold rc5_encrypt. rewrite E. cbn [bind]. rewrite Ee. cbn [bind]. apply rc5_store_eq.
  - unfold rc5_decrypt. rewrite rc5_load_store by auto. cbn [bind]. rewrite decrypt_32_eq by auto. cbn [bind].
    unfold rc5_unrounds. rewrite I1. unfold w. rewrite <- !wadd_plus, !wsub_wadd by auto.
    rewrite rc5_store_eq. now rewrite Hs.
  - unfold rc5_decrypt. rewrite E. cbn [bind]. rewrite Ed. cbn [bind]. apply rc5_store_eq.
  - unfold rc5_encrypt. rewrite rc5_load_store by (split; apply wsub_lt). cbn [bind].
    rewrite encrypt_32_eq by (auto; split; apply wsub_lt). cbn [bind].
    rewrite <- !wadd_plus, !wadd_wsub by auto. rewrite I2. rewrite rc5_store_eq. now rewrite Hs.
Qed.

Lemma rc5_conforms key r block : (1 <= length key <= 255)%nat -> length block = 8%nat -> bytes block ->
  exists c, rc5_new key r = Ok c /\
    rc5_encrypt c block = Ok (rc5_spec_encrypt (rc5_table key (N.to_nat r)) (N.to_nat r) block).
Proof.
  intros Hk Hl Hb. eexists. split; [now apply rc5_new_ok|].
  rewrite rc5_encrypt_eq by (auto using rc5_new_wf). reflexivity.
Qed.

Lemma rc5_key_domain key r : (exists c, rc5_new key r = Ok c) <-> (1 <= length key <= 255)%nat.
Proof.
  split.
  - intros [c E]. destruct (Nat.eq_dec (length key) 0) as [H0|H0].
    + destruct key; [|discriminate H0]. rewrite rc5_new_empty in E. discriminate E.
    + destruct (Nat.le_gt_cases 256 (length key)) as [H1|H1]; [|lia].
      rewrite rc5_new_long in E by auto. discriminate E.
  - intros H. eexists. now apply rc5_new_ok.
Qed.

Lemma rc5_valid_inverse key r c block : rc5_new key r = Ok c -> length block = 8%nat -> bytes block ->
  exists e d, rc5_encrypt c block = Ok e /\ length e = 8%nat /\ bytes e /\ rc5_decrypt c e = Ok block /\
              rc5_decrypt c block = Ok d /\ length d = 8%nat /\ bytes d /\ rc5_encrypt c d = Ok block.
Proof.
  intros E. pose proof (proj1 (rc5_key_domain key r) (ex_intro _ c E)) as H.
  rewrite rc5_new_ok in E by auto. apply Ok_inj in E. subst c. apply rc5_inverse. now apply rc5_new_wf.
Qed.

Lemma rc5_cipher_inverse key r c : rc5_new key r = Ok c -> cipher_inverse 8 (rc5_cipher c).
Proof.
  intros E b Hl Hb. destruct (rc5_valid_inverse key r c b E Hl Hb) as (e & d & H1 & H2 & H3 & H4 & _).
  exists e. cbn. auto.
Qed.

Lemma rc5_empty_refuted : exists key, (length key <= 255)%nat /\ bytes key /\
  forall r, rc5_new key r = Panic PIndex.
Proof. exists []. split; [cbn; lia|]. split; [constructor|]. apply rc5_new_empty. Qed.

Lemma rc5_new_panics key r : ~ (1 <= length key <= 255)%nat ->
  rc5_new key r = Panic (if (length key =? 0)%nat then PIndex else PAssert).
Proof.
  intros H. destruct (Nat.eqb_spec (length key) 0) as [H0|H0].
  - destruct key; [|discriminate H0]. apply rc5_new_empty.
  - apply rc5_new_long. lia.
Qed.
