(** * RC4 *)
From Coq Require Import ZifyBool ZifyNat ZifyN Permutation FinFun.
From Verif Require Import Base BaseLemmas ModelBlock ModelRc SpecBlock SpecEndian SpecWord SpecRc
  ProofBlock.
Ltac Zify.zify_post_hook ::= Z.div_mod_to_equations.

Lemma exchange_length s i j : length (exchange s i j) = length s.
Proof. unfold exchange. now rewrite map_length, seq_length. Qed.

Lemma nth_exchange s i j k : (k < length s)%nat ->
  nth k (exchange s i j) 0 =
  if (k =? i)%nat then nth j s 0 else if (k =? j)%nat then nth i s 0 else nth k s 0.
Proof.
  intros H. unfold exchange.
  set (f := fun k => if (k =? i)%nat then nth j s 0 else if (k =? j)%nat then nth i s 0 else nth k s 0).
  rewrite (nth_indep _ 0 (f O)) by (rewrite map_length, seq_length; lia).
  rewrite map_nth, seq_nth by lia. reflexivity.
Qed.

Lemma swap_exchange s i j : (i < length s)%nat -> (j < length s)%nat ->
  swap s i j = Ok (exchange s i j).
Proof.
  intros Hi Hj. unfold swap. rewrite !(idx_nth _ _ 0) by auto. cbn [bind].
  rewrite upd_ok by auto. cbn [bind]. rewrite upd_ok by (rewrite set_nth_length; auto).
  f_equal. apply (list_ext 0).
  - rewrite !set_nth_length, exchange_length; rewrite ?set_nth_length; auto.
  - rewrite !set_nth_length by (rewrite ?set_nth_length; auto). intros k Hk.
    rewrite nth_exchange, !nth_set_nth by (rewrite ?set_nth_length; auto).
    destruct (Nat.eqb_spec k i), (Nat.eqb_spec k j), (Nat.eqb_spec j k), (Nat.eqb_spec i k);
      congruence.
Qed.

Lemma exchange_perm s i j : (i < length s)%nat -> (j < length s)%nat ->
  Permutation s (exchange s i j).
Proof.
  intros Hi Hj. apply (Permutation_nth s (exchange s i j) 0). cbv zeta.
  split; [apply exchange_length|].
  exists (fun k => if (k =? i)%nat then j else if (k =? j)%nat then i else k).
  split; [|split].
  - intros k Hk. destruct (Nat.eqb_spec k i), (Nat.eqb_spec k j); auto.
  - intros a b Ha Hb. destruct (Nat.eqb_spec a i), (Nat.eqb_spec b i), (Nat.eqb_spec a j),
      (Nat.eqb_spec b j); congruence.
  - intros k Hk. rewrite nth_exchange by auto.
    destruct (Nat.eqb_spec k i), (Nat.eqb_spec k j); reflexivity.
Qed.

Definition identity : list N := map N.of_nat (seq 0 256).

Definition rc4_table_ok (s : list N) : Prop := Permutation identity s.

Lemma table_length s : rc4_table_ok s -> length s = 256%nat.
Proof. intros H. apply Permutation_length in H. rewrite <- H. reflexivity. Qed.

Lemma table_bytes s : rc4_table_ok s -> bytes s.
Proof.
  intros H. apply (Permutation_Forall H). apply Forall_forall. intros x Hx.
  apply in_map_iff in Hx as (i & <- & Hi). apply in_seq in Hi. unfold byte. lia.
Qed.

Lemma table_nth s i : rc4_table_ok s -> nth i s 0 < 256.
Proof.
  intros H. destruct (Nat.lt_ge_cases i (length s)).
  - apply (Forall_nth_lt byte); auto. now apply table_bytes.
  - now rewrite nth_overflow.
Qed.

Lemma table_exchange s i j : rc4_table_ok s -> (i < 256)%nat -> (j < 256)%nat ->
  rc4_table_ok (exchange s i j).
Proof.
  intros H Hi Hj. eapply Permutation_trans; [exact H|].
  apply exchange_perm; now rewrite table_length.
Qed.

Lemma init_loop : forM (range 0 256) (fun i state => upd state i (N.of_nat i)) (repeat 0 256)
  = Ok identity.
Proof. vm_compute. reflexivity. Qed.

Definition ksa_step (key : list N) : list N * N -> nat -> list N * N :=
  fun '(s, j) i =>
         let j := (j + nth i s 0 + nth (i mod length key) key 0) mod 256 in
         (exchange s i (N.to_nat j), j).

Lemma ksa_eq key : rc4_ksa key = fst (fold_left (ksa_step key) (seq 0 256) (identity, 0)).
Proof. unfold rc4_ksa, ksa_step, identity. exact eq_refl. Qed.

Lemma ksa_loop key : key <> [] -> bytes key ->
  exists st, forM (range 0 256) (fun i '(state, j) =>
      let* ki := match length key with
                 | O => Panic PDivZero
                 | len => Ok (i mod len)%nat
                 end in
      let* k := idx key ki in
      let* s := idx state i in
      let j := wadd 8 (wadd 8 k s) j in
      let* state := swap state i (ix j) in
      Ok (state, j)) (identity, 0) = Ok st /\
    fst st = rc4_ksa key /\ rc4_table_ok (fst st).
Proof.
  intros Hne Hb.
  assert (Hl : (0 < length key)%nat) by (destruct key; [congruence|cbn; lia]).
  match goal with |- exists st, forM _ ?f _ = _ /\ _ =>
    destruct (forM_range_inv (fun n st => st = fold_left (ksa_step key) (seq 0 n) (identity, 0) /\
       rc4_table_ok (fst st)) f 0 256 (identity, 0)) as (st & E & P & Q) end.
  - lia.
  - split; [reflexivity|]. apply Permutation_refl.
  - intros i (s, j) Hi [E T]. cbn [fst] in T.
    replace (match length key with O => Panic PDivZero | S n => Ok (i mod S n)%nat end)
      with (Ok (i mod length key)%nat) by (destruct (length key); [lia|reflexivity]).
    cbn [bind].
    assert (Hm : (i mod length key < length key)%nat) by (apply Nat.mod_upper_bound; lia).
    rewrite (idx_nth _ _ 0) by auto. cbn [bind].
    pose proof (table_length s T) as L.
    rewrite (idx_nth _ _ 0) by lia. cbn [bind].
    set (k := nth (i mod length key) key 0). set (v := nth i s 0).
    assert (Hj : wadd 8 (wadd 8 k v) j = (j + v + k) mod 256).
    { unfold wadd. change (2 ^ 8) with 256. lia. }
    rewrite Hj.
    assert (Hj' : (ix ((j + v + k) mod 256) < 256)%nat) by (unfold ix; lia).
    rewrite swap_exchange by lia. cbn [bind].
    eexists. split; [reflexivity|]. split.
    + rewrite seq_S, fold_left_app, <- E. reflexivity.
    + cbn [fst]. apply table_exchange; auto. lia.
  - exists st. split; [exact E|]. split; [rewrite P, ksa_eq; exact eq_refl|exact Q].
Qed.

Definition ks_state (ks : rc4) : list N * N * N := (rc4_state ks, rc4_x ks, rc4_y ks).
Definition of_state (st : list N * N * N) : rc4 :=
  let '(s, i, j) := st in {| rc4_state := s; rc4_x := i; rc4_y := j |}.

Lemma rc4_new_eq key : key <> [] -> bytes key ->
  rc4_new key = Ok (of_state (rc4_ksa key, 0, 0)) /\ rc4_table_ok (rc4_ksa key).
Proof.
  intros Hne Hb. unfold rc4_new. rewrite init_loop. cbn [bind].
  destruct (ksa_loop key Hne Hb) as ((s, j) & E & P & Q).
  cbn [bind fst] in *. rewrite E. cbn [bind]. subst s. auto.
Qed.

Lemma rc4_new_empty : rc4_new [] = Panic PDivZero.
Proof. unfold rc4_new. rewrite init_loop. reflexivity. Qed.

Lemma rc4_next_eq st : rc4_table_ok (fst (fst st)) -> snd (fst st) < 256 -> snd st < 256 ->
  rc4_next (of_state st) = Ok (Some (fst (rc4_prga st)), of_state (snd (rc4_prga st))) /\
  rc4_table_ok (fst (fst (snd (rc4_prga st)))) /\
  snd (fst (snd (rc4_prga st))) < 256 /\ snd (snd (rc4_prga st)) < 256 /\ fst (rc4_prga st) < 256.
Proof.
  destruct st as ((s, i), j). cbn [fst snd]. intros T Hi Hj.
  pose proof (table_length s T) as L.
  unfold rc4_next, rc4_next_key, of_state. cbn [rc4_state rc4_x rc4_y].
  assert (Hx : wadd 8 i 1 = (i + 1) mod 256) by reflexivity.
  rewrite Hx. set (x := (i + 1) mod 256).
  assert (Lx : x < 256) by (unfold x; lia).
  rewrite (idx_nth _ _ 0) by (unfold ix; lia). cbn [bind].
  change (wadd 8 (nth (ix x) s 0) j) with ((nth (ix x) s 0 + j) mod 256).
  rewrite (N.add_comm (nth (ix x) s 0) j).
  set (y := (j + nth (ix x) s 0) mod 256).
  assert (Ly : y < 256) by (unfold y; lia).
  rewrite swap_exchange by (unfold ix; lia). cbn [bind].
  set (s' := exchange s (ix x) (ix y)).
  assert (T' : rc4_table_ok s') by (apply table_exchange; auto; unfold ix; lia).
  pose proof (table_length s' T') as L'.
  rewrite !(idx_nth _ _ 0) by (unfold ix; lia). cbn [bind].
  set (z := wadd 8 (nth (ix x) s' 0) (nth (ix y) s' 0)).
  assert (Lz : z < 256) by apply (wadd_lt 8).
  rewrite !(idx_nth _ _ 0) by (unfold ix; lia). cbn [bind].
  unfold rc4_prga. cbn [fst snd]. fold x. change (N.to_nat x) with (ix x).
  fold y. change (N.to_nat y) with (ix y). fold s'.
  repeat split; auto. now apply table_nth.
Qed.

Lemma rc4_yields n st : rc4_table_ok (fst (fst st)) -> snd (fst st) < 256 -> snd st < 256 ->
  yields rc4_next (of_state st) (fst (rc4_run n st)) (of_state (snd (rc4_run n st))) /\
  rc4_table_ok (fst (fst (snd (rc4_run n st)))) /\
  length (fst (rc4_run n st)) = n /\ bytes (fst (rc4_run n st)).
Proof.
  revert st. induction n; intros st T Hi Hj.
  - cbn [rc4_run fst snd]. repeat split; auto; constructor.
  - cbn [rc4_run]. destruct (rc4_next_eq st T Hi Hj) as (E & T' & Hi' & Hj' & Hk).
    destruct (rc4_prga st) as [k st']. cbn [fst snd] in *.
    destruct (IHn st' T' Hi' Hj') as (Y & T'' & L & B).
    destruct (rc4_run n st') as [ks st'']. cbn [fst snd length] in *.
    repeat split; auto.
    + econstructor; eauto.
    + constructor; auto.
Qed.

Lemma rc4_conforms key n : key <> [] -> bytes key ->
  exists ks ks', rc4_new key = Ok ks /\ yields rc4_next ks (rc4_stream key n) ks' /\
    Permutation (map N.of_nat (seq 0 256)) (rc4_state ks').
Proof.
  intros Hne Hb. destruct (rc4_new_eq key Hne Hb) as [E T].
  destruct (rc4_yields n (rc4_ksa key, 0, 0) T) as (Y & T' & _); [reflexivity..|].
  exists (of_state (rc4_ksa key, 0, 0)), (of_state (snd (rc4_run n (rc4_ksa key, 0, 0)))).
  split; auto. split; [exact Y|].
  destruct (snd (rc4_run n (rc4_ksa key, 0, 0))) as ((s, i), j). exact T'.
Qed.

Lemma rc4_stream_length key n : key <> [] -> bytes key ->
  length (rc4_stream key n) = n /\ bytes (rc4_stream key n).
Proof.
  intros Hne Hb. destruct (rc4_new_eq key Hne Hb) as [_ T].
  destruct (rc4_yields n (rc4_ksa key, 0, 0) T) as (_ & _ & L & B); [reflexivity..|].
  split; [exact L|exact B].
Qed.

Lemma rc4_encrypt_eq key p : key <> [] -> bytes key ->
  exists ks, rc4_new key = Ok ks /\
    rc4_encrypt ks p = Ok (xor_bytes (rc4_stream key (length p)) p) /\
    rc4_decrypt ks p = Ok (xor_bytes (rc4_stream key (length p)) p) /\
    length (xor_bytes (rc4_stream key (length p)) p) = length p.
Proof.
  intros Hne Hb. destruct (rc4_conforms key (length p) Hne Hb) as (ks & ks' & E & Y & _).
  destruct (rc4_stream_length key (length p) Hne Hb) as [L _].
  assert (R : rc4_encrypt ks p = Ok (xor_bytes (rc4_stream key (length p)) p)).
  { unfold rc4_encrypt. rewrite (sc_encrypt_eq rc4_next _ _ _ p Y L). reflexivity. }
  exists ks. repeat split; auto. now rewrite xor_bytes_length.
Qed.

Lemma rc4_roundtrip key p : key <> [] -> bytes key ->
  exists ks c, rc4_new key = Ok ks /\ rc4_encrypt ks p = Ok c /\ length c = length p /\
    rc4_decrypt ks c = Ok p.
Proof.
  intros Hne Hb. destruct (rc4_encrypt_eq key p Hne Hb) as (ks & E & R & _ & L).
  exists ks. eexists. split; [exact E|]. split; [exact R|]. split; [exact L|].
  unfold rc4_decrypt, rc4_encrypt in *. apply bind_ok_inv in R as ([c k] & R & R').
  apply Ok_inj in R'. rewrite <- R'. destruct (sc_involution _ _ _ _ _ R) as [_ I]. now rewrite I.
Qed.

Lemma rc4_pieces key ds : key <> [] -> bytes key ->
  exists ks ks' cs, rc4_new key = Ok ks /\ sc_pieces rc4_next ks ds = Ok (cs, ks') /\
    rc4_encrypt ks (concat ds) = Ok (concat cs).
Proof.
  intros Hne Hb. destruct (rc4_encrypt_eq key (concat ds) Hne Hb) as (ks & E & R & _).
  unfold rc4_encrypt in R. rewrite sc_pieces_concat in R.
  destruct (sc_pieces rc4_next ks ds) as [[cs ks']|] eqn:P; [|discriminate R].
  exists ks, ks', cs. split; auto. split; auto. unfold rc4_encrypt.
  rewrite sc_pieces_concat, P. reflexivity.
Qed.
