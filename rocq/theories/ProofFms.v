(** * Proofs: the attack of Fluhrer, Mantin and Shamir *)
From Coq Require Import Permutation.
From Verif Require Import Base BaseLemmas ModelBlock ModelRc SpecBlock SpecRc SpecFms ProofRc4.
From Coq Require Import ZifyBool ZifyNat ZifyN.
Local Open Scope N_scope.

Lemma setup_S key n : setup key (S n) =
  let (s, j) := setup key n in
  let j := (j + nth n s 0 + nth (n mod length key) key 0) mod 256 in (exchange s n (N.to_nat j), j).
Proof.
  unfold setup. rewrite seq_S. cbn [Nat.add]. rewrite fold_left_app. cbn [fold_left].
  destruct (fold_left _ (seq 0 n) _) as [s j]. reflexivity.
Qed.

Lemma setup_ksa key : rc4_ksa key = fst (setup key 256).
Proof. unfold rc4_ksa, setup. exact eq_refl. Qed.

Lemma setup_ok key n : (n <= 256)%nat -> rc4_table_ok (fst (setup key n)) /\ snd (setup key n) < 256.
Proof.
  induction n as [|n IH]; intros H; [split; [apply Permutation_refl|reflexivity]|].
  rewrite setup_S. destruct IH as [T J]; [lia|]. destruct (setup key n) as [s j]. cbn [fst snd] in *. cbv zeta.
  assert (M : (j + nth n s 0 + nth (n mod length key) key 0) mod 256 < 256) by (apply N.mod_lt; lia).
  cbn [fst snd]. split; [|exact M]. apply table_exchange; [exact T|lia|lia].
Qed.

(** The known bytes determine the first steps. *)
Lemma setup_prefix known rest n : (n <= length known)%nat -> setup (known ++ rest) n = setup known n.
Proof.
  induction n as [|n IH]; intros H; [reflexivity|]. rewrite !setup_S, IH by lia.
  destruct (setup known n) as [s j].
  replace (nth (n mod length (known ++ rest)) (known ++ rest) 0) with (nth (n mod length known) known 0); [reflexivity|].
  rewrite app_length. rewrite !Nat.mod_small by lia. now rewrite app_nth1 by lia.
Qed.

Lemma entry_stays key p n : (p < n)%nat -> (n < 256)%nat -> pointer key n <> N.of_nat p ->
  nth p (fst (setup key (S n))) 0 = nth p (fst (setup key n)) 0.
Proof.
  intros Hp Hn. unfold pointer. destruct (setup_ok key n) as [T J]; [lia|]. rewrite setup_S.
  destruct (setup key n) as [s j]. cbn [fst snd] in *. cbv zeta. cbn [fst snd]. intros NE.
  pose proof (table_length s T) as L. rewrite nth_exchange by lia.
  destruct (Nat.eqb_spec p n); [lia|].
  match goal with |- (if (p =? N.to_nat ?q)%nat then _ else _) = _ => destruct (Nat.eqb_spec p (N.to_nat q)); [lia|reflexivity] end.
Qed.

Lemma entry_kept key p a m : (p < a)%nat -> (a + m <= 256)%nat ->
  (forall i, (a <= i < a + m)%nat -> pointer key i <> N.of_nat p) ->
  nth p (fst (setup key (a + m))) 0 = nth p (fst (setup key a)) 0.
Proof.
  intros Hp. induction m as [|m IH]; intros L H; [now rewrite Nat.add_0_r|].
  rewrite Nat.add_succ_r, entry_stays; [|lia|lia|apply H; lia]. apply IH; [lia|]. intros i Hi. apply H. lia.
Qed.

(** Tables have no entry twice. *)
Lemma place_nth s : NoDup s -> forall i, (i < length s)%nat -> place (nth i s 0) s = N.of_nat i.
Proof.
  induction 1 as [|x s Hx ND IH]; intros i Hi; [cbn in Hi; lia|].
  cbn [length] in Hi. destruct i as [|i]; cbn [nth place]; [now rewrite N.eqb_refl|].
  destruct (N.eqb_spec x (nth i s 0)) as [E|E].
  - exfalso. apply Hx. rewrite E. apply nth_In. lia.
  - rewrite IH by lia. lia.
Qed.

Lemma table_nodup s : rc4_table_ok s -> NoDup s.
Proof.
  intros T. apply (Permutation_NoDup T). unfold identity. apply FinFun.Injective_map_NoDup; [|apply seq_NoDup].
  intros a b. lia.
Qed.

Lemma first_byte s x y : rc4_table_ok s -> nth 1 s 0 = x -> nth (N.to_nat x) s 0 = y ->
  (x + y) mod 256 <> 1 -> (x + y) mod 256 <> x ->
  fst (rc4_prga (s, 0, 0)) = nth (N.to_nat ((x + y) mod 256)) s 0.
Proof.
  intros T X Y N1 Nx. pose proof (table_length s T) as L. pose proof (table_nth s 1 T) as Bx. rewrite X in Bx.
  unfold rc4_prga. change ((0 + 1) mod 256) with 1. change (N.to_nat 1) with 1%nat. rewrite X.
  replace ((0 + x) mod 256) with x by (rewrite N.mod_small; lia). cbn [fst].
  assert (E1 : nth 1 (exchange s 1 (N.to_nat x)) 0 = y).
  { rewrite nth_exchange by lia. change (1 =? 1)%nat with true. exact Y. }
  assert (Ex : nth (N.to_nat x) (exchange s 1 (N.to_nat x)) 0 = x).
  { rewrite nth_exchange by lia. rewrite Nat.eqb_refl. destruct (Nat.eqb_spec (N.to_nat x) 1) as [E|E]; [|exact X].
    rewrite E. exact X. }
  rewrite E1, Ex, (N.add_comm y x). assert (M : (x + y) mod 256 < 256) by (apply N.mod_lt; lia).
  rewrite nth_exchange by lia.
  destruct (Nat.eqb_spec (N.to_nat ((x + y) mod 256)) 1); [lia|].
  destruct (Nat.eqb_spec (N.to_nat ((x + y) mod 256)) (N.to_nat x)); [lia|reflexivity].
Qed.

Lemma back b j v : b < 256 -> j < 256 -> v < 256 -> ((j + v + b) mod 256 + 512 - j - v) mod 256 = b.
Proof. intros. lia. Qed.

Lemma fms_core known k rest t m : let key := known ++ k :: rest in
  m = 256%nat -> t = fst (setup key m) -> rc4_table_ok t ->
  bytes key -> (1 < length known)%nat -> (length key <= m)%nat -> resolved known ->
  avoids key (length known) m [1; nth 1 (fst (setup known (length known))) 0] ->
  avoids key (S (length known)) m [N.of_nat (length known)] ->
  fms known (fst (rc4_prga (t, 0, 0))) = k.
Proof.
  intros key Hm Et T B L1 L R A A'. unfold resolved in R. unfold fms.
  assert (Lk : length key = (length known + S (length rest))%nat) by (subst key; now rewrite app_length).
  remember (length known) as a eqn:Ea.
  assert (Ep : setup known a = setup key a) by (subst key; symmetry; apply setup_prefix; lia).
  rewrite Ep in *. clear Ep.
  assert (K : forall p, (p < a)%nat -> (forall i, (a <= i < m)%nat -> pointer key i <> N.of_nat p) ->
    nth p t 0 = nth p (fst (setup key a)) 0).
  { intros p Hp H. rewrite Et. replace m with (a + (m - a))%nat by lia. apply entry_kept; [exact Hp|lia|].
    intros i Hi. apply H. lia. }
  assert (Ka : nth a t 0 = nth a (fst (setup key (S a))) 0).
  { rewrite Et. replace m with (S a + (m - S a))%nat by lia. apply entry_kept; [lia|lia|].
    intros i Hi F. apply (A' i); [lia|]. left. now symmetry. }
  clear Et. destruct (setup_ok key a) as [Ta Ja]; [lia|].
  rewrite setup_S in Ka.
  assert (Kb : nth (a mod length key) key 0 = k).
  { rewrite Nat.mod_small by lia. subst key. rewrite app_nth2 by lia. rewrite <- Ea, Nat.sub_diag. reflexivity. }
  rewrite Kb in Ka.
  assert (Bk : k < 256).
  { unfold bytes in B. subst key. apply Forall_app in B as [_ B]. now inversion B. }
  clearbody key. destruct (setup key a) as [s j]. cbn [fst snd] in *. cbv zeta in Ka.
  destruct R as [R1 R2]. remember (nth 1 s 0) as x eqn:Ex.
  assert (X1 : nth 1 t 0 = x).
  { rewrite Ex. apply K; [lia|]. intros i Hi G. apply (A i); [lia|]. left. now symmetry. }
  assert (Xx : nth (N.to_nat x) t 0 = nth (N.to_nat x) s 0).
  { apply K; [lia|]. intros i Hi G. apply (A i); [lia|]. right. left. rewrite G. lia. }
  pose proof (table_length s Ta) as Ls. pose proof (table_nth s a Ta) as Bv.
  rewrite (first_byte t x _ T X1 Xx); [|rewrite R2; lia|rewrite R2; lia].
  rewrite R2, Nat2N.id, Ka.
  remember ((j + nth a s 0 + k) mod 256) as j' eqn:Ej'.
  assert (Bj' : j' < 256) by (subst j'; apply N.mod_lt; lia).
  cbn [fst]. rewrite nth_exchange by lia. rewrite Nat.eqb_refl.
  rewrite (place_nth s (table_nodup s Ta)) by lia. rewrite N2Nat.id, Ej'. now apply back.
Qed.

Lemma fms_works known k rest ks z ks' : let key := known ++ k :: rest in
  bytes key -> (1 < length known)%nat -> (length key <= 256)%nat -> resolved known ->
  avoids key (length known) 256 [1; nth 1 (fst (setup known (length known))) 0] ->
  avoids key (S (length known)) 256 [N.of_nat (length known)] ->
  rc4_new key = Ok ks -> rc4_next ks = Ok (Some z, ks') -> fms known z = k.
Proof.
  intros key B L1 L R A A' E1 E2.
  assert (Hne : key <> []) by (subst key; destruct known; discriminate).
  destruct (rc4_new_eq key Hne B) as [E T]. rewrite E in E1. apply Ok_inj in E1. subst ks. clear E.
  pose proof (setup_ksa key) as Et. remember (rc4_ksa key) as t eqn:Ht. clear Ht.
  destruct (rc4_next_eq (t, 0, 0) T) as [F _]; [reflexivity|reflexivity|].
  rewrite F in E2. apply Ok_inj in E2. apply (f_equal fst) in E2. cbn [fst] in E2.
  apply (f_equal (fun o => match o with Some v => v | None => 0 end)) in E2. cbv beta iota in E2.
  rewrite <- E2. exact (fms_core known k rest t 256 eq_refl Et T B L1 L R A A').
Qed.

(** ** The prefix (a + 3, 255, x) *)
Lemma iv_resolved a x secret : (a + 3 <= 255)%nat -> x < 256 -> length secret = a ->
  let known := N.of_nat (a + 3) :: 255 :: x :: secret in
  avoids known 2 (a + 3) [0; 1] -> resolved known /\ nth 1 (fst (setup known (length known))) 0 = 0.
Proof.
  intros Ha Hx Hs known A.
  assert (Lk : length known = (a + 3)%nat) by (subst known; cbn [length]; lia).
  unfold resolved. rewrite Lk.
  assert (K : forall p, (p < 2)%nat -> nth p (fst (setup known (a + 3))) 0 = nth p (fst (setup known 2)) 0).
  { intros p Hp. replace (a + 3)%nat with (2 + (a + 1))%nat by lia. apply entry_kept; [lia|lia|].
    intros i Hi F. apply (A i); [lia|]. rewrite F. destruct p as [|[|p]]; [now left|right; now left|lia]. }
  assert (I : forall i, (i < 256)%nat -> nth i (fst (setup known 0)) 0 = N.of_nat i).
  { intros i Hi. change (fst (setup known 0)) with (map N.of_nat (seq 0 256)). change 0 with (N.of_nat 0). rewrite (map_nth N.of_nat _ 0%nat). now rewrite seq_nth. }
  assert (L0 : length (fst (setup known 0)) = 256%nat).
  { change (fst (setup known 0)) with (map N.of_nat (seq 0 256)). now rewrite map_length, seq_length. }
  assert (S1 : setup known 1 = (exchange (fst (setup known 0)) 0 (a + 3), N.of_nat (a + 3))).
  { rewrite setup_S. assert (Sj : snd (setup known 0) = 0) by reflexivity.
    destruct (setup known 0) as [s j]. cbn [fst snd] in *. subst j. rewrite (I 0%nat) by lia.
    rewrite Nat.mod_small by lia. cbn [nth known].
    replace ((0 + N.of_nat 0 + N.of_nat (a + 3)) mod 256) with (N.of_nat (a + 3)) by (rewrite N.mod_small; lia).
    now rewrite Nat2N.id. }
  remember (fst (setup known 0)) as s0 eqn:Es0. clear Es0.
  remember (exchange s0 0 (a + 3)) as s1 eqn:Es1.
  assert (L1 : length s1 = 256%nat) by (rewrite Es1, exchange_length; exact L0).
  assert (N11 : nth 1 s1 0 = 1).
  { rewrite Es1, nth_exchange by lia. destruct (Nat.eqb_spec 1 0); [lia|].
    destruct (Nat.eqb_spec 1 (a + 3)); [lia|]. now apply I; lia. }
  assert (N1a : nth (a + 3) s1 0 = 0).
  { rewrite Es1, nth_exchange by lia. destruct (Nat.eqb_spec (a + 3) 0); [lia|]. rewrite Nat.eqb_refl. apply I; lia. }
  assert (N10 : nth 0 s1 0 = N.of_nat (a + 3)).
  { rewrite Es1, nth_exchange by lia. change (0 =? 0)%nat with true. apply I; lia. }
  assert (S2 : setup known 2 = (exchange s1 1 (a + 3), N.of_nat (a + 3))).
  { rewrite (setup_S known 1), S1. cbv zeta beta iota. rewrite N11. rewrite Nat.mod_small by lia.
    replace (nth 1 known 0) with 255 by reflexivity.
    replace ((N.of_nat (a + 3) + 1 + 255) mod 256) with (N.of_nat (a + 3)).
    - now rewrite Nat2N.id.
    - replace (N.of_nat (a + 3) + 1 + 255) with (N.of_nat (a + 3) + 1 * 256) by lia.
      rewrite N.mod_add by lia. symmetry. apply N.mod_small. lia. }
  assert (K1 : nth 1 (fst (setup known (a + 3))) 0 = 0).
  { rewrite K by lia. rewrite S2. cbn [fst]. rewrite nth_exchange by lia. change (1 =? 1)%nat with true. exact N1a. }
  assert (K0 : nth 0 (fst (setup known (a + 3))) 0 = N.of_nat (a + 3)).
  { rewrite K by lia. rewrite S2. cbn [fst]. rewrite nth_exchange by lia. destruct (Nat.eqb_spec 0 1); [lia|].
    destruct (Nat.eqb_spec 0 (a + 3)); [lia|exact N10]. }
  cbv zeta. rewrite K1. change (N.to_nat 0) with 0%nat. rewrite K0. split; [|reflexivity].
  split; [lia|]. rewrite N.add_0_l. apply N.mod_small. lia.
Qed.

Lemma avoids_prefix known rest a b ps : (b <= length known)%nat ->
  avoids (known ++ rest) a b ps -> avoids known a b ps.
Proof.
  intros H A i Hi. unfold pointer. rewrite <- (setup_prefix known rest) by lia. exact (A i Hi).
Qed.

Lemma fms_iv a x secret ks z ks' : let key := N.of_nat (a + 3) :: 255 :: x :: secret in
  bytes key -> (a < length secret)%nat -> (length key <= 256)%nat ->
  avoids key 2 256 [0; 1] -> avoids key (a + 4) 256 [N.of_nat (a + 3)] ->
  rc4_new key = Ok ks -> rc4_next ks = Ok (Some z, ks') ->
  fms (N.of_nat (a + 3) :: 255 :: x :: firstn a secret) z = nth a secret 0.
Proof.
  intros key B Ha L A A' E1 E2.
  pose (known := N.of_nat (a + 3) :: 255 :: x :: firstn a secret).
  assert (Lf : length (firstn a secret) = a) by (rewrite firstn_length; lia).
  assert (Lk : length known = (a + 3)%nat) by (unfold known; cbn [length]; lia).
  assert (Ek : key = known ++ nth a secret 0 :: skipn (S a) secret).
  { unfold key, known. cbn [app]. do 3 f_equal. clear - Ha. revert a Ha.
    induction secret as [|y secret IH]; intros a Ha; [cbn in Ha; lia|].
    destruct a as [|a]; [reflexivity|]. cbn [firstn skipn nth app]. f_equal. apply IH. cbn [length] in Ha. lia. }
  assert (Bx : x < 256).
  { unfold bytes in B. rewrite Forall_forall in B. apply B. right. right. now left. }
  assert (L' : (a + 3 <= 255)%nat) by (unfold key in L; cbn [length] in L; lia).
  clearbody key. subst key.
  destruct (iv_resolved a x (firstn a secret) L' Bx Lf) as [R R0].
  { apply (avoids_prefix _ (nth a secret 0 :: skipn (S a) secret)).
    - fold known. lia.
    - fold known. intros i Hi. apply A. lia. }
  fold known in R, R0. apply (fms_works known _ (skipn (S a) secret) ks z ks' B); auto.
  - lia.
  - rewrite R0, Lk. intros i Hi F. apply (A i); [lia|]. destruct F as [F|[F|[]]]; [right; now left|now left].
  - rewrite Lk. intros i Hi. apply A'. lia.
Qed.

(** ** All pointers in one pass *)
Fixpoint scan (key : list N) (m i : nat) (st : list N * N) : list N :=
  match m with
  | O => []
  | S m =>
      let (s, j) := st in
      let j := (j + nth i s 0 + nth (i mod length key) key 0) mod 256 in
      j :: scan key m (S i) (exchange s i (N.to_nat j), j)
  end.

Lemma scan_pointers key m : forall i k, (k < m)%nat -> nth k (scan key m i (setup key i)) 0 = pointer key (i + k).
Proof.
  induction m as [|m IH]; intros i k Hk; [lia|]. cbn [scan].
  assert (E : setup key (S i) = let (s, j) := setup key i in
    let j := (j + nth i s 0 + nth (i mod length key) key 0) mod 256 in (exchange s i (N.to_nat j), j)) by apply setup_S.
  destruct (setup key i) as [s j]. cbv zeta in E. rewrite <- E. destruct k as [|k].
  - cbn [nth]. unfold pointer. rewrite Nat.add_0_r, E. reflexivity.
  - cbn [nth]. rewrite IH by lia. f_equal. lia.
Qed.

Lemma avoids_check key n l a b ps : l = scan key n 0 (map N.of_nat (seq 0 256), 0) -> (b <= n)%nat ->
  forallb (fun i => negb (existsb (N.eqb (nth i l 0)) ps)) (seq a (b - a)) = true -> avoids key a b ps.
Proof.
  intros El Hb H i Hi F. rewrite forallb_forall in H. specialize (H i). rewrite in_seq in H.
  specialize (H ltac:(lia)). apply Bool.negb_true_iff in H. rewrite <- Bool.not_true_iff_false in H. apply H.
  apply existsb_exists. exists (pointer key i). split; [exact F|].
  rewrite El. pose proof (scan_pointers key n 0 i ltac:(lia)) as E. cbn [Nat.add] in E.
  unfold setup in E at 1. cbn [fold_left] in E. change (seq 0 0) with (@nil nat) in E. cbn [fold_left] in E.
  rewrite E. apply N.eqb_refl.
Qed.
