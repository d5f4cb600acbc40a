(** * Proofs: decrypting what is appended to a chosen text under ECB *)
From Verif Require Import Base BaseLemmas ModelPad ModelBlock SpecPad SpecBlock SpecEcb ProofPad ProofBlock ProofMalleable.
From Coq Require Import ZifyBool ZifyNat ZifyN.
Ltac Zify.zify_post_hook ::= idtac.
Local Open Scope N_scope.

Lemma piece_nth n (bs : list (list N)) : Forall (fun b => length b = n) bs -> forall q, (q < length bs)%nat ->
  piece n q (concat bs) = nth q bs [].
Proof.
  unfold piece. induction 1 as [|b bs L F IH]; intros q Hq; cbn [length] in Hq; [lia|]. cbn [concat].
  destruct q as [|q].
  - change (0 * n)%nat with 0%nat. cbn [skipn nth]. rewrite <- L. now rewrite firstn_app, Nat.sub_diag, firstn_O, app_nil_r, firstn_all.
  - cbn [nth]. rewrite <- IH by lia. replace (S q * n)%nat with (length b + q * n)%nat by (rewrite L; lia).
    rewrite skipn_app. rewrite skipn_all2 by lia. cbn [app]. now replace (length b + q * n - length b)%nat with (q * n)%nat by lia.
Qed.

Lemma piece_app n q (a b : list N) : (q * n + n <= length a)%nat -> piece n q (a ++ b) = piece n q a.
Proof.
  intros H. unfold piece. rewrite skipn_app, firstn_app, skipn_length.
  replace (n - (length a - q * n))%nat with 0%nat by lia. cbn [firstn]. now rewrite app_nil_r.
Qed.

Lemma skipn_nth_cons {A} (l : list A) i d : (i < length l)%nat -> skipn i l = nth i l d :: skipn (S i) l.
Proof.
  revert i. induction l as [|x l IH]; intros [|i] H; cbn [length] in H; try lia; [reflexivity|].
  cbn [nth]. rewrite !skipn_cons. apply IH. lia.
Qed.

Lemma find_first {A} (f : A -> bool) l x : f x = true -> In x l -> (forall y, In y l -> f y = true -> y = x) -> find f l = Some x.
Proof.
  intros Hx. induction l as [|a l IH]; intros I U; [destruct I|]. cbn [find]. destruct (f a) eqn:E.
  - rewrite (U a (or_introl eq_refl) E). reflexivity.
  - apply IH.
    + destruct I as [->|I]; [congruence|exact I].
    + intros y Iy. apply U. now right.
Qed.

Lemma find_seq (f : nat -> bool) s n j : (s <= j < s + n)%nat -> f j = true -> (forall i, (s <= i < j)%nat -> f i = false) ->
  find f (seq s n) = Some j.
Proof.
  revert s. induction n as [|n IH]; intros s H Hj Hi; [lia|]. cbn [seq find].
  destruct (Nat.eq_dec s j) as [->|Ne]; [now rewrite Hj|]. rewrite Hi by lia. apply IH; auto; [lia|]. intros i L. apply Hi. lia.
Qed.

Lemma zeros_bytes k : bytes (repeat 0 k).
Proof. apply Forall_forall. intros y I. apply repeat_spec in I. subst y. unfold byte. lia. Qed.

Section Ecb.
  Context (n : nat) (cipher : block_cipher) (secret : list N).
  Context (Hn : (1 <= n <= 255)%nat) (HC : cipher_inverse n cipher) (HB : bytes secret).
  Let oracle (x : list N) : list N := fst (be_encrypt n cipher ecb_mode tt (x ++ secret)).

  Lemma oracle_piece x q : bytes x -> (q * n + n <= length (x ++ secret))%nat ->
    exists c, bc_encrypt cipher (piece n q (x ++ secret)) = Ok c /\ piece n q (oracle x) = c /\
      bc_decrypt cipher c = Ok (piece n q (x ++ secret)).
  Proof using Hn HC HB.
    intros Bx Hq. assert (By : bytes (x ++ secret)) by (apply Forall_app; split; assumption).
    destruct (pkcs_message_blocks n (x ++ secret) ltac:(lia)) as (bs & Hb & Lb).
    destruct (ecb_pairs n cipher (x ++ secret) bs Hn By HC Hb) as (cs & Hcs & E).
    destruct (pairs_nth n cipher bs cs Hcs) as [L H].
    assert (Q : (q < length bs)%nat).
    { rewrite Lb. assert (q <= length (x ++ secret) / n)%nat; [|lia]. apply Nat.div_le_lower_bound; [lia|nia]. }
    destruct (H q Q) as (E1 & E2 & E3 & E4).
    assert (P : piece n q (x ++ secret) = nth q bs []).
    { rewrite <- (piece_nth n bs (proj1 Hb) q Q), (proj2 Hb). unfold pkcs_message. symmetry. apply piece_app. exact Hq. }
    exists (nth q cs []). rewrite P. split; [exact E1|]. split; [|exact E4].
    unfold oracle. rewrite E. cbn [fst]. apply piece_nth; [exact (pairs_blocks _ _ _ _ Hcs)|lia].
  Qed.

  Lemma oracle_length x : bytes x -> length (oracle x) = (n * (length (x ++ secret) / n + 1))%nat.
  Proof using Hn HC HB.
    intros Bx. assert (By : bytes (x ++ secret)) by (apply Forall_app; split; assumption).
    destruct (pkcs_message_blocks n (x ++ secret) ltac:(lia)) as (bs & Hb & Lb).
    destruct (ecb_pairs n cipher (x ++ secret) bs Hn By HC Hb) as (cs & Hcs & E).
    unfold oracle. rewrite E. cbn [fst].
    rewrite (blocks_length n (concat cs) cs (conj (pairs_blocks _ _ _ _ Hcs) eq_refl)).
    rewrite (proj1 (pairs_nth n cipher bs cs Hcs)), Lb. lia.
  Qed.

  Lemma secret_length_ok : secret_length n oracle = length secret.
  Proof using Hn HC HB.
    pose proof (Nat.div_mod (length secret) n ltac:(lia)) as D.
    pose proof (Nat.mod_upper_bound (length secret) n ltac:(lia)) as M.
    unfold secret_length. rewrite (find_seq _ 1 n (n - length secret mod n)%nat).
    - rewrite oracle_length by constructor. cbn [app]. nia.
    - lia.
    - rewrite !oracle_length by (constructor || apply zeros_bytes). rewrite app_length, repeat_length. cbn [app].
      replace ((n - length secret mod n + length secret) / n)%nat with (length secret / n + 1)%nat.
      + apply Bool.negb_true_iff, Nat.eqb_neq. nia.
      + apply (Nat.div_unique _ _ _ 0); nia.
    - intros i Hi. rewrite !oracle_length by (constructor || apply zeros_bytes). rewrite app_length, repeat_length. cbn [app].
      replace ((i + length secret) / n)%nat with (length secret / n)%nat.
      + apply Bool.negb_false_iff, Nat.eqb_refl.
      + apply (Nat.div_unique _ _ _ (i + length secret mod n)); nia.
  Qed.

  Lemma next_byte_ok i : (i < length secret)%nat -> next_byte n oracle (firstn i secret) = nth i secret 0.
  Proof using Hn HC HB.
    intros Hi. unfold next_byte. rewrite firstn_length_le by lia.
    set (q := (i / n)%nat). set (zeros := repeat 0 (n - 1 - i mod n)). set (before := skipn (q * n) (zeros ++ firstn i secret)).
    pose proof (Nat.div_mod i n ltac:(lia)) as D. pose proof (Nat.mod_upper_bound i n ltac:(lia)) as M. fold q in D.
    assert (Lz : length zeros = (n - 1 - i mod n)%nat) by apply repeat_length.
    assert (Lf : length (firstn i secret) = i) by (apply firstn_length_le; lia).
    assert (Lb : length before = (n - 1)%nat).
    { unfold before. rewrite skipn_length, app_length, Lf, Lz. nia. }
    assert (Bz : bytes zeros) by apply zeros_bytes.
    assert (Bb : bytes before).
    { unfold before. apply Forall_forall. intros y I. assert (In y (zeros ++ firstn i secret)) as I2.
      { rewrite <- (firstn_skipn (q * n) (zeros ++ firstn i secret)). apply in_or_app. now right. }
      apply in_app_or in I2. destruct I2 as [I2|I2].
      - unfold bytes in Bz. rewrite Forall_forall in Bz. now apply Bz.
      - unfold bytes in HB. rewrite Forall_forall in HB. apply HB. rewrite <- (firstn_skipn i secret). apply in_or_app. now left. }
    (* the block of the answer that ends with the byte *)
    assert (T : piece n q (zeros ++ secret) = before ++ [nth i secret 0]).
    { unfold piece, before.
      rewrite <- (firstn_skipn i secret) at 1. rewrite (skipn_nth_cons secret i 0 Hi).
      replace (zeros ++ firstn i secret ++ nth i secret 0 :: skipn (S i) secret)
        with ((zeros ++ firstn i secret) ++ nth i secret 0 :: skipn (S i) secret) by (now rewrite <- app_assoc).
      rewrite skipn_app. replace (q * n - length (zeros ++ firstn i secret))%nat with 0%nat by (rewrite app_length, Lf, Lz; nia).
      cbn [skipn]. fold before. rewrite firstn_app, Lb. replace (n - (n - 1))%nat with 1%nat by lia. cbn [firstn].
      rewrite firstn_all2 by lia. reflexivity. }
    destruct (oracle_piece zeros q Bz) as (c & E1 & E2 & E3).
    { rewrite app_length, Lz. nia. }
    assert (K : forall b, byte b -> exists c', bc_encrypt cipher (before ++ [b]) = Ok c' /\
      piece n 0 (oracle (before ++ [b])) = c' /\ bc_decrypt cipher c' = Ok (before ++ [b])).
    { intros b Hb. assert (L1 : length (before ++ [b]) = n) by (rewrite app_length, Lb; cbn [length]; lia).
      destruct (oracle_piece (before ++ [b]) 0) as (c' & F1 & F2 & F3).
      - apply Forall_app. split; [exact Bb|]. constructor; [exact Hb|constructor].
      - rewrite app_length. lia.
      - rewrite piece_app in F1, F3 by lia. exists c'.
        assert (P0 : piece n 0 (before ++ [b]) = before ++ [b]).
        { unfold piece. change (0 * n)%nat with 0%nat. cbn [skipn]. apply firstn_all2. lia. }
        rewrite P0 in F1, F3. auto. }
    assert (Bi : byte (nth i secret 0)).
    { unfold bytes in HB. rewrite Forall_forall in HB. apply HB, nth_In. exact Hi. }
    rewrite (find_first _ _ (nth i secret 0)); [reflexivity| | |].
    - destruct (K _ Bi) as (c' & F1 & F2 & F3). rewrite F2, E2. rewrite T, F1 in E1. apply Ok_inj in E1. subst c'.
      destruct (list_eq_dec N.eq_dec c c); congruence.
    - apply in_map_iff. exists (N.to_nat (nth i secret 0)). split; [apply N2Nat.id|]. apply in_seq. unfold byte in Bi. lia.
    - intros b Ib. apply in_map_iff in Ib. destruct Ib as (k & <- & Ik). apply in_seq in Ik.
      destruct (K (N.of_nat k)) as (c' & F1 & F2 & F3); [unfold byte; lia|].
      rewrite F2, E2. destruct (list_eq_dec N.eq_dec c' c) as [->|]; [|discriminate]. intros _.
      rewrite F3, T in E3. apply Ok_inj in E3. apply app_inj_tail in E3. now destruct E3.
  Qed.

  Lemma guess_ok k i : (i + k = length secret)%nat -> guess n oracle k (firstn i secret) = secret.
  Proof using Hn HC HB.
    revert i. induction k as [|k IH]; intros i H; cbn [guess].
    - apply firstn_all2. lia.
    - rewrite next_byte_ok by lia. replace (firstn i secret ++ [nth i secret 0]) with (firstn (S i) secret); [apply IH; lia|].
      apply firstn_S_nth. lia.
  Qed.

  Lemma appended_ok : appended_secret n oracle = secret.
  Proof using Hn HC HB. unfold appended_secret. rewrite secret_length_ok. exact (guess_ok (length secret) 0 eq_refl). Qed.
End Ecb.

(** ** Only those answers are used *)
Section Agree.
  Context (n : nat) (o o' : list N -> list N).

  Lemma length_agree : (forall j, (j <= n)%nat -> o (repeat 0 j) = o' (repeat 0 j)) ->
    secret_length n o = secret_length n o'.
  Proof using Type.
    intros H. unfold secret_length. pose proof (H 0%nat ltac:(lia)) as H0. cbn [repeat] in H0. rewrite <- H0.
    replace (find (fun j => negb (length (o' (repeat 0%N j)) =? length (o []))%nat) (seq 1 n))
      with (find (fun j => negb (length (o (repeat 0%N j)) =? length (o []))%nat) (seq 1 n)); [reflexivity|].
    assert (G : forall l, (forall j, In j l -> (j <= n)%nat) ->
      find (fun j => negb (length (o (repeat 0%N j)) =? length (o []))%nat) l =
      find (fun j => negb (length (o' (repeat 0%N j)) =? length (o []))%nat) l).
    { induction l as [|j l IH]; intros L; [reflexivity|]. cbn [find]. rewrite <- (H j) by (apply L; now left).
      destruct (negb _); [reflexivity|]. apply IH. intros i I. apply L. now right. }
    apply G. intros j I. apply in_seq in I. lia.
  Qed.

  Lemma next_byte_agree known : (forall x, In x (byte_questions n known) -> o x = o' x) ->
    next_byte n o known = next_byte n o' known.
  Proof using Type.
    unfold byte_questions, next_byte. set (zeros := repeat 0 (n - 1 - length known mod n)). intros H.
    rewrite <- (H zeros (or_introl eq_refl)).
    set (before := skipn (length known / n * n) (zeros ++ known)) in *.
    assert (G : forall l, (forall b, In b l -> o (before ++ [b]) = o' (before ++ [b])) -> forall t,
      find (fun b => if list_eq_dec N.eq_dec (piece n 0 (o (before ++ [b]))) t then true else false) l =
      find (fun b => if list_eq_dec N.eq_dec (piece n 0 (o' (before ++ [b]))) t then true else false) l).
    { induction l as [|b l IH]; intros L t; [reflexivity|]. cbn [find]. rewrite <- (L b) by (now left).
      destruct (list_eq_dec N.eq_dec (piece n 0 (o (before ++ [b]))) t); [reflexivity|].
      apply IH. intros i I. apply L. now right. }
    rewrite G; [reflexivity|]. intros b I. apply H. right. exact (in_map (fun b => before ++ [b]) _ b I).
  Qed.

  Lemma guess_agree secret : (forall i, (i < length secret)%nat -> next_byte n o (firstn i secret) = nth i secret 0) ->
    (forall i x, (i < length secret)%nat -> In x (byte_questions n (firstn i secret)) -> o x = o' x) ->
    forall k i, (i + k = length secret)%nat -> guess n o k (firstn i secret) = guess n o' k (firstn i secret).
  Proof using Type.
    intros Hb H. induction k as [|k IH]; intros i E; cbn [guess]; [reflexivity|].
    rewrite <- (next_byte_agree (firstn i secret)) by (intros x; apply H; lia). rewrite Hb by lia.
    rewrite <- (firstn_S_nth secret i 0) by lia. apply IH. lia.
  Qed.
End Agree.

Lemma questions_count n secret : length (questions n secret) = (n + 1 + 257 * length secret)%nat.
Proof.
  unfold questions. rewrite app_length, map_length, seq_length.
  enough (G : forall l, length (flat_map (fun i => byte_questions n (firstn i secret)) l) = (257 * length l)%nat).
  { rewrite G, seq_length. lia. }
  induction l as [|i l IH]; [reflexivity|]. cbn [flat_map]. rewrite app_length, IH.
  unfold byte_questions. cbn [length]. rewrite !map_length, seq_length. lia.
Qed.

Lemma questions_enough n cipher secret answer : (1 <= n <= 255)%nat -> cipher_inverse n cipher -> bytes secret ->
  (forall x, In x (questions n secret) -> answer x = fst (be_encrypt n cipher ecb_mode tt (x ++ secret))) ->
  appended_secret n answer = secret.
Proof.
  intros Hn HC HB H. set (o := fun x => fst (be_encrypt n cipher ecb_mode tt (x ++ secret))).
  assert (H1 : forall x, In x (questions n secret) -> o x = answer x) by (intros x I; symmetry; now apply H).
  transitivity (appended_secret n o); [|exact (appended_ok n cipher secret Hn HC HB)].
  pose proof (secret_length_ok n cipher secret Hn HC HB : secret_length n o = length secret) as L.
  unfold appended_secret. rewrite <- (length_agree n o answer).
  - rewrite L. symmetry.
    apply (guess_agree n o answer secret (next_byte_ok n cipher secret Hn HC HB)) with (i := 0%nat); [|lia].
    intros i x Hi I. apply H1. unfold questions. apply in_or_app. right. apply in_flat_map. exists i.
    split; [apply in_seq; lia|exact I].
  - intros j Hj. apply H1. unfold questions. apply in_or_app. left. apply in_map. apply in_seq. lia.
Qed.
