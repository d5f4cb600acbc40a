(** * SHA-1 and SHA-2 *)
From Coq Require Import ZifyBool ZifyNat ZifyN.
From Verif Require Import Base BaseLemmas ModelSha SpecEndian SpecWord SpecSha ProofEndian ProofWord.
Ltac Zify.zify_post_hook ::= Z.div_mod_to_equations.

Notation words w := (Forall (fun v : N => v < 2 ^ w)).

(** ** Big-endian groups *)

Lemma be_bytes_length k v : length (be_bytes k v) = k.
Proof. unfold be_bytes. now rewrite map_length, seq_length. Qed.

Lemma be_bytes_bytes k v : bytes (be_bytes k v).
Proof. rewrite <- to_be_be_bytes. apply to_be_bytes. Qed.

Lemma be_num_lt l : bytes l -> be_num l < 256 ^ N.of_nat (length l).
Proof. intros. rewrite <- from_be_be_num. now apply from_be_lt. Qed.

Lemma be_bytes_num l k : bytes l -> length l = k -> be_bytes k (be_num l) = l.
Proof. intros H <-. rewrite <- to_be_be_bytes, <- from_be_be_num. now apply to_be_from_be. Qed.

Lemma be_num_bytes k v : v < 256 ^ N.of_nat k -> be_num (be_bytes k v) = v.
Proof. intros H. rewrite <- to_be_be_bytes, <- from_be_be_num, from_be_to_be. now apply N.mod_small. Qed.

(** ** Filling an array from the left *)

Lemma upd_zeros (l : list N) n i v : i = length l -> (i < n)%nat ->
  upd (l ++ repeat 0 (n - i)) i v = Ok ((l ++ [v]) ++ repeat 0 (n - S i)).
Proof.
  intros -> H. rewrite upd_ok by (rewrite app_length, repeat_length; lia).
  rewrite set_nth_app_r by (rewrite ?repeat_length; lia). f_equal. rewrite <- app_assoc. f_equal.
  replace (n - length l)%nat with (S (n - S (length l))) by lia. reflexivity.
Qed.

Lemma fill_loop (f : nat -> list N -> res (list N)) (vs : list N) n :
  (length vs <= n)%nat ->
  (forall i w, (i < length vs)%nat -> f i w = upd w i (nth i vs 0)) ->
  forM (range 0 (length vs)) f (repeat 0 n) = Ok (vs ++ repeat 0 (n - length vs)).
Proof.
  intros Hn Hf.
  destruct (forM_range_inv (fun i w => w = firstn i vs ++ repeat 0 (n - i)) f 0 (length vs) (repeat 0 n))
    as (s & E & P).
  - lia.
  - cbn [firstn app]. now rewrite Nat.sub_0_r.
  - intros i s Hi ->. rewrite Hf by lia.
    rewrite upd_zeros by (rewrite ?firstn_length; lia).
    eexists. split; [reflexivity|]. now rewrite (firstn_S_nth _ _ 0) by lia.
  - rewrite E, P. now rewrite firstn_all.
Qed.

(** The schedule loop, any expansion rule. *)
Lemma expand_loop (f : nat -> list N -> res (list N)) (ex : list N -> N) (P : N -> Prop)
    (sched : nat -> list N) n :
  length (sched O) = 16%nat -> (16 <= n)%nat -> Forall P (sched O) ->
  (forall k, sched (S k) = sched k ++ [ex (sched k)]) ->
  (forall w, Forall P w -> (16 <= length w < n)%nat ->
     f (length w) (w ++ repeat 0 (n - length w)) = upd (w ++ repeat 0 (n - length w)) (length w) (ex w)
     /\ P (ex w)) ->
  forM (range 16 n) f (sched O ++ repeat 0 (n - 16)) = Ok (sched (n - 16)%nat) /\
  Forall P (sched (n - 16)%nat) /\ length (sched (n - 16)%nat) = n.
Proof.
  intros L0 Hn HP HS Hf.
  assert (G : forall k, Forall P (sched k) /\ length (sched k) = (16 + k)%nat \/ (n < 16 + k)%nat).
  { induction k as [|k IH].
    - left. auto.
    - destruct (Nat.le_gt_cases (16 + S k) n) as [L|L]; [left|now right].
      destruct IH as [[IH1 IH2]|]; [|lia].
      rewrite HS. split.
      + apply Forall_app. split; auto. constructor; auto. apply Hf; auto. lia.
      + rewrite app_length, IH2. cbn [length]. lia. }
  destruct (forM_range_inv (fun i w => w = sched (i - 16)%nat ++ repeat 0 (n - i)) f 16 n
    (sched O ++ repeat 0 (n - 16))) as (s & E & Q).
  - lia.
  - reflexivity.
  - intros i s Hi ->. destruct (G (i - 16)%nat) as [[G1 G2]|]; [|lia].
    destruct (Hf _ G1) as [F1 F2]; [lia|].
    replace (length (sched (i - 16)%nat)) with i in F1 by lia. rewrite F1.
    rewrite upd_zeros by lia. eexists. split; [reflexivity|].
    replace (S i - 16)%nat with (S (i - 16)) by lia. now rewrite HS.
  - rewrite E, Q, Nat.sub_diag. cbn [repeat]. rewrite app_nil_r. split; auto.
    destruct (G (n - 16)%nat) as [[G1 G2]|]; [|lia]. split; auto. lia.
Qed.

(** ** Padding *)

Definition gen_padding (n l : nat) (src : list N) (message_length : N) : res (list N * option (list N)) :=
  let last := repeat 0 n in
  let extra := repeat 0 n in
  let* last := copy_range last 0 (length src) src in
  let* last := upd last (length src) 0x80 in
  if (length src <? n - l)%nat then
    let* bits := cmul (8 * N.of_nat l) message_length 8 in
    let* last := copy_range last (n - l) n (to_be l bits) in
    Ok (last, None)
  else
    let* bits := cmul (8 * N.of_nat l) message_length 8 in
    let* extra := copy_range extra (n - l) n (to_be l bits) in
    Ok (last, Some extra).

Definition opt_list {A} (o : option A) : list A := match o with Some a => [a] | None => [] end.

Lemma gen_padding_ok n l src ml : (l < n)%nat -> (length src < n)%nat ->
  8 * ml < 2 ^ (8 * N.of_nat l) ->
  exists last extra, gen_padding n l src ml = Ok (last, extra) /\
    length last = n /\ Forall (fun c => length c = n) (opt_list extra) /\
    last ++ concat (opt_list extra) =
      src ++ 0x80 :: repeat 0 ((2 * n - 1 - l - length src) mod n)%nat ++ be_bytes l (8 * ml).
Proof.
  intros Hl Hs Hm. unfold gen_padding. cbv zeta.
  rewrite copy_range_ok by (rewrite ?repeat_length; lia). cbn [firstn app bind].
  rewrite skipn_repeat.
  rewrite upd_ok by (rewrite app_length, repeat_length; lia). cbn [bind].
  rewrite set_nth_app_r by (rewrite ?repeat_length; lia). rewrite skipn_repeat.
  replace (n - length src - 1)%nat with (n - S (length src))%nat by lia.
  rewrite cmul_ok by lia. cbn [bind]. rewrite to_be_be_bytes, (N.mul_comm ml 8).
  destruct (Nat.ltb_spec (length src) (n - l)) as [L|L].
  - rewrite copy_range_ok by (rewrite ?app_length, ?be_bytes_length; cbn [length]; rewrite ?repeat_length; lia).
    cbn [bind]. eexists. exists None. split; [reflexivity|]. cbn [opt_list concat].
    assert (E : firstn (n - l) (src ++ 0x80 :: repeat 0 (n - S (length src))) =
                src ++ 0x80 :: repeat 0 (n - l - S (length src))).
    { rewrite firstn_app, firstn_all2 by lia. f_equal.
      replace (n - l - length src)%nat with (S (n - l - S (length src))) by lia.
      cbn [firstn]. f_equal. rewrite firstn_repeat. f_equal. lia. }
    rewrite E, skipn_all2 by (rewrite app_length; cbn [length]; rewrite repeat_length; lia).
    rewrite !app_nil_r. split.
    { rewrite !app_length. cbn [length]. rewrite repeat_length, be_bytes_length. lia. }
    split; [constructor|].
    rewrite <- app_assoc. cbn [app]. do 4 f_equal. 
    replace (2 * n - 1 - l - length src)%nat with (n - l - S (length src) + 1 * n)%nat by lia.
    rewrite Nat.mod_add by lia. rewrite Nat.mod_small by lia. reflexivity.
  - rewrite copy_range_ok by (rewrite ?repeat_length, ?be_bytes_length; lia).
    cbn [bind]. eexists. eexists. split; [reflexivity|]. cbn [opt_list concat].
    rewrite firstn_repeat, skipn_repeat. rewrite Nat.sub_diag. cbn [repeat]. rewrite !app_nil_r.
    split. { rewrite app_length. cbn [length]. rewrite repeat_length. lia. }
    split. { constructor; [|constructor]. rewrite app_length, repeat_length, be_bytes_length. lia. }
    rewrite <- app_assoc. cbn [app]. do 2 f_equal. rewrite app_assoc. f_equal.
    rewrite <- repeat_app. f_equal.
    rewrite Nat.mod_small by lia. lia.
Qed.

Lemma gen_padding_long n l src ml : (l < n)%nat -> (length src < n)%nat ->
  2 ^ (8 * N.of_nat l) <= 8 * ml -> gen_padding n l src ml = Panic POverflow.
Proof.
  intros Hl Hs Hm. unfold gen_padding. cbv zeta.
  rewrite copy_range_ok by (rewrite ?repeat_length; lia). cbn [firstn app bind].
  rewrite skipn_repeat.
  rewrite upd_ok by (rewrite app_length, repeat_length; lia). cbn [bind].
  rewrite cmul_panic by lia. cbn [bind]. destruct (_ <? _)%nat; reflexivity.
Qed.

Lemma sha1_padding_gen : sha1_padding = gen_padding 64 8.
Proof. reflexivity. Qed.
Lemma sha2_padding_big_gen : sha2_padding_big = gen_padding 128 16.
Proof. reflexivity. Qed.

(** The blocks that are processed are those of the padded message. *)
Lemma blocks_ok n l m : (l < n)%nat -> 8 * N.of_nat (length m) < 2 ^ (8 * N.of_nat l) ->
  exists cs r last extra, chunks_exact n m = Ok (cs, r) /\
    gen_padding n l r (N.of_nat (length m)) = Ok (last, extra) /\
    groups n (sha_pad n l m) = cs ++ last :: opt_list extra /\
    Forall (fun c => length c = n) (cs ++ last :: opt_list extra).
Proof.
  intros Hl Hm. destruct (chunks_exact_spec n m ltac:(lia)) as (cs & r & E & Em & Hcs & Hr).
  destruct (gen_padding_ok n l r (N.of_nat (length m)) Hl Hr Hm) as (last & extra & E2 & L1 & L2 & C).
  exists cs, r, last, extra. rewrite E. split; auto. split; auto.
  assert (F : Forall (fun c => length c = n) (cs ++ last :: opt_list extra)).
  { apply Forall_app. split; auto. }
  split; auto. apply groups_unique; auto; [lia|].
  rewrite concat_app. cbn [concat]. rewrite C. unfold sha_pad.
  assert (Lm : (length m mod n)%nat = length r).
  { rewrite Em, app_length, (concat_length_const n cs Hcs), Nat.add_comm, Nat.mod_add by lia.
    now apply Nat.mod_small. }
  rewrite Lm. rewrite app_assoc, <- Em. reflexivity.
Qed.

Lemma sha_pad_length n l m : (l < n)%nat -> exists k, length (sha_pad n l m) = (k * n)%nat.
Proof.
  intros Hl. unfold sha_pad. rewrite app_length. cbn [length].
  rewrite app_length, repeat_length, be_bytes_length.
  pose proof (Nat.div_mod (length m) n ltac:(lia)) as D.
  set (q := (length m / n)%nat) in *. set (r := (length m mod n)%nat) in *.
  assert (Hr : (r < n)%nat) by (apply Nat.mod_upper_bound; lia).
  destruct (Nat.lt_ge_cases r (n - l)) as [L|L].
  - replace (2 * n - 1 - l - r)%nat with (n - l - S r + 1 * n)%nat by lia.
    rewrite Nat.mod_add, Nat.mod_small by lia. exists (q + 1)%nat. nia.
  - rewrite Nat.mod_small by lia. exists (q + 2)%nat. nia.
Qed.

(** The number of zeros is the least possible. *)
Lemma sha_pad_zeros_min n l len z : (l < n)%nat ->
  ((len + 1 + z + l) mod n = 0)%nat -> ((2 * n - 1 - l - len mod n) mod n <= z)%nat.
Proof.
  intros Hl Hz. pose proof (Nat.div_mod len n ltac:(lia)) as D.
  set (q := (len / n)%nat) in *. set (r := (len mod n)%nat) in *.
  assert (Hr : (r < n)%nat) by (apply Nat.mod_upper_bound; lia).
  apply Nat.mod_divides in Hz as [c Hc]; [|lia].
  destruct (Nat.lt_ge_cases r (n - l)) as [L|L].
  - replace (2 * n - 1 - l - r)%nat with (n - l - S r + 1 * n)%nat by lia.
    rewrite Nat.mod_add, Nat.mod_small by lia. assert (q + 1 <= c)%nat by nia. nia.
  - rewrite Nat.mod_small by lia. assert (q + 2 <= c)%nat by nia. nia.
Qed.

Lemma sha_pad_inj n l m m' : (l < n)%nat ->
  8 * N.of_nat (length m) < 2 ^ (8 * N.of_nat l) -> 8 * N.of_nat (length m') < 2 ^ (8 * N.of_nat l) ->
  sha_pad n l m = sha_pad n l m' -> m = m'.
Proof.
  intros Hl H H' E. unfold sha_pad in E.
  assert (P : 256 ^ N.of_nat l = 2 ^ (8 * N.of_nat l)) by (rewrite N.pow_mul_r; reflexivity).
  assert (EL : length m = length m').
  { rewrite !app_comm_cons, !app_assoc in E.
    assert (T : be_bytes l (8 * N.of_nat (length m)) = be_bytes l (8 * N.of_nat (length m'))).
    { apply (f_equal (@rev N)) in E. rewrite !(rev_app_distr _ (be_bytes _ _)) in E.
      apply (f_equal (firstn l)) in E.
      rewrite !firstn_app_exact in E by (rewrite rev_length, be_bytes_length; reflexivity).
      apply (f_equal (@rev N)) in E. now rewrite !rev_involutive in E. }
    apply (f_equal be_num) in T. rewrite !be_num_bytes in T by (rewrite P; auto). lia. }
  apply (f_equal (firstn (length m))) in E.
  rewrite firstn_app_exact in E by auto. rewrite EL, firstn_app_exact in E by auto. exact E.
Qed.

(** ** The chunk loop *)

Lemma chunk_loop_ok n process compress cs last extra h0 (P : list N -> Prop) :
  P h0 ->
  (forall h c, P h -> length c = n -> bytes c -> process h c = Ok (compress h c) /\ P (compress h c)) ->
  Forall (fun c => length c = n) (cs ++ last :: opt_list extra) ->
  Forall bytes (cs ++ last :: opt_list extra) ->
  sha_chunk_loop n process cs last extra h0 = Ok (fold_left compress (cs ++ last :: opt_list extra) h0) /\
  P (fold_left compress (cs ++ last :: opt_list extra) h0).
Proof.
  intros H0 Hp Hl Hb. apply Forall_app in Hl as [Hl1 Hl2]. apply Forall_app in Hb as [Hb1 Hb2].
  unfold sha_chunk_loop.
  destruct (forM_fold cs (fun chunk hash => let* chunk := to_array n chunk in process hash chunk)
    (fun c h => compress h c) P h0 H0) as [E1 P1].
  { intros c h Hc Hh. rewrite Forall_forall in Hl1, Hb1.
    rewrite to_array_ok by auto. cbn [bind]. apply Hp; auto. }
  rewrite E1. cbn [bind]. rewrite fold_left_app. cbn [fold_left].
  inversion_clear Hl2 as [|? ? A1 A2]. inversion_clear Hb2 as [|? ? B1 B2].
  destruct (Hp _ last P1 A1 B1) as [E2 P2]. 
  change (fun (s : list N) (a : list N) => compress s a) with compress in *.
  rewrite E2. cbn [bind].
  destruct extra as [x|]; cbn [opt_list fold_left] in *.
  - inversion_clear A2 as [|? ? A3 _]. inversion_clear B2 as [|? ? B3 _].
    destruct (Hp _ x P2 A3 B3) as [E3 P3]. auto.
  - auto.
Qed.

Lemma sha_pad_bytes n l m : bytes m -> bytes (sha_pad n l m).
Proof.
  intros H. unfold sha_pad. apply Forall_app. split; auto. constructor; [unfold byte; lia|].
  apply Forall_app. split; [|apply be_bytes_bytes].
  apply Forall_repeat. unfold byte. lia.
Qed.

Lemma groups_bytes n (l : list N) : bytes l -> Forall bytes (groups n l).
Proof.
  intros H. apply Forall_forall. intros c Hc. apply in_map_iff in Hc as (i & <- & _).
  apply Forall_firstn, Forall_skipn, H.
Qed.

(** ** Words to bytes *)

Lemma words_to_bytes k b ws : b = (k * length ws)%nat ->
  forM (enumerate ws) (fun '(i, w) bytes => copy_range bytes (k * i) (k * i + k) (to_be k w)) (repeat 0 b)
  = Ok (concat (map (be_bytes k) ws)).
Proof.
  intros ->. rewrite (forM_enumerate_range ws 0).
  destruct (forM_range_inv (fun i bs => bs = concat (map (be_bytes k) (firstn i ws)) ++ repeat 0 (k * (length ws - i)))
    (fun i bs => copy_range bs (k * i) (k * i + k) (to_be k (nth i ws 0))) 0 (length ws)
    (repeat 0 (k * length ws))) as (s & E & P).
  - lia.
  - cbn [firstn map concat app]. now rewrite Nat.sub_0_r.
  - intros i s Hi ->.
    assert (L : length (concat (map (be_bytes k) (firstn i ws))) = (k * i)%nat).
    { rewrite (concat_length_const k). rewrite map_length, firstn_length. rewrite Nat.min_l by lia. lia.
      apply Forall_forall. intros c Hc. apply in_map_iff in Hc as (v & <- & _). apply be_bytes_length. }
    assert (M : (k * (length ws - i) = k + k * (length ws - S i))%nat) by nia.
    rewrite copy_range_ok.
    2: { rewrite app_length, repeat_length, L. lia. }
    2: { rewrite to_be_be_bytes, be_bytes_length. lia. }
    eexists. split; [reflexivity|].
    rewrite firstn_app_exact by auto. rewrite skipn_app, L.
    rewrite skipn_all2 by lia. cbn [app]. rewrite skipn_repeat.
    rewrite (firstn_S_nth _ _ 0), map_app, concat_app by lia. cbn [map concat].
    rewrite app_nil_r, to_be_be_bytes, <- app_assoc. do 2 f_equal. rewrite M. f_equal. generalize (k * (length ws - S i))%nat (k * i)%nat. lia.
  - rewrite E, P, Nat.sub_diag, Nat.mul_0_r, firstn_all. cbn [repeat]. now rewrite app_nil_r.
Qed.

Lemma u32s_to_bytes_ok b ws : b = (4 * length ws)%nat ->
  u32s_to_bytes b ws = Ok (concat (map (be_bytes 4) ws)).
Proof. apply (words_to_bytes 4). Qed.
Lemma u64s_to_bytes_ok b ws : b = (8 * length ws)%nat ->
  u64s_to_bytes b ws = Ok (concat (map (be_bytes 8) ws)).
Proof. apply (words_to_bytes 8). Qed.

Lemma bytes_to_words k w bs : (0 < k)%nat -> length bs = (w * k)%nat ->
  (let* (cs, _) := chunks_exact k bs in
  forM (enumerate cs) (fun '(i, chunk) words =>
      let* chunk := to_array k chunk in
      upd words i (from_be chunk)) (repeat 0 w)) = Ok (map be_num (groups k bs)).
Proof.
  intros Hk Hl. rewrite (chunks_exact_groups k w) by auto. cbn [bind].
  destruct (concat_groups k w bs Hk Hl) as (_ & G2 & G3).
  rewrite (forM_enumerate_range (groups k bs) []).
  pose proof (fill_loop (fun i words => let* chunk := to_array k (nth i (groups k bs) []) in
      upd words i (from_be chunk)) (map be_num (groups k bs)) w) as F.
  rewrite map_length, G2 in F. rewrite G2, F, Nat.sub_diag; [now rewrite app_nil_r|lia|].
  intros i ws Hi. rewrite to_array_ok by (apply (Forall_nth_lt _ _ _ _ G3); lia). cbn [bind].
  rewrite from_be_be_num. f_equal.
  rewrite (nth_indep _ 0 (be_num [])) by (rewrite map_length; lia). now rewrite map_nth.
Qed.

Lemma idx_prefix (w z : list N) i : (i < length w)%nat -> idx (w ++ z) i = Ok (nth i w 0).
Proof. intros H. rewrite (idx_nth _ _ 0) by (rewrite app_length; lia). now rewrite app_nth1. Qed.

Lemma words_nth w (l : list N) i : words w l -> nth i l 0 < 2 ^ w.
Proof.
  intros H. destruct (Nat.lt_ge_cases i (length l)).
  - now apply (Forall_nth_lt _ _ _ _ H).
  - rewrite nth_overflow by auto. apply pow2_pos.
Qed.

Lemma group_words k w (l : list N) : (0 < k)%nat -> w = 8 * N.of_nat k -> bytes l ->
  words w (map be_num (groups k l)).
Proof.
  intros Hk -> Hb. apply Forall_forall. intros v Hv. apply in_map_iff in Hv as (c & <- & Hc).
  apply in_map_iff in Hc as (i & <- & Hi).
  eapply N.lt_le_trans; [apply be_num_lt, Forall_firstn, Forall_skipn, Hb|].
  replace (2 ^ (8 * N.of_nat k)) with (256 ^ N.of_nat k) by (rewrite N.pow_mul_r; reflexivity).
  apply N.pow_le_mono_r; [discriminate|]. rewrite firstn_length. lia.
Qed.

Lemma nth_group k (l : list N) i : (i < length l / k)%nat ->
  nth i (map be_num (groups k l)) 0 = be_num (firstn k (skipn (k * i) l)).
Proof.
  intros H. rewrite (nth_indep _ 0 (be_num [])) by (rewrite map_length, groups_length; lia).
  rewrite map_nth. f_equal. unfold groups.
  rewrite (nth_indep _ [] (firstn k (skipn (k * 0) l))) by (rewrite map_length, seq_length; lia).
  rewrite (map_nth (fun i => firstn k (skipn (k * i) l))). now rewrite seq_nth.
Qed.

(** Sums of words. *)
Lemma sum2 w a b c : wadd w (wadd w a b) c = (a + b + c) mod 2 ^ w.
Proof. unfold wadd. apply N.add_mod_idemp_l, N.pow_nonzero. discriminate. Qed.
Lemma sum4 w a b c d e : wadd w (wadd w (wadd w (wadd w a b) c) d) e = (a + b + c + d + e) mod 2 ^ w.
Proof.
  assert (P : 2 ^ w <> 0) by (apply N.pow_nonzero; discriminate).
  rewrite sum2. unfold wadd at 1. rewrite <- (N.add_mod_idemp_l (a + b + c + d)) by auto.
  rewrite <- (N.add_mod_idemp_l (a + b + c) d) by auto. rewrite <- sum2. unfold wadd.
  rewrite !N.add_mod_idemp_l by auto. reflexivity.
Qed.

Lemma not_w_bit w x i : x < 2 ^ w -> N.testbit (not_w w x) i = (negb (N.testbit x i) && (i <? w))%bool.
Proof.
  intros H. rewrite <- wnot_not by auto. unfold wnot. rewrite N.lxor_spec.
  destruct (N.ltb_spec i w) as [L|L].
  - rewrite N.ones_spec_low by auto. now destruct (N.testbit x i).
  - rewrite N.ones_spec_high by auto. rewrite (testbit_high x w) by auto. reflexivity.
Qed.

Lemma ch_lor w x y z : x < 2 ^ w ->
  N.lor (N.land x y) (N.land (wnot w x) z) = N.lxor (N.land x y) (N.land (not_w w x) z).
Proof.
  intros Hx. rewrite wnot_not by auto. apply N.bits_inj. intros i.
  rewrite N.lxor_spec, N.lor_spec, !N.land_spec, not_w_bit by auto.
  destruct (N.testbit x i), (N.testbit y i), (N.testbit z i), (i <? w); reflexivity.
Qed.

Lemma maj_lor x y z : N.lor (N.lor (N.land x y) (N.land x z)) (N.land y z)
  = N.lxor (N.lxor (N.land x y) (N.land x z)) (N.land y z).
Proof.
  apply N.bits_inj. intros i. rewrite !N.lxor_spec, !N.lor_spec, !N.land_spec.
  destruct (N.testbit x i), (N.testbit y i), (N.testbit z i); reflexivity.
Qed.

(** ** SHA-1 *)

Definition st5_ok (st : state5) : Prop :=
  let '(a, b, c, d, e) := st in a < 2 ^ 32 /\ b < 2 ^ 32 /\ c < 2 ^ 32 /\ d < 2 ^ 32 /\ e < 2 ^ 32.
Definition h5_ok (h : list N) : Prop := length h = 5%nat /\ words 32 h.

Definition sha1_round_model (w : list N) (i : nat) (st : state5) : res state5 :=
  let '(a, b, c, d, e) := st in
        let* (k, f) :=
          if (i <? 20)%nat then
            Ok (0x5A827999, N.lor (N.land b c) (N.land (wnot 32 b) d))
          else if (i <? 40)%nat then
            Ok (0x6ED9EBA1, N.lxor (N.lxor b c) d)
          else if (i <? 60)%nat then
            Ok (0x8F1BBCDC, N.lor (N.lor (N.land b c) (N.land b d)) (N.land c d))
          else if (i <? 80)%nat then
            Ok (0xCA62C1D6, N.lxor (N.lxor b c) d)
          else Panic PExplicit in
        let temp := wadd 32 (wadd 32 (wadd 32 (wadd 32 (rotl 32 a 5) f) e) k) (nth i w 0) in
        Ok (temp, a, rotl 32 b 30, c, d).

Lemma rol_lt w x s : 0 < w -> x < 2 ^ w -> rol w x s < 2 ^ w.
Proof. intros. rewrite <- rol_rotl by auto. now apply rotl_lt. Qed.
Lemma ror_lt w x s : 0 < w -> x < 2 ^ w -> ror w x s < 2 ^ w.
Proof. intros. rewrite <- ror_rotr by auto. now apply rotr_lt. Qed.

Lemma sha1_round_eq w i st : (i < 80)%nat -> st5_ok st ->
  sha1_round_model w i st = Ok (sha1_round w st i) /\ st5_ok (sha1_round w st i).
Proof.
  intros Hi. destruct st as ((((a, b), c), d), e). intros (Ha & Hb & Hc & Hd & He).
  split.
  - unfold sha1_round_model, sha1_round.
    rewrite (rol_rotl 32 a), (rol_rotl 32 b) by (auto; lia).
    rewrite ch_lor, maj_lor by auto.
    unfold sha1_f.
    destruct (Nat.ltb_spec i 20); [|destruct (Nat.ltb_spec i 40); [|destruct (Nat.ltb_spec i 60);
      [|destruct (Nat.ltb_spec i 80); [|lia]]]]; cbn [bind].
    + replace (sha1_k i) with 0x5A827999; [now rewrite sum4|].
      unfold sha1_k. replace (i / 20)%nat with 0%nat by lia. reflexivity.
    + replace (sha1_k i) with 0x6ED9EBA1; [now rewrite sum4|].
      unfold sha1_k. replace (i / 20)%nat with 1%nat by lia. reflexivity.
    + replace (sha1_k i) with 0x8F1BBCDC; [now rewrite sum4|].
      unfold sha1_k. replace (i / 20)%nat with 2%nat by lia. reflexivity.
    + replace (sha1_k i) with 0xCA62C1D6; [now rewrite sum4|].
      unfold sha1_k. replace (i / 20)%nat with 3%nat by lia. reflexivity.
  - cbn [sha1_round]. repeat split; auto; [apply mod_pow2_lt|now apply rol_lt].
Qed.

Lemma sha1_process_eq h c : h5_ok h -> length c = 64%nat -> bytes c ->
  sha1_process_chunk h c = Ok (sha1_compress h c) /\ h5_ok (sha1_compress h c).
Proof.
  intros [Lh Wh] Lc Bc. unfold sha1_process_chunk.
  assert (L16 : length (map be_num (groups 4 c)) = 16%nat) by (rewrite map_length, groups_length, Lc; reflexivity).
  pose proof (fill_loop (fun i w =>
      let* t := slice_from c (4 * i) in
      let* t := slice_to t 4 in
      let* word := to_array 4 t in
      upd w i (from_be word)) (map be_num (groups 4 c)) 80) as F.
  rewrite L16 in F. rewrite F; [|lia|]. clear F.
  2: { intros i w Hi. rewrite slice_from_ok by lia. cbn [bind].
       rewrite slice_to_ok by (rewrite skipn_length; lia). cbn [bind].
       rewrite to_array_ok by (rewrite firstn_length, skipn_length; lia). cbn [bind].
       rewrite from_be_be_num, nth_group; auto. rewrite Lc. cbn. lia. }
  cbn [bind].
  match goal with |- context [forM (range 16 80) ?f _] =>
    destruct (expand_loop f sha1_expand (fun v => v < 2 ^ 32) (fun n => sha1_schedule n c) 80)
      as (E & W & L) end.
  { exact L16. } { lia. } { apply (group_words 4); auto; lia. } { reflexivity. }
  { intros w Hw Hl. cbv beta. rewrite !idx_prefix by lia. cbn [bind].
    assert (H : N.lxor (N.lxor (N.lxor (nth (length w - 3) w 0) (nth (length w - 8) w 0))
       (nth (length w - 14) w 0)) (nth (length w - 16) w 0) < 2 ^ 32)
      by (repeat apply lxor_lt; now apply words_nth).
    rewrite rol_rotl by (auto; lia). split; [reflexivity|]. now apply rol_lt. }
  change (sha1_schedule 0 c) with (map be_num (groups 4 c)) in E. rewrite E. clear E. cbn [bind].
  change (80 - 16)%nat with 64%nat in *.
  destruct h as [|h0 [|h1 [|h2 [|h3 [|h4 [|]]]]]]; try discriminate Lh.
  rewrite !Forall_cons_iff in Wh. destruct Wh as (W0 & W1 & W2 & W3 & W4 & _).
  rewrite (forM_enumerate_range _ 0), L.
  destruct (forM_fold (range 0 80) (sha1_round_model (sha1_schedule 64 c))
     (fun t st => sha1_round (sha1_schedule 64 c) st t) st5_ok (h0, h1, h2, h3, h4)) as [E P].
  { unfold st5_ok. auto. }
  { intros t st Ht Hst. apply in_range in Ht. apply sha1_round_eq; auto. lia. }
  unfold sha1_round_model in E.
  cbn [sha1_compress]. change (range 0 80) with (seq 0 80) in *.
  match type of E with ?l = _ => match goal with |- context [bind ?l' _] =>
    replace l' with l by exact eq_refl end end.
  rewrite E. cbn [bind].
  change (fun (s : state5) (a : nat) => sha1_round (sha1_schedule 64 c) s a) with (sha1_round (sha1_schedule 64 c)) in *.
  destruct (fold_left (sha1_round (sha1_schedule 64 c)) (seq 0 80) (h0, h1, h2, h3, h4)) as ((((a, b), c'), d), e).
  split; [reflexivity|]. split; [reflexivity|].
  repeat (apply Forall_cons; [apply mod_pow2_lt|]). apply Forall_nil.
Qed.

Lemma sha1_conforms m : bytes m -> N.of_nat (length m) < 2 ^ 61 -> sha1 m = Ok (sha1_spec m).
Proof.
  intros Hb Hm. unfold sha1.
  destruct (blocks_ok 64 8 m) as (cs & r & last & extra & E1 & E2 & G & F).
  { lia. } { change (2 ^ (8 * N.of_nat 8)) with (8 * 2 ^ 61). lia. }
  rewrite E1. cbn [bind]. rewrite sha1_padding_gen, E2. cbn [bind].
  destruct (chunk_loop_ok 64 sha1_process_chunk sha1_compress cs last extra INITIAL_HASH_SHA1 h5_ok) as [E3 P3].
  { split; [reflexivity|]. repeat (apply Forall_cons; [reflexivity|]). apply Forall_nil. }
  { apply sha1_process_eq. }
  { exact F. }
  { rewrite <- G. apply groups_bytes, sha_pad_bytes, Hb. }
  rewrite E3. cbn [bind]. rewrite <- G in *. unfold sha1_spec.
  change INITIAL_HASH_SHA1 with sha1_init in *.
  apply u32s_to_bytes_ok. now rewrite (proj1 P3).
Qed.

Lemma sha1_long m : 2 ^ 61 <= N.of_nat (length m) -> sha1 m = Panic POverflow.
Proof.
  intros Hm. unfold sha1. destruct (chunks_exact_spec 64 m ltac:(lia)) as (cs & r & E & _ & _ & Hr).
  rewrite E. cbn [bind]. rewrite sha1_padding_gen.
  rewrite (gen_padding_long 64 8 r (N.of_nat (length m))); auto; [lia|].
  change (2 ^ (8 * N.of_nat 8)) with (8 * 2 ^ 61). lia.
Qed.
