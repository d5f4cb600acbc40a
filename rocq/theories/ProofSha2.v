(** * SHA-2 *)
From Coq Require Import ZifyBool ZifyNat ZifyN.
From Verif Require Import Base BaseLemmas ModelSha SpecEndian SpecWord SpecSha ProofEndian ProofWord ProofSha.
Ltac Zify.zify_post_hook ::= Z.div_mod_to_equations.

(** Both [process_chunk] functions are this one. *)
Definition model_small (w : N) (r : N * N * N) (x : N) : N :=
  let '(i, j, k) := r in N.lxor (N.lxor (rotr w x i) (rotr w x j)) (wshr x k).
Definition model_big (w : N) (r : N * N * N) (x : N) : N :=
  let '(i, j, k) := r in N.lxor (N.lxor (rotr w x i) (rotr w x j)) (rotr w x k).

Definition model_expand (w : N) (r0 r1 : N * N * N) (i : nat) (ws : list N) : res (list N) :=
  let* w15 := idx ws (i - 15) in
  let s0 := model_small w r0 w15 in
  let* w2 := idx ws (i - 2) in
  let s1 := model_small w r1 w2 in
  let* w16 := idx ws (i - 16) in
  let* w7 := idx ws (i - 7) in
  upd ws i (wadd w (wadd w (wadd w w16 s0) w7) s1).

Definition model_round (w : N) (r0 r1 : N * N * N) (k ws : list N) (i : nat) (st : state8) : res state8 :=
  let '(a, b, c, d, e, f, g, h) := st in
  let s1 := model_big w r1 e in
  let ch := N.lxor (N.land e f) (N.land (wnot w e) g) in
  let* ki := idx k i in
  let* wi := idx ws i in
  let temp1 := wadd w (wadd w (wadd w (wadd w h s1) ch) ki) wi in
  let s0 := model_big w r0 a in
  let maj := N.lxor (N.lxor (N.land a b) (N.land a c)) (N.land b c) in
  let temp2 := wadd w s0 maj in
  Ok (wadd w temp1 temp2, a, b, c, wadd w d temp1, e, f, g).

Definition model_process (kind : sha2_kind) (k hash chunk : list N) : res (list N) :=
  let w := s2_bits kind in
  let* (cs, _) := chunks_exact (s2_word kind) chunk in
  let* ws := forM (enumerate cs) (fun '(i, word) ws =>
      let* word := to_array (s2_word kind) word in
      upd ws i (from_be word)) (repeat 0 (s2_rounds kind)) in
  let* ws := forM (range 16 (s2_rounds kind)) (model_expand w (s2_small0 kind) (s2_small1 kind)) ws in
  match hash with
  | [a; b; c; d; e; f; g; h] =>
    let* (a, b, c, d, e, f, g, h) :=
      forM (range 0 (s2_rounds kind)) (model_round w (s2_big0 kind) (s2_big1 kind) k ws)
      (a, b, c, d, e, f, g, h) in
    match hash with
    | [h0; h1; h2; h3; h4; h5; h6; h7] =>
        Ok [wadd w h0 a; wadd w h1 b; wadd w h2 c; wadd w h3 d;
            wadd w h4 e; wadd w h5 f; wadd w h6 g; wadd w h7 h]
    | _ => Panic PIndex
    end
  | _ => Panic PIndex
  end.

Lemma process_256 : sha2_process_chunk = model_process sha256_kind ROUND_CONSTANTS.
Proof. reflexivity. Qed.
Lemma process_512 : sha2_process_big_chunk = model_process sha512_kind ROUND_CONSTANTS_BIG.
Proof. reflexivity. Qed.

Lemma round_constants : ROUND_CONSTANTS = sha2_k sha256_kind.
Proof. vm_compute. reflexivity. Qed.
Lemma round_constants_big : ROUND_CONSTANTS_BIG = sha2_k sha512_kind.
Proof. vm_compute. reflexivity. Qed.
Lemma initial_224 : INITIAL_HASH_224 = sha224_init.
Proof. vm_compute. reflexivity. Qed.
Lemma initial_256 : INITIAL_HASH_256 = sha256_init.
Proof. vm_compute. reflexivity. Qed.
Lemma initial_384 : INITIAL_HASH_384 = sha384_init.
Proof. vm_compute. reflexivity. Qed.
Lemma initial_512 : INITIAL_HASH_512 = sha512_init.
Proof. vm_compute. reflexivity. Qed.

Lemma model_big_eq w r x : 0 < w -> x < 2 ^ w -> model_big w r x = sha2_big w r x.
Proof.
  intros Hw Hx. destruct r as ((i, j), k). unfold model_big, sha2_big. now rewrite !ror_rotr by auto.
Qed.
Lemma model_small_eq w r x : 0 < w -> x < 2 ^ w -> model_small w r x = sha2_small w r x.
Proof.
  intros Hw Hx. destruct r as ((i, j), k). unfold model_small, sha2_small. rewrite !ror_rotr by auto.
  unfold wshr. now rewrite N.shiftr_div_pow2.
Qed.

Lemma sum3 w a b c d : wadd w (wadd w (wadd w a b) c) d = (a + b + c + d) mod 2 ^ w.
Proof. unfold wadd at 1. rewrite sum2. apply N.add_mod_idemp_l, N.pow_nonzero. discriminate. Qed.

Lemma fold_left_map {A B C} (f : A -> C -> A) (g : B -> C) l a :
  fold_left f (map g l) a = fold_left (fun a b => f a (g b)) l a.
Proof. revert a. induction l; intros; cbn [map fold_left]; auto. Qed.

Lemma combine_nth_map (l1 l2 : list N) n : length l1 = n -> length l2 = n ->
  combine l1 l2 = map (fun i => (nth i l1 0, nth i l2 0)) (seq 0 n).
Proof.
  revert l2 n. induction l1 as [|a l1 IH]; intros [|b l2] n H1 H2; cbn [length] in *; subst n; try lia.
  - reflexivity.
  - cbn [combine seq map nth]. f_equal. rewrite <- seq_shift, map_map. apply IH; auto.
Qed.

Definition st8_ok (w : N) (st : state8) : Prop :=
  let '(a, b, c, d, e, f, g, h) := st in
  a < 2 ^ w /\ b < 2 ^ w /\ c < 2 ^ w /\ d < 2 ^ w /\ e < 2 ^ w /\ f < 2 ^ w /\ g < 2 ^ w /\ h < 2 ^ w.
Definition h8_ok (w : N) (h : list N) : Prop := length h = 8%nat /\ words w h.

Lemma sha2_round_eq kind k ws i st : 0 < s2_bits kind ->
  (i < length k)%nat -> (i < length ws)%nat -> st8_ok (s2_bits kind) st ->
  model_round (s2_bits kind) (s2_big0 kind) (s2_big1 kind) k ws i st
    = Ok (sha2_round kind st (nth i k 0, nth i ws 0)) /\
  st8_ok (s2_bits kind) (sha2_round kind st (nth i k 0, nth i ws 0)).
Proof.
  intros Hw Hk Hi. destruct st as (((((((a, b), c), d), e), f), g), h).
  intros (Ha & Hb & Hc & Hd & He & Hf & Hg & Hh). split.
  - unfold model_round, sha2_round. rewrite (idx_nth k i 0), (idx_nth ws i 0) by auto. cbn [bind fst snd].
    rewrite !model_big_eq by auto. rewrite wnot_not by auto.
    fold (sha2_ch (s2_bits kind) e f g). fold (sha2_maj a b c). rewrite (sum4 _ h).
    unfold wadd. rewrite !N.add_mod_idemp_l, !N.add_mod_idemp_r by (apply N.pow_nonzero; discriminate).
    reflexivity.
  - cbn [sha2_round]. repeat split; auto; apply mod_pow2_lt.
Qed.

Lemma sha2_process_eq kind k h c :
  (0 < s2_word kind)%nat -> (16 <= s2_rounds kind)%nat -> length k = s2_rounds kind ->
  h8_ok (s2_bits kind) h -> length c = (16 * s2_word kind)%nat -> bytes c ->
  model_process kind k h c = Ok (sha2_compress kind k h c) /\
  h8_ok (s2_bits kind) (sha2_compress kind k h c).
Proof.
  intros Hw Hr Lk [Lh Wh] Lc Bc. unfold model_process. cbv zeta.
  assert (Hb : 0 < s2_bits kind) by (unfold s2_bits; lia).
  rewrite (chunks_exact_groups _ 16) by auto. cbn [bind].
  assert (Ld : (length c / s2_word kind)%nat = 16%nat) by (rewrite Lc; apply Nat.div_mul; lia).
  assert (L16 : length (map be_num (groups (s2_word kind) c)) = 16%nat)
    by (rewrite map_length, groups_length; exact Ld).
  assert (G16 : length (groups (s2_word kind) c) = 16%nat) by (rewrite groups_length; exact Ld).
  rewrite (forM_enumerate_range _ []), G16.
  destruct (concat_groups (s2_word kind) 16 c Hw Lc) as (_ & _ & G3).
  pose proof (fill_loop (fun i ws =>
      let* word := to_array (s2_word kind) (nth i (groups (s2_word kind) c) []) in
      upd ws i (from_be word)) (map be_num (groups (s2_word kind) c)) (s2_rounds kind)) as F.
  rewrite L16 in F. rewrite F; [|lia|]. clear F.
  2: { intros i ws Hi. rewrite to_array_ok by (apply (Forall_nth_lt _ _ _ _ G3); lia). cbn [bind].
       rewrite from_be_be_num. f_equal.
       rewrite (nth_indep _ 0 (be_num [])) by lia. now rewrite map_nth. }
  cbn [bind].
  destruct (expand_loop (model_expand (s2_bits kind) (s2_small0 kind) (s2_small1 kind)) (sha2_expand kind)
      (fun v => v < 2 ^ s2_bits kind) (fun n => sha2_schedule kind n c) (s2_rounds kind)) as (E & W & L).
  { exact L16. } { lia. } { apply (group_words (s2_word kind)); auto. } { reflexivity. }
  { intros w Hws Hl. unfold model_expand. rewrite !idx_prefix by lia. cbn [bind].
    rewrite !model_small_eq by (auto; now apply words_nth). rewrite sum3.
    unfold sha2_expand. split; [|apply mod_pow2_lt]. do 2 f_equal. lia. }
  change (sha2_schedule kind 0 c) with (map be_num (groups (s2_word kind) c)) in E. rewrite E. clear E. cbn [bind].
  destruct h as [|h0 [|h1 [|h2 [|h3 [|h4 [|h5 [|h6 [|h7 [|]]]]]]]]]; try discriminate Lh.
  rewrite !Forall_cons_iff in Wh. destruct Wh as (W0 & W1 & W2 & W3 & W4 & W5 & W6 & W7 & _).
  set (ws := sha2_schedule kind (s2_rounds kind - 16) c) in *.
  destruct (forM_fold (range 0 (s2_rounds kind))
     (model_round (s2_bits kind) (s2_big0 kind) (s2_big1 kind) k ws)
     (fun t st => sha2_round kind st (nth t k 0, nth t ws 0)) (st8_ok (s2_bits kind))
     (h0, h1, h2, h3, h4, h5, h6, h7)) as [E P].
  { unfold st8_ok. auto 10. }
  { intros t st Ht Hst. apply in_range in Ht. apply sha2_round_eq; auto; lia. }
  rewrite E. cbn [bind sha2_compress]. fold ws.
  rewrite (combine_nth_map k ws (s2_rounds kind)) by auto. rewrite fold_left_map.
  unfold range in *. rewrite Nat.sub_0_r in *.
  match goal with |- context [fold_left ?f ?l ?s] => destruct (fold_left f l s) as (((((((a, b), c'), d), e), f'), g), h) end.
  split; [reflexivity|]. split; [reflexivity|].
  repeat (apply Forall_cons; [apply mod_pow2_lt|]). apply Forall_nil.
Qed.

(** [init], digest words [n]; [to_bytes] is the final conversion. *)
Lemma sha2_loop_ok kind process k init m :
  process = model_process kind k -> (0 < s2_word kind)%nat -> (16 <= s2_rounds kind)%nat ->
  length k = s2_rounds kind -> h8_ok (s2_bits kind) init -> bytes m ->
  8 * N.of_nat (length m) < 2 ^ (16 * N.of_nat (s2_word kind)) ->
  exists cs r last extra, chunks_exact (16 * s2_word kind) m = Ok (cs, r) /\
    gen_padding (16 * s2_word kind) (2 * s2_word kind) r (N.of_nat (length m)) = Ok (last, extra) /\
    let h := fold_left (sha2_compress kind k)
      (groups (16 * s2_word kind) (sha_pad (16 * s2_word kind) (2 * s2_word kind) m)) init in
    sha_chunk_loop (16 * s2_word kind) process cs last extra init = Ok h /\ h8_ok (s2_bits kind) h.
Proof.
  intros -> Hw Hr Lk Hi Hb Hm.
  destruct (blocks_ok (16 * s2_word kind) (2 * s2_word kind) m) as (cs & r & last & extra & E1 & E2 & G & F).
  { lia. } { replace (8 * N.of_nat (2 * s2_word kind)) with (16 * N.of_nat (s2_word kind)) by lia. exact Hm. }
  exists cs, r, last, extra. split; auto. split; auto. cbv zeta. rewrite G.
  apply chunk_loop_ok; auto.
  - intros h c Hh Hl Hc. apply sha2_process_eq; auto.
  - rewrite <- G. apply groups_bytes, sha_pad_bytes, Hb.
Qed.

Ltac init_ok := split; [reflexivity|repeat (apply Forall_cons; [reflexivity|]); apply Forall_nil].

Lemma wordpos_256 : (0 < s2_word sha256_kind)%nat.
Proof. cbn. lia. Qed.
Lemma rounds_256 : (16 <= s2_rounds sha256_kind)%nat.
Proof. cbn. lia. Qed.
Lemma klen_256 : length ROUND_CONSTANTS = s2_rounds sha256_kind.
Proof. reflexivity. Qed.
Lemma msg_bound_256 (m : list N) : 8 * N.of_nat (length m) < 2 ^ (16 * N.of_nat (s2_word sha256_kind)) <->
  N.of_nat (length m) < 2 ^ 61.
Proof. change (2 ^ (16 * N.of_nat (s2_word sha256_kind))) with (8 * 2 ^ 61). lia. Qed.
Lemma wordpos_512 : (0 < s2_word sha512_kind)%nat.
Proof. cbn. lia. Qed.
Lemma rounds_512 : (16 <= s2_rounds sha512_kind)%nat.
Proof. cbn. lia. Qed.
Lemma klen_512 : length ROUND_CONSTANTS_BIG = s2_rounds sha512_kind.
Proof. reflexivity. Qed.
Lemma msg_bound_512 (m : list N) : 8 * N.of_nat (length m) < 2 ^ (16 * N.of_nat (s2_word sha512_kind)) <->
  N.of_nat (length m) < 2 ^ 125.
Proof. change (2 ^ (16 * N.of_nat (s2_word sha512_kind))) with (8 * 2 ^ 125). lia. Qed.
Lemma init_ok_224 : h8_ok (s2_bits sha256_kind) INITIAL_HASH_224.
Proof. init_ok. Qed.
Lemma init_ok_256 : h8_ok (s2_bits sha256_kind) INITIAL_HASH_256.
Proof. init_ok. Qed.
Lemma init_ok_384 : h8_ok (s2_bits sha512_kind) INITIAL_HASH_384.
Proof. init_ok. Qed.
Lemma init_ok_512 : h8_ok (s2_bits sha512_kind) INITIAL_HASH_512.
Proof. init_ok. Qed.

Lemma sha256_conforms m : bytes m -> N.of_nat (length m) < 2 ^ 61 -> sha256 m = Ok (sha256_spec m).
Proof.
  intros Hb Hm.
  destruct (sha2_loop_ok sha256_kind sha2_process_chunk ROUND_CONSTANTS INITIAL_HASH_256 m process_256
    wordpos_256 rounds_256 klen_256 init_ok_256 Hb (proj2 (msg_bound_256 m) Hm))
    as (cs & r & last & extra & E1 & E2 & E3 & P3).
  unfold sha256. change (chunks_exact 64 m) with (chunks_exact (16 * s2_word sha256_kind) m). rewrite E1. cbn [bind].
  unfold sha2_padding. rewrite sha1_padding_gen.
  change (gen_padding 64 8) with (gen_padding (16 * s2_word sha256_kind) (2 * s2_word sha256_kind)).
  rewrite E2. cbn [bind]. change 64%nat with (16 * s2_word sha256_kind)%nat at 1. rewrite E3. cbn [bind].
  unfold hash256_from_words. rewrite u32s_to_bytes_ok by now rewrite (proj1 P3).
  unfold sha256_spec, sha2_spec. rewrite <- round_constants, <- initial_256.
  rewrite firstn_all2 by (rewrite (proj1 P3); auto). reflexivity.
Qed.

Lemma sha224_conforms m : bytes m -> N.of_nat (length m) < 2 ^ 61 -> sha224 m = Ok (sha224_spec m).
Proof.
  intros Hb Hm.
  destruct (sha2_loop_ok sha256_kind sha2_process_chunk ROUND_CONSTANTS INITIAL_HASH_224 m process_256
    wordpos_256 rounds_256 klen_256 init_ok_224 Hb (proj2 (msg_bound_256 m) Hm))
    as (cs & r & last & extra & E1 & E2 & E3 & P3).
  unfold sha224. change (chunks_exact 64 m) with (chunks_exact (16 * s2_word sha256_kind) m). rewrite E1. cbn [bind].
  unfold sha2_padding. rewrite sha1_padding_gen.
  change (gen_padding 64 8) with (gen_padding (16 * s2_word sha256_kind) (2 * s2_word sha256_kind)).
  rewrite E2. cbn [bind]. change 64%nat with (16 * s2_word sha256_kind)%nat at 1. rewrite E3. cbn [bind].
  rewrite slice_to_ok by (rewrite (proj1 P3); lia). cbn [bind].
  rewrite to_array_ok by (rewrite firstn_length, (proj1 P3); reflexivity). cbn [bind].
  unfold hash224_from_words. rewrite u32s_to_bytes_ok by now rewrite firstn_length, (proj1 P3).
  unfold sha224_spec, sha2_spec. rewrite <- round_constants, <- initial_224. reflexivity.
Qed.

Lemma sha512_conforms m : bytes m -> N.of_nat (length m) < 2 ^ 125 -> sha512 m = Ok (sha512_spec m).
Proof.
  intros Hb Hm.
  destruct (sha2_loop_ok sha512_kind sha2_process_big_chunk ROUND_CONSTANTS_BIG INITIAL_HASH_512 m process_512
    wordpos_512 rounds_512 klen_512 init_ok_512 Hb (proj2 (msg_bound_512 m) Hm))
    as (cs & r & last & extra & E1 & E2 & E3 & P3).
  unfold sha512. change (chunks_exact 128 m) with (chunks_exact (16 * s2_word sha512_kind) m). rewrite E1. cbn [bind].
  rewrite sha2_padding_big_gen.
  change (gen_padding 128 16) with (gen_padding (16 * s2_word sha512_kind) (2 * s2_word sha512_kind)).
  rewrite E2. cbn [bind]. change 128%nat with (16 * s2_word sha512_kind)%nat at 1. rewrite E3. cbn [bind].
  unfold hash512_from_words. rewrite u64s_to_bytes_ok by now rewrite (proj1 P3).
  unfold sha512_spec, sha2_spec. rewrite <- round_constants_big, <- initial_512.
  rewrite firstn_all2 by (rewrite (proj1 P3); auto). reflexivity.
Qed.

Lemma sha384_conforms m : bytes m -> N.of_nat (length m) < 2 ^ 125 -> sha384 m = Ok (sha384_spec m).
Proof.
  intros Hb Hm.
  destruct (sha2_loop_ok sha512_kind sha2_process_big_chunk ROUND_CONSTANTS_BIG INITIAL_HASH_384 m process_512
    wordpos_512 rounds_512 klen_512 init_ok_384 Hb (proj2 (msg_bound_512 m) Hm))
    as (cs & r & last & extra & E1 & E2 & E3 & P3).
  unfold sha384. change (chunks_exact 128 m) with (chunks_exact (16 * s2_word sha512_kind) m). rewrite E1. cbn [bind].
  rewrite sha2_padding_big_gen.
  change (gen_padding 128 16) with (gen_padding (16 * s2_word sha512_kind) (2 * s2_word sha512_kind)).
  rewrite E2. cbn [bind]. change 128%nat with (16 * s2_word sha512_kind)%nat at 1. rewrite E3. cbn [bind].
  rewrite slice_to_ok by (rewrite (proj1 P3); lia). cbn [bind].
  rewrite to_array_ok by (rewrite firstn_length, (proj1 P3); reflexivity). cbn [bind].
  unfold hash384_from_words. rewrite u64s_to_bytes_ok by now rewrite firstn_length, (proj1 P3).
  unfold sha384_spec, sha2_spec. rewrite <- round_constants_big, <- initial_384. reflexivity.
Qed.

Lemma sha2_long (f : list N -> N -> res (list N * option (list N))) n l m
    (k : list (list N) -> list N -> list N * option (list N) -> res (list N)) :
  f = gen_padding n l -> (l < n)%nat -> 2 ^ (8 * N.of_nat l) <= 8 * N.of_nat (length m) ->
  (let* (cs, r) := chunks_exact n m in
   let* le := f r (N.of_nat (length m)) in k cs r le) = Panic POverflow.
Proof.
  intros -> Hl Hm. destruct (chunks_exact_spec n m ltac:(lia)) as (cs & r & E & _ & _ & Hr).
  rewrite E. cbn [bind]. rewrite (gen_padding_long n l r (N.of_nat (length m)) Hl Hr Hm). reflexivity.
Qed.

Lemma sha224_long m : 2 ^ 61 <= N.of_nat (length m) -> sha224 m = Panic POverflow.
Proof.
  intros Hm. unfold sha224.
  apply (sha2_long sha2_padding 64 8 m (fun cs r '(last_chunk, extra_chunk) =>
     let* hash := sha_chunk_loop 64 sha2_process_chunk cs last_chunk extra_chunk INITIAL_HASH_224 in
     let* h := slice_to hash 7 in let* h := to_array 7 h in hash224_from_words h) sha1_padding_gen).
  { lia. } { change (2 ^ (8 * N.of_nat 8)) with (8 * 2 ^ 61). lia. }
Qed.
Lemma sha256_long m : 2 ^ 61 <= N.of_nat (length m) -> sha256 m = Panic POverflow.
Proof.
  intros Hm. unfold sha256.
  apply (sha2_long sha2_padding 64 8 m (fun cs r '(last_chunk, extra_chunk) =>
     let* hash := sha_chunk_loop 64 sha2_process_chunk cs last_chunk extra_chunk INITIAL_HASH_256 in
     hash256_from_words hash) sha1_padding_gen).
  { lia. } { change (2 ^ (8 * N.of_nat 8)) with (8 * 2 ^ 61). lia. }
Qed.

(** Lengths of the digests. *)
Lemma fold_inv {A B} (P : A -> Prop) (f : A -> B -> A) l a :
  P a -> (forall a b, P a -> P (f a b)) -> P (fold_left f l a).
Proof. intros Ha Hf. revert a Ha. induction l; intros; cbn [fold_left]; auto. Qed.

Lemma sha2_compress_length k kt h b : length h = 8%nat -> length (sha2_compress k kt h b) = 8%nat.
Proof.
  intros H. destruct h as [|h0 [|h1 [|h2 [|h3 [|h4 [|h5 [|h6 [|h7 [|]]]]]]]]]; try discriminate H.
  unfold sha2_compress. destruct (fold_left _ _ _) as (((((((a, b'), c'), d), e), f'), g), h). reflexivity.
Qed.
Lemma sha1_compress_length h b : length h = 5%nat -> length (sha1_compress h b) = 5%nat.
Proof.
  intros H. destruct h as [|h0 [|h1 [|h2 [|h3 [|h4 [|]]]]]]; try discriminate H.
  unfold sha1_compress. destruct (fold_left _ _ _) as ((((a, b'), c'), d), e). reflexivity.
Qed.

Lemma concat_be_wf k ws : length (concat (map (be_bytes k) ws)) = (length ws * k)%nat /\
  bytes (concat (map (be_bytes k) ws)).
Proof.
  split.
  - rewrite (concat_length_const k), map_length; auto.
    apply Forall_forall. intros c Hc. apply in_map_iff in Hc as (v & <- & _). apply be_bytes_length.
  - apply Forall_concat. apply Forall_forall. intros c Hc. apply in_map_iff in Hc as (v & <- & _).
    apply be_bytes_bytes.
Qed.

Lemma sha1_spec_wf m : length (sha1_spec m) = 20%nat /\ bytes (sha1_spec m).
Proof.
  unfold sha1_spec. destruct (concat_be_wf 4 (fold_left sha1_compress (groups 64 (sha_pad 64 8 m)) sha1_init))
    as [L B]. split; auto. rewrite L, (fold_inv (fun h => length h = 5%nat)); auto.
  intros. now apply sha1_compress_length.
Qed.

Lemma sha2_spec_wf k init n m : length init = 8%nat -> (n <= 8)%nat ->
  length (sha2_spec k init n m) = (n * s2_word k)%nat /\ bytes (sha2_spec k init n m).
Proof.
  intros Hi Hn. unfold sha2_spec. cbv zeta.
  match goal with |- context [map _ (firstn n ?h)] =>
    destruct (concat_be_wf (s2_word k) (firstn n h)) as [L B]; split; auto; rewrite L; f_equal;
    assert (length h = 8%nat) end.
  { apply (fold_inv (fun h => length h = 8%nat)); auto. intros. now apply sha2_compress_length. }
  rewrite firstn_length. lia.
Qed.

(** The blocks, for both block sizes. *)
Lemma blocks_64 m : N.of_nat (length m) < 2 ^ 61 ->
  exists cs r last extra, chunks_exact 64 m = Ok (cs, r) /\
    sha1_padding r (N.of_nat (length m)) = Ok (last, extra) /\
    groups 64 (sha_pad 64 8 m) = cs ++ last :: match extra with Some x => [x] | None => [] end /\
    Forall (fun c => length c = 64%nat) (groups 64 (sha_pad 64 8 m)) /\
    concat (groups 64 (sha_pad 64 8 m)) = sha_pad 64 8 m.
Proof.
  intros Hm. destruct (blocks_ok 64 8 m) as (cs & r & last & extra & E1 & E2 & G & F).
  { lia. } { change (2 ^ (8 * N.of_nat 8)) with (8 * 2 ^ 61). lia. }
  exists cs, r, last, extra. rewrite sha1_padding_gen. split; auto. split; auto. split; auto.
  split; [now rewrite G|]. destruct (sha_pad_length 64 8 m) as [k Hk]; [lia|].
  apply (concat_groups 64 k); auto. lia.
Qed.

Lemma blocks_128 m : N.of_nat (length m) < 2 ^ 125 ->
  exists cs r last extra, chunks_exact 128 m = Ok (cs, r) /\
    sha2_padding_big r (N.of_nat (length m)) = Ok (last, extra) /\
    groups 128 (sha_pad 128 16 m) = cs ++ last :: match extra with Some x => [x] | None => [] end /\
    Forall (fun c => length c = 128%nat) (groups 128 (sha_pad 128 16 m)) /\
    concat (groups 128 (sha_pad 128 16 m)) = sha_pad 128 16 m.
Proof.
  intros Hm. destruct (blocks_ok 128 16 m) as (cs & r & last & extra & E1 & E2 & G & F).
  { lia. } { change (2 ^ (8 * N.of_nat 16)) with (8 * 2 ^ 125). lia. }
  exists cs, r, last, extra. rewrite sha2_padding_big_gen. split; auto. split; auto. split; auto.
  split; [now rewrite G|]. destruct (sha_pad_length 128 16 m) as [k Hk]; [lia|].
  apply (concat_groups 128 k); auto. lia.
Qed.

Lemma sha_pad_inj_64 m m' : N.of_nat (length m) < 2 ^ 61 -> N.of_nat (length m') < 2 ^ 61 ->
  sha_pad 64 8 m = sha_pad 64 8 m' -> m = m'.
Proof.
  intros H H'. apply sha_pad_inj; [lia| |]; change (2 ^ (8 * N.of_nat 8)) with (8 * 2 ^ 61); lia.
Qed.
Lemma sha_pad_inj_128 m m' : N.of_nat (length m) < 2 ^ 125 -> N.of_nat (length m') < 2 ^ 125 ->
  sha_pad 128 16 m = sha_pad 128 16 m' -> m = m'.
Proof.
  intros H H'. apply sha_pad_inj; [lia| |]; change (2 ^ (8 * N.of_nat 16)) with (8 * 2 ^ 125); lia.
Qed.
