(** * Pseudo-collisions of MD5 *)
From Coq Require Import ZifyBool ZifyNat ZifyN.
From Verif Require Import Base BaseLemmas ModelMd SpecEndian SpecWord SpecMd SpecFixed SpecPseudo
  ProofEndian ProofWord ProofMd ProofSha ProofFixed.
Ltac Zify.zify_post_hook ::= idtac.
Local Open Scope N_scope.

Lemma flip_lt x : x < 2 ^ 32 -> flip_top x < 2 ^ 32.
Proof. intros H. unfold flip_top. apply lxor_lt; [exact H|reflexivity]. Qed.

Lemma flip_bit x i : N.testbit (flip_top x) i = xorb (N.testbit x i) (i =? 31).
Proof.
  unfold flip_top. rewrite N.lxor_spec. f_equal. change 0x80000000 with (2 ^ 31).
  rewrite N.pow2_bits_eqb. apply N.eqb_sym.
Qed.

(** Inverting the top bit is adding it. *)
Lemma flip_add x : x < 2 ^ 32 -> flip_top x = (x + 2 ^ 31) mod 2 ^ 32.
Proof.
  intros H. unfold flip_top. change 0x80000000 with (2 ^ 31).
  assert (x = x mod 2 ^ 31 + 2 ^ 31 * (x / 2 ^ 31)) as E by (rewrite N.add_comm; apply N.div_mod; discriminate).
  assert (x / 2 ^ 31 = 0 \/ x / 2 ^ 31 = 1) as [Q|Q].
  { assert (x / 2 ^ 31 < 2) by (apply N.div_lt_upper_bound; [discriminate|exact H]). lia. }
  - rewrite Q, N.mul_0_r, N.add_0_r in E. assert (x < 2 ^ 31) as L by (rewrite E; apply N.mod_lt; discriminate).
    rewrite N.mod_small by (change (2 ^ 32) with (2 ^ 31 + 2 ^ 31); lia).
    rewrite <- N.add_nocarry_lxor; [reflexivity|]. apply N.bits_inj. intros i. rewrite N.land_spec, N.bits_0, N.pow2_bits_eqb.
    destruct (N.eqb_spec 31 i) as [<-|]; [|apply andb_false_r]. rewrite (N.testbit_eqb x 31), Q. reflexivity.
  - rewrite Q, N.mul_1_r in E. remember (x mod 2 ^ 31) as y eqn:Ey.
    assert (y < 2 ^ 31) as L by (subst y; apply N.mod_lt; discriminate).
    replace (x + 2 ^ 31) with (y + 1 * 2 ^ 32) by (rewrite E; change (2 ^ 32) with (2 ^ 31 + 2 ^ 31); lia).
    rewrite N.mod_add, N.mod_small by (try discriminate; change (2 ^ 32) with (2 ^ 31 + 2 ^ 31); lia).
    assert (x = N.lxor y (2 ^ 31)) as E2.
    { rewrite <- N.add_nocarry_lxor; [exact E|]. apply N.bits_inj. intros i. rewrite N.land_spec, N.bits_0, N.pow2_bits_eqb.
      destruct (N.eqb_spec 31 i) as [<-|]; [|apply andb_false_r].
      rewrite (N.testbit_eqb y 31), N.div_small by exact L. reflexivity. }
    rewrite E2, N.lxor_assoc, N.lxor_nilpotent. apply N.lxor_0_r.
Qed.

(** ** The four auxiliary functions *)

Definition flips (f : N -> N -> N -> N) (p : N -> N -> N -> bool) : Prop :=
  forall x y z, x < 2 ^ 32 -> y < 2 ^ 32 -> z < 2 ^ 32 ->
  f (flip_top x) (flip_top y) (flip_top z) = if p x y z then flip_top (f x y z) else f x y z.

Ltac bits_of :=
  rewrite ?flip_bit; unfold F5, G5, H5, I5;
  rewrite ?N.lor_spec, ?N.land_spec, ?N.lxor_spec, ?N.lor_spec, ?N.land_spec, ?N.lxor_spec,
    ?testbit_not_w, ?N.lor_spec, ?testbit_not_w by (try apply flip_lt; assumption);
  rewrite ?flip_bit.
Ltac flip_bits :=
  intros x y z Hx Hy Hz; apply N.bits_inj; intros i; destruct (N.eqb_spec i 31) as [->|E];
  [unfold top; destruct (N.testbit x 31) eqn:B1, (N.testbit y 31) eqn:B2, (N.testbit z 31) eqn:B3; cbn [eqb];
   bits_of; rewrite ?B1, ?B2, ?B3; reflexivity
  |apply N.eqb_neq in E; try match goal with |- _ = N.testbit (if ?p then _ else _) _ => destruct p end;
   bits_of; rewrite ?E, ?xorb_false_r; reflexivity].

Lemma F5_flips : flips F5 (fun x y z => eqb (top y) (top z)).
Proof. flip_bits. Qed.
Lemma G5_flips : flips G5 (fun x y z => eqb (top x) (top y)).
Proof. flip_bits. Qed.
Lemma H5_flips : flips H5 (fun x y z => true).
Proof. flip_bits. Qed.
Lemma I5_flips : flips I5 (fun x y z => eqb (top x) (top z)).
Proof. flip_bits. Qed.

Definition bounded (f : N -> N -> N -> N) : Prop :=
  forall x y z, x < 2 ^ 32 -> y < 2 ^ 32 -> z < 2 ^ 32 -> f x y z < 2 ^ 32.
Lemma not_w_lt x : x < 2 ^ 32 -> not_w 32 x < 2 ^ 32.
Proof. intros H. rewrite <- wnot_not by exact H. now apply wnot_lt. Qed.
Lemma F5_bounded : bounded F5.
Proof. intros x y z Hx Hy Hz. unfold F5. apply lor_lt; apply land_lt_l; auto using not_w_lt. Qed.
Lemma G5_bounded : bounded G5.
Proof. intros x y z Hx Hy Hz. unfold G5. apply lor_lt; apply land_lt_l; auto using not_w_lt. Qed.
Lemma H5_bounded : bounded H5.
Proof. intros x y z Hx Hy Hz. unfold H5. auto using lxor_lt. Qed.
Lemma I5_bounded : bounded I5.
Proof. intros x y z Hx Hy Hz. unfold I5. apply lxor_lt; [exact Hy|]. apply lor_lt; auto using not_w_lt. Qed.

(** ** One operation *)

Lemma two_flips a y r : a < 2 ^ 32 -> y < 2 ^ 32 -> (flip_top a + flip_top y + r) mod 2 ^ 32 = (a + y + r) mod 2 ^ 32.
Proof.
  intros Ha Hy. rewrite !flip_add by assumption.
  rewrite <- N.add_assoc, N.add_mod_idemp_l by discriminate.
  rewrite N.add_assoc, (N.add_comm (a + 2 ^ 31)), <- N.add_assoc, N.add_mod_idemp_l by discriminate.
  replace (y + 2 ^ 31 + (a + 2 ^ 31 + r)) with (a + y + r + 1 * 2 ^ 32) by (change (2 ^ 32) with (2 ^ 31 + 2 ^ 31); lia).
  apply N.mod_add. discriminate.
Qed.

Lemma one_flip a y : a < 2 ^ 32 -> (flip_top a + y) mod 2 ^ 32 = flip_top ((a + y) mod 2 ^ 32).
Proof.
  intros Ha. rewrite !flip_add by (try assumption; apply mod_pow2_lt).
  rewrite !N.add_mod_idemp_l by discriminate. f_equal. lia.
Qed.

Lemma flip_neq x : flip_top x <> x.
Proof.
  intros H. apply (f_equal (fun v => N.testbit v 31)) in H. rewrite flip_bit in H.
  destruct (N.testbit x 31); discriminate H.
Qed.

Lemma flip_inj x y : flip_top x = flip_top y -> x = y.
Proof.
  intros H. apply (f_equal flip_top) in H. unfold flip_top in H.
  now rewrite !N.lxor_assoc, N.lxor_nilpotent, !N.lxor_0_r in H.
Qed.

Lemma step_flips x f p k s t a b c d : flips f p -> bounded f -> st_lt (a, b, c, d) ->
  md5_step x (flip4 (a, b, c, d)) (f, k, s, t) = flip4 (md5_step x (a, b, c, d) (f, k, s, t)) <-> p b c d = true.
Proof.
  intros F B (Ha & Hb & Hc & Hd). unfold md5_step, flip4.
  rewrite (F _ _ _ Hb Hc Hd). pose proof (B _ _ _ Hb Hc Hd) as Hf.
  rewrite <- !(N.add_assoc (_ + _)). unfold plus_w. rewrite one_flip by exact Hb.
  destruct (p b c d).
  - rewrite two_flips by assumption. tauto.
  - split; [|discriminate]. intros E. exfalso.
    assert (forall q q' u u' v v' w w' : N, (q, u, v, w) = (q', u', v', w') -> u = u') as I by (now intros; injection H).
    apply I in E. clear I. apply flip_inj in E.
    rewrite !(N.add_comm b) in E. apply (f_equal (fun v => minus 32 v b)) in E.
    rewrite !minus_add in E by (apply rol_lt; [reflexivity|apply mod_pow2_lt]).
    apply (f_equal (fun v => ror 32 v s)) in E. rewrite !ror_rol in E by (reflexivity || apply mod_pow2_lt).
    rewrite <- !N.add_assoc in E. rewrite one_flip in E by exact Ha. exact (flip_neq _ E).
Qed.

(** ** The 64 operations *)

Definition op_asks (op : md_op) (i : nat) : Prop :=
  let '(f, _, _, _) := op in
  bounded f /\ flips f (fun b c d => asks i (0, b, c, d)).

Lemma flips_ext f p q : flips f p -> (forall x y z, p x y z = q x y z) -> flips f q.
Proof. intros F E x y z Hx Hy Hz. rewrite <- E. now apply F. Qed.

Lemma nth_error_map_seq {A} (g : nat -> A) n i : (i < n)%nat -> nth_error (map g (seq 0 n)) i = Some (g i).
Proof.
  intros H. rewrite nth_error_map. rewrite (nth_error_nth' _ 0%nat) by (rewrite seq_length; exact H).
  now rewrite seq_nth by exact H.
Qed.

Lemma asks_cases i a b c d : asks i (a, b, c, d) = asks i (0, b, c, d).
Proof. reflexivity. Qed.

Lemma md5_ops_ask i : (i < 64)%nat -> exists op, nth_error md5_ops i = Some op /\ op_asks op i.
Proof.
  intros H. unfold md5_ops.
  assert (i < 16 \/ 16 <= i < 32 \/ 32 <= i < 48 \/ 48 <= i < 64)%nat as [C|[C|[C|C]]] by lia;
  [|rewrite nth_error_app2 by (rewrite map_length, seq_length; lia)..]; rewrite ?map_length, ?seq_length.
  - rewrite nth_error_app1 by (rewrite map_length, seq_length; lia). rewrite nth_error_map_seq by lia.
    eexists; split; [reflexivity|]. split; [exact F5_bounded|]. apply (flips_ext _ _ _ F5_flips).
    intros x y z. unfold asks. now replace (i <? 16)%nat with true by lia.
  - rewrite nth_error_app1 by (rewrite map_length, seq_length; lia). rewrite nth_error_map_seq by lia.
    eexists; split; [reflexivity|]. split; [exact G5_bounded|]. apply (flips_ext _ _ _ G5_flips).
    intros x y z. unfold asks. replace (i <? 16)%nat with false by lia. now replace (i <? 32)%nat with true by lia.
  - rewrite nth_error_app2 by (rewrite map_length, seq_length; lia). rewrite map_length, seq_length.
    rewrite nth_error_app1 by (rewrite map_length, seq_length; lia). rewrite nth_error_map_seq by lia.
    eexists; split; [reflexivity|]. split; [exact H5_bounded|]. apply (flips_ext _ _ _ H5_flips).
    intros x y z. unfold asks. replace (i <? 16)%nat with false by lia. replace (i <? 32)%nat with false by lia.
    now replace (i <? 48)%nat with true by lia.
  - rewrite nth_error_app2 by (rewrite map_length, seq_length; lia). rewrite map_length, seq_length.
    rewrite nth_error_app2 by (rewrite map_length, seq_length; lia). rewrite map_length, seq_length.
    rewrite nth_error_map_seq by lia.
    eexists; split; [reflexivity|]. split; [exact I5_bounded|]. apply (flips_ext _ _ _ I5_flips).
    intros x y z. unfold asks. replace (i <? 16)%nat with false by lia. replace (i <? 32)%nat with false by lia.
    now replace (i <? 48)%nat with false by lia.
Qed.

Lemma firstn_snoc {A} (l : list A) i v : nth_error l i = Some v -> firstn (S i) l = firstn i l ++ [v].
Proof.
  revert i; induction l as [|y l IH]; intros [|i] H; try discriminate H.
  - injection H as ->. reflexivity.
  - cbn [nth_error] in H. change (firstn (S (S i)) (y :: l)) with (y :: firstn (S i) l). now rewrite (IH _ H).
Qed.

Lemma after_lt x st i : st_lt st -> st_lt (after x st i).
Proof. intros H. apply (fold_inv_l _ _ _ (md5_inverts x) (firstn i md5_ops) st H). Qed.

Lemma after_S x st i op : nth_error md5_ops i = Some op -> after x st (S i) = md5_step x (after x st i) op.
Proof. intros H. unfold after. rewrite (firstn_snoc _ _ _ H), fold_left_app. reflexivity. Qed.

Lemma after_step x st i : (i < 64)%nat -> st_lt st -> after x (flip4 st) i = flip4 (after x st i) ->
  (after x (flip4 st) (S i) = flip4 (after x st (S i)) <-> asks i (after x st i) = true).
Proof.
  intros Hi Hs E. destruct (md5_ops_ask i Hi) as ([[[f k] s] t] & N1 & B & F).
  rewrite !(after_S _ _ _ _ N1), E. pose proof (after_lt x st i Hs) as L.
  destruct (after x st i) as [[[a b] c] d]. rewrite (step_flips x f _ k s t a b c d F B L).
  now rewrite <- (asks_cases i a).
Qed.

Lemma good_path_spec x st : good_path x st = true <-> forall i, (i < 64)%nat -> asks i (after x st i) = true.
Proof.
  unfold good_path. rewrite forallb_forall. split; intros H i Hi.
  - apply H, in_seq. lia.
  - apply in_seq in Hi. apply H. lia.
Qed.

Lemma path x st : st_lt st ->
  ((forall i, (i <= 64)%nat -> after x (flip4 st) i = flip4 (after x st i)) <-> good_path x st = true).
Proof.
  intros Hs. rewrite good_path_spec. split.
  - intros H i Hi. apply (after_step x st i Hi Hs); apply H; lia.
  - intros H. induction i as [|i IH]; intros Hi; [reflexivity|].
    apply after_step; [lia|exact Hs|apply IH; lia|apply H; lia].
Qed.

Lemma path4 x a b c d : a < 2 ^ 32 -> b < 2 ^ 32 -> c < 2 ^ 32 -> d < 2 ^ 32 ->
  let st := (a, b, c, d) in
  ((forall i, (i <= 64)%nat -> after x (flip4 st) i = flip4 (after x st i)) <-> good_path x st = true).
Proof. intros Ha Hb Hc Hd. apply path. repeat split; assumption. Qed.

(** ** The compression function *)

Lemma md5_ops_length : length md5_ops = 64%nat.
Proof. unfold md5_ops. now rewrite !app_length, !map_length, !seq_length. Qed.

Lemma fold_firstn_all {A B} (f : A -> B -> A) l n s : length l = n -> fold_left f (firstn n l) s = fold_left f l s.
Proof. intros <-. now rewrite firstn_all. Qed.
Lemma after_64 x st : after x st 64 = fold_left (md5_step x) md5_ops st.
Proof. exact (fold_firstn_all (md5_step x) md5_ops 64 st md5_ops_length). Qed.

Lemma plus_flips a b : a < 2 ^ 32 -> b < 2 ^ 32 -> plus_w 32 (flip_top a) (flip_top b) = plus_w 32 a b.
Proof. intros Ha Hb. pose proof (two_flips a b 0 Ha Hb) as H. now rewrite !N.add_0_r in H. Qed.

Lemma compress_flips b st : st_lt st -> good_path (map le_num (groups 4 b)) st = true ->
  md_compress md5_step md5_ops (flip4 st) b = md_compress md5_step md5_ops st b.
Proof.
  intros Hs G. apply (path _ _ Hs) with (i := 64%nat) in G; [|auto].
  pose proof (after_lt (map le_num (groups 4 b)) st 64 Hs) as L.
  rewrite !after_64 in G. rewrite after_64 in L.
  unfold md_compress. destruct st as [[[a0 b0] c0] d0]. destruct Hs as (A & B & C & D).
  change (flip4 (a0, b0, c0, d0)) with (flip_top a0, flip_top b0, flip_top c0, flip_top d0).
  change (flip4 (a0, b0, c0, d0)) with (flip_top a0, flip_top b0, flip_top c0, flip_top d0) in G.
  rewrite G. destruct (fold_left (md5_step (map le_num (groups 4 b))) md5_ops (a0, b0, c0, d0)) as [[[a' b'] c'] d']. destruct L as (A' & B' & C' & D').
  unfold flip4. now rewrite !plus_flips by assumption.
Qed.

Lemma chunk_compress n b st : length b = 64%nat -> st_lt st ->
  md_chunk md5_process n (list4' st) b = Ok (list4' (md_compress md5_step md5_ops st b)).
Proof.
  intros Lb Hs. destruct st as [[[a0 b0] c0] d0].
  cbn [list4']. unfold md_chunk, md_process_block. cbn [md_unprocessed_bytes md_a md_b md_c md_d].
  rewrite from_slice_eq by exact Lb. cbn [bind].
  rewrite md5_process_ok; [|rewrite map_length, groups_length, Lb; reflexivity|exact Hs].
  unfold md_compress. destruct (fold_left (md5_step (map le_num (groups 4 b))) md5_ops (a0, b0, c0, d0)) as [[[a' b'] c'] d']. reflexivity.
Qed.

Lemma flip4_lt st : st_lt st -> st_lt (flip4 st).
Proof. destruct st as [[[a b] c] d]. intros (Ha & Hb & Hc & Hd). cbn. auto using flip_lt. Qed.

Lemma pseudo_collision n b h0 h1 h2 h3 : length b = 64%nat -> is_state 32 4 [h0; h1; h2; h3] ->
  good_path (map le_num (groups 4 b)) (h0, h1, h2, h3) = true ->
  md_chunk md5_process n [flip_top h0; flip_top h1; flip_top h2; flip_top h3] b =
  md_chunk md5_process n [h0; h1; h2; h3] b.
Proof.
  intros Lb Hs G. destruct (tuple4_ok _ Hs) as [T _]. cbn [tuple4] in T.
  pose proof (chunk_compress n b (flip4 (h0, h1, h2, h3)) Lb (flip4_lt _ T)) as E1.
  pose proof (chunk_compress n b (h0, h1, h2, h3) Lb T) as E2.
  cbn [flip4 list4'] in E1, E2. rewrite E1, E2. f_equal. f_equal.
  exact (compress_flips b (h0, h1, h2, h3) T G).
Qed.
