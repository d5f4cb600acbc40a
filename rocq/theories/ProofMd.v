(** * MD4 and MD5 *)
From Coq Require Import ZifyBool ZifyNat ZifyN.
From Verif Require Import Base BaseLemmas ModelMd SpecEndian SpecWord SpecMd ProofEndian ProofWord.
Ltac Zify.zify_post_hook ::= Z.div_mod_to_equations.

(** ** The hasher, for any compression function *)

Definition st_lt (st : state4) : Prop :=
  let '(a, b, c, d) := st in a < 2 ^ 32 /\ b < 2 ^ 32 /\ c < 2 ^ 32 /\ d < 2 ^ 32.

(** [process] computes the operations [ops] of the specification. *)
Definition process_ok (process : md_process) (step : list N -> state4 -> md_op -> state4)
    (ops : list md_op) : Prop :=
  forall x a b c d, length x = 16%nat -> st_lt (a, b, c, d) ->
    process x a b c d = Ok (fold_left (step x) ops (a, b, c, d)).

Lemma from_slice_eq chunk : length chunk = 64%nat ->
  md_from_slice chunk = Ok (map le_num (groups 4 chunk)).
Proof.
  intros H. unfold md_from_slice, groups. rewrite H. change (64 / 4)%nat with 16%nat.
  rewrite map_map. change (range 0 16) with (seq 0 16). apply mapM_ok.
  intros j Hj. apply in_seq in Hj.
  rewrite slice_ok by lia. cbn [bind].
  replace (j * 4 + 4 - j * 4)%nat with 4%nat by lia. rewrite (Nat.mul_comm j 4).
  rewrite to_array_ok by (rewrite firstn_length, skipn_length; lia). cbn [bind].
  now rewrite from_le_le_num.
Qed.

Definition blocks64 (cs : list (list N)) : Prop := Forall (fun c => length c = 64%nat) cs.

Section Hasher.
Context (process : md_process) (step : list N -> state4 -> md_op -> state4) (ops : list md_op).
Context (Hp : process_ok process step ops).

(** The hasher after the blocks [cs] and the bytes [r]. *)
Definition md_state (cs : list (list N)) (r : list N) : md_hasher :=
  let '(a, b, c, d) := fold_left (md_compress step ops) cs md_init in
  {| md_unprocessed_bytes := r; md_bytes_consumed := N.of_nat (length (concat cs ++ r));
     md_a := a; md_b := b; md_c := c; md_d := d |}.

Lemma compress_lt st block : st_lt (md_compress step ops st block).
Proof.
  destruct st as (((a, b), c), d). unfold md_compress.
  destruct (fold_left _ _ _) as (((a', b'), c'), d'). repeat split; apply mod_pow2_lt.
Qed.

Lemma compress_all_lt cs : st_lt (fold_left (md_compress step ops) cs md_init).
Proof.
  induction cs as [|c cs IH] using rev_ind.
  - vm_compute. repeat split.
  - rewrite fold_left_app. apply compress_lt.
Qed.

Lemma md_new_eq : md_new = md_state [] [].
Proof. reflexivity. Qed.

Lemma process_block_eq cs r : length r = 64%nat ->
  md_process_block process (md_state cs r) = Ok (md_state (cs ++ [r]) []).
Proof.
  intros Lr. unfold md_state. pose proof (compress_all_lt cs) as Hlt.
  rewrite fold_left_app. cbn [fold_left].
  destruct (fold_left (md_compress step ops) cs md_init) as (((a, b), c), d).
  unfold md_process_block. cbn [md_unprocessed_bytes md_a md_b md_c md_d md_bytes_consumed].
  rewrite from_slice_eq by auto. cbn [bind].
  rewrite Hp by (auto; now rewrite map_length, groups_length, Lr).
  cbn [bind]. unfold md_compress.
  destruct (fold_left _ _ _) as (((a', b'), c'), d'). cbn [bind].
  rewrite concat_app. cbn [concat]. rewrite !app_nil_r. reflexivity.
Qed.

Lemma consume_eq cs r x : blocks64 cs -> (length r < 64)%nat ->
  N.of_nat (length (concat cs ++ r)) + 1 < 2 ^ 64 ->
  exists cs' r', md_consume process (md_state cs r) x = Ok (md_state cs' r') /\
    concat cs' ++ r' = concat cs ++ r ++ [x] /\ blocks64 cs' /\ (length r' < 64)%nat.
Proof.
  intros Hcs Lr Hn. unfold md_consume.
  assert (Ec : md_bytes_consumed (md_state cs r) = N.of_nat (length (concat cs ++ r)))
    by (unfold md_state; now destruct (fold_left _ _ _) as (((a, b), c), d)).
  assert (Eu : md_unprocessed_bytes (md_state cs r) = r)
    by (unfold md_state; now destruct (fold_left _ _ _) as (((a, b), c), d)).
  rewrite Ec, cadd_ok by lia. cbn [bind]. rewrite Eu.
  match goal with |- context [md_process_block process ?h] =>
    replace h with (md_state cs (r ++ [x])) end.
  2: { unfold md_state. destruct (fold_left _ _ _) as (((a, b), c), d).
       cbn [md_a md_b md_c md_d].
       replace (N.of_nat (length (concat cs ++ r ++ [x]))) with (N.of_nat (length (concat cs ++ r)) + 1)
         by (rewrite app_assoc, (app_length (concat cs ++ r)); cbn [length]; lia).
       reflexivity. }
  assert (Eu' : md_unprocessed_bytes (md_state cs (r ++ [x])) = r ++ [x])
    by (unfold md_state; now destruct (fold_left _ _ _) as (((a, b), c), d)).
  rewrite Eu', app_length. cbn [length].
  destruct (Nat.eqb_spec (length r + 1) 64) as [L|L].
  - rewrite process_block_eq by (rewrite app_length; cbn [length]; lia).
    exists (cs ++ [r ++ [x]]), []. split; [reflexivity|].
    split. { rewrite concat_app. cbn [concat]. now rewrite !app_nil_r. }
    split; [|cbn; lia]. apply Forall_app. split; auto. constructor; auto.
    rewrite app_length. cbn [length]. lia.
  - exists cs, (r ++ [x]). repeat split; auto. rewrite app_length. cbn [length]. lia.
Qed.

Lemma consume_list l : forall cs r, blocks64 cs -> (length r < 64)%nat ->
  N.of_nat (length (concat cs ++ r ++ l)) < 2 ^ 64 ->
  exists cs' r', forM l (fun b h => md_consume process h b) (md_state cs r) = Ok (md_state cs' r') /\
    concat cs' ++ r' = concat cs ++ r ++ l /\ blocks64 cs' /\ (length r' < 64)%nat.
Proof.
  induction l as [|x l IH]; intros cs r Hcs Lr Hn.
  - exists cs, r. rewrite app_nil_r. repeat split; auto.
  - cbn [forM].
    destruct (consume_eq cs r x Hcs Lr) as (cs1 & r1 & E1 & C1 & B1 & L1).
    { rewrite !app_length in *. cbn [length] in Hn. lia. }
    rewrite E1. cbn [bind].
    destruct (IH cs1 r1 B1 L1) as (cs2 & r2 & E2 & C2 & B2 & L2).
    { rewrite app_assoc, C1. rewrite !app_length in *. cbn [length] in *. lia. }
    exists cs2, r2. rewrite E2. split; auto. split; [|auto].
    rewrite C2, (app_assoc _ r1), C1, <- !app_assoc. reflexivity.
Qed.

Lemma forM_map {A B St} (g : A -> B) (l : list A) (f : B -> St -> res St) s :
  forM (map g l) f s = forM l (fun a => f (g a)) s.
Proof.
  revert s. induction l; intros s; cbn [forM map]; auto. destruct (f (g a) s); cbn [bind]; auto.
Qed.

Lemma zeros_loop {St} (f : N -> St -> res St) n s :
  forM (range 0 n) (fun _ => f 0) s = forM (repeat 0 n) f s.
Proof.
  unfold range. rewrite Nat.sub_0_r. generalize O as i. revert s.
  induction n; intros s i; cbn [seq forM repeat]; auto.
  destruct (f 0 s); cbn [bind]; auto.
Qed.

Lemma md_pad_length m : exists k, length (md_pad m) = (k * 64)%nat.
Proof.
  unfold md_pad. rewrite app_length. cbn [length]. rewrite app_length, repeat_length.
  unfold le_bytes. rewrite map_length, seq_length.
  exists ((length m + 72) / 64)%nat. lia.
Qed.

Lemma md_hash_eq m : N.of_nat (length m) < 2 ^ 61 -> md_hash process m = Ok (md_spec step ops m).
Proof.
  intros Hm. change (2 ^ 61) with 2305843009213693952 in Hm.
  unfold md_hash. rewrite md_new_eq.
  destruct (consume_list m [] []) as (cs & r & E & C & Hcs & Lr).
  { constructor. } { cbn; lia. } { cbn [concat app]. change (2 ^ 64) with 18446744073709551616. lia. }
  cbn [concat app] in C. rewrite E. cbn [bind].
  assert (Lm : (length m mod 64)%nat = length r).
  { rewrite <- C, app_length, (concat_length_const 64 cs Hcs), Nat.add_comm, Nat.mod_add by lia.
    now apply Nat.mod_small. }
  unfold md_finish.
  assert (Ec : md_bytes_consumed (md_state cs r) = N.of_nat (length m))
    by (rewrite <- C; unfold md_state; now destruct (fold_left _ _ _) as (((a, b), c), d)).
  assert (Eu : md_unprocessed_bytes (md_state cs r) = r)
    by (unfold md_state; now destruct (fold_left _ _ _) as (((a, b), c), d)).
  rewrite Ec, Eu. rewrite cmul_ok by (change (2 ^ 64) with 18446744073709551616; lia). cbn [bind].
  set (z := ((119 - length m mod 64) mod 64)%nat).
  assert (Ek : (if (length r =? 56)%nat then Ok 64%nat
    else let* k := nsub (64 + 56) (length r) in Ok (k mod 64)%nat) = Ok (z + 1)%nat).
  { destruct (Nat.eqb_spec (length r) 56) as [L|L].
    - f_equal. unfold z. rewrite Lm, L. reflexivity.
    - rewrite nsub_ok by lia. cbn [bind]. f_equal. unfold z. rewrite Lm. lia. }
  rewrite Ek. cbn [bind].
  replace (nsub (z + 1) 1) with (Ok z) by (rewrite nsub_ok by lia; f_equal; lia).
  cbn [bind].
  set (lenb := to_le 8 (N.of_nat (length m) * 8)).
  assert (El : lenb = le_bytes 8 (8 * N.of_nat (length m) mod 2 ^ 64)).
  { unfold lenb. rewrite to_le_le_bytes. f_equal. rewrite N.mod_small.
    apply N.mul_comm. change (2 ^ 64) with 18446744073709551616. lia. }
  set (fin := fun h : md_hasher =>
    let* out := copy_range (repeat 0 16) 0 4 (to_le 4 (md_a h)) in
    let* out := copy_range out 4 8 (to_le 4 (md_b h)) in
    let* out := copy_range out 8 12 (to_le 4 (md_c h)) in
    copy_range out 12 16 (to_le 4 (md_d h))).
  assert (Ef : forall h,
    (let* h0 := md_consume process h 128 in
     let* h1 := forM (range 0 z) (fun _ h1 => md_consume process h1 0) h0 in
     let* h2 := forM lenb (fun b h2 => md_consume process h2 b) h1 in fin h2)
    = let* h2 := forM (0x80 :: repeat 0 z ++ lenb) (fun b h => md_consume process h b) h in fin h2).
  { intros h. cbn [forM]. rewrite (bind_assoc (md_consume process h 128)).
    destruct (md_consume process h 128) as [h0|]; cbn [bind]; auto.
    rewrite forM_app, bind_assoc. rewrite <- (zeros_loop (fun b h => md_consume process h b)).
    reflexivity. }
  rewrite Ef. clear Ef.
  destruct (consume_list (0x80 :: repeat 0 z ++ lenb) cs r Hcs Lr) as (cs2 & r2 & E2 & C2 & B2 & L2).
  { rewrite (app_assoc (concat cs)), C. rewrite !app_length. cbn [length]. rewrite app_length, repeat_length.
    unfold lenb. rewrite to_le_length. unfold z. change (2 ^ 64) with 18446744073709551616. lia. }
  rewrite E2. cbn [bind].
  assert (Ep : concat cs2 ++ r2 = md_pad m).
  { rewrite C2, app_assoc, C, El. reflexivity. }
  assert (r2 = []).
  { destruct (md_pad_length m) as [k Hk]. rewrite <- Ep, app_length, (concat_length_const 64 cs2 B2) in Hk.
    apply length_zero_iff_nil. lia. }
  subst r2. rewrite app_nil_r in Ep.
  assert (Eg : groups 64 (md_pad m) = cs2) by (apply groups_unique; auto; lia).
  unfold md_spec. rewrite Eg. unfold md_state, fin.
  destruct (fold_left (md_compress step ops) cs2 md_init) as (((a, b), c), d).
  cbn [md_a md_b md_c md_d md_output]. rewrite !to_le_le_bytes. reflexivity.
Qed.

Lemma consume_list_long l : forall cs r, blocks64 cs -> (length r < 64)%nat ->
  N.of_nat (length (concat cs ++ r)) < 2 ^ 64 ->
  2 ^ 64 <= N.of_nat (length (concat cs ++ r ++ l)) ->
  forM l (fun b h => md_consume process h b) (md_state cs r) = Panic POverflow.
Proof.
  induction l as [|x l IH]; intros cs r Hcs Lr H0 Hn.
  - rewrite app_nil_r in Hn. lia.
  - cbn [forM].
    destruct (N.lt_ge_cases (N.of_nat (length (concat cs ++ r)) + 1) (2 ^ 64)) as [H1|H1].
    + destruct (consume_eq cs r x Hcs Lr H1) as (cs1 & r1 & E1 & C1 & B1 & L1).
      rewrite E1. cbn [bind]. apply IH; auto.
      * rewrite C1, app_assoc, app_length. cbn [length]. lia.
      * rewrite app_assoc, C1. rewrite !app_length in *. cbn [length] in *. lia.
    + unfold md_consume.
      assert (Ec : md_bytes_consumed (md_state cs r) = N.of_nat (length (concat cs ++ r)))
        by (unfold md_state; now destruct (fold_left _ _ _) as (((a, b), c), d)).
      rewrite Ec, cadd_panic by lia. reflexivity.
Qed.

Lemma md_hash_long m : 2 ^ 61 <= N.of_nat (length m) -> md_hash process m = Panic POverflow.
Proof.
  intros Hm. unfold md_hash. rewrite md_new_eq.
  destruct (N.lt_ge_cases (N.of_nat (length m)) (2 ^ 64)) as [H|H].
  - destruct (consume_list m [] []) as (cs & r & E & C & Hcs & Lr).
    { constructor. } { cbn; lia. } { exact H. }
    cbn [concat app] in C. rewrite E. cbn [bind]. unfold md_finish.
    assert (Ec : md_bytes_consumed (md_state cs r) = N.of_nat (length m))
      by (rewrite <- C; unfold md_state; now destruct (fold_left _ _ _) as (((a, b), c), d)).
    rewrite Ec, cmul_panic; [reflexivity|].
    change (2 ^ 64) with (2 ^ 61 * 8). lia.
  - rewrite consume_list_long; auto.
    + constructor.
    + cbn; lia.
    + reflexivity.
Qed.
End Hasher.

(** ** Compression functions *)

Lemma testbit_not_w x i : x < 2 ^ 32 -> N.testbit (not_w 32 x) i = (negb (N.testbit x i) && (i <? 32))%bool.
Proof.
  intros H. rewrite <- wnot_not by auto. unfold wnot. rewrite N.lxor_spec.
  destruct (N.ltb_spec i 32) as [L|L].
  - rewrite N.ones_spec_low by auto. now destruct (N.testbit x i).
  - rewrite N.ones_spec_high by auto. rewrite (testbit_high x 32) by auto. reflexivity.
Qed.

Lemma F4_eq x y z : x < 2 ^ 32 -> md4_f x y z = F4 x y z.
Proof.
  intros Hx. unfold md4_f, F4. rewrite wnot_not by auto. apply N.bits_inj. intros i.
  rewrite N.lxor_spec, N.lor_spec, !N.land_spec, testbit_not_w by auto.
  destruct (N.testbit x i), (N.testbit y i), (N.testbit z i), (i <? 32); reflexivity.
Qed.

Lemma F5_eq x y z : x < 2 ^ 32 -> md5_f x y z = F5 x y z.
Proof. intros Hx. unfold md5_f, F5. now rewrite wnot_not. Qed.
Lemma G5_eq x y z : z < 2 ^ 32 -> md5_g x y z = G5 x y z.
Proof. intros Hx. unfold md5_g, G5. now rewrite wnot_not. Qed.
Lemma I5_eq x y z : z < 2 ^ 32 -> md5_i x y z = I5 x y z.
Proof. intros Hx. unfold md5_i, I5. now rewrite wnot_not. Qed.

Definition md4_new (x : list N) (f : N -> N -> N -> N) (a b c d : N) (k : nat) (s t : N) : N :=
  rol 32 ((a + f b c d + nth k x 0 + t) mod 2 ^ 32) s.

Lemma md4_new_lt x f a b c d k s t : md4_new x f a b c d k s t < 2 ^ 32.
Proof.
  unfold md4_new. rewrite <- rol_rotl by (try apply mod_pow2_lt; lia). apply rotl_lt, mod_pow2_lt.
Qed.

Lemma add3 w a b c : wadd w (wadd w a b) c = (a + b + c) mod 2 ^ w.
Proof. unfold wadd at 2. apply wadd_mod_l. Qed.

Lemma add4 w a b c d : wadd w (wadd w (wadd w a b) c) d = (a + b + c + d) mod 2 ^ w.
Proof. unfold wadd at 1. rewrite add3, N.add_mod_idemp_l by (apply N.pow_nonzero; lia). reflexivity. Qed.

Lemma md4_ff_eq x a b c d k s : length x = 16%nat -> (k < 16)%nat -> b < 2 ^ 32 ->
  md4_ff x a b c d k s = Ok (md4_new x F4 a b c d k s 0).
Proof.
  intros Hx Hk Hb. unfold md4_ff, md4_new. rewrite (idx_nth _ _ 0) by lia. cbn [bind].
  rewrite rol_rotl by (try apply wadd_lt; lia). rewrite F4_eq by auto. now rewrite add3, N.add_0_r.
Qed.

Lemma md4_gg_eq x a b c d k s : length x = 16%nat -> (k < 16)%nat -> b < 2 ^ 32 ->
  md4_gg x a b c d k s = Ok (md4_new x G4 a b c d k s 0x5a827999).
Proof.
  intros Hx Hk Hb. unfold md4_gg, md4_new. rewrite (idx_nth _ _ 0) by lia. cbn [bind].
  rewrite rol_rotl by (try apply wadd_lt; lia). now rewrite add4.
Qed.

Lemma md4_hh_eq x a b c d k s : length x = 16%nat -> (k < 16)%nat -> b < 2 ^ 32 ->
  md4_hh x a b c d k s = Ok (md4_new x H4 a b c d k s 0x6ed9eba1).
Proof.
  intros Hx Hk Hb. unfold md4_hh, md4_new. rewrite (idx_nth _ _ 0) by lia. cbn [bind].
  rewrite rol_rotl by (try apply wadd_lt; lia). now rewrite add4.
Qed.

Lemma md4_step_eq x a b c d f k s t :
  md4_step x (a, b, c, d) (f, k, s, t) = (d, md4_new x f a b c d k s t, b, c).
Proof. reflexivity. Qed.

Lemma fold_left_cons {A B} (f : A -> B -> A) b l a : fold_left f (b :: l) a = fold_left f l (f a b).
Proof. reflexivity. Qed.

(** One operation on both sides. *)
Lemma md4_next x op f a b c d k s t l K :
  length x = 16%nat -> (k < 16)%nat -> b < 2 ^ 32 ->
  (length x = 16%nat -> (k < 16)%nat -> b < 2 ^ 32 -> op = Ok (md4_new x f a b c d k s t)) ->
  (forall v, v < 2 ^ 32 -> K v = Ok (fold_left (md4_step x) l (d, v, b, c))) ->
  bind op K = Ok (fold_left (md4_step x) ((f, k, s, t) :: l) (a, b, c, d)).
Proof.
  intros Hx Hk Hb Hop HK. rewrite (Hop Hx Hk Hb). cbn [bind fold_left]. rewrite md4_step_eq.
  apply HK, md4_new_lt.
Qed.

Ltac md4_one :=
  refine (md4_next _ _ _ _ _ _ _ _ _ _ _ _ _ _ _ _ _);
  [assumption|lia|assumption|first [apply md4_ff_eq | apply md4_gg_eq | apply md4_hh_eq]|];
  let v := fresh "v" in let H := fresh "L" in intros v H; cbv beta.

Lemma md4_process_ok : process_ok md4_process md4_step md4_ops.
Proof.
  intros x a b c d Hx (Ha & Hb & Hc & Hd).
  let l := eval cbv -[F4 G4 H4] in md4_ops in change md4_ops with l.
  unfold md4_process. do 48 md4_one. exact eq_refl.
Qed.

Definition md5_new (x : list N) (f : N -> N -> N -> N) (a b c d : N) (k : nat) (s t : N) : N :=
  plus_w 32 b (rol 32 ((a + f b c d + nth k x 0 + t) mod 2 ^ 32) s).

Lemma md5_new_lt x f a b c d k s t : md5_new x f a b c d k s t < 2 ^ 32.
Proof. apply mod_pow2_lt. Qed.

Ltac md5_fn :=
  intros Hx Hk Hb Hd Hi; unfold md5_ff, md5_gg, md5_hh, md5_ii, md5_new;
  rewrite (idx_nth _ _ 0) by lia; cbn [bind];
  rewrite nsub_ok by lia; cbn [bind];
  rewrite (idx_nth _ _ 0) by (change (length MD5_T) with 64%nat; lia); cbn [bind];
  rewrite rol_rotl by (try apply wadd_lt; lia);
  rewrite ?F5_eq, ?G5_eq, ?I5_eq by auto;
  rewrite add4; f_equal; unfold wadd, plus_w; f_equal; apply N.add_comm.

Lemma md5_ff_eq x a b c d k s i : length x = 16%nat -> (k < 16)%nat -> b < 2 ^ 32 -> d < 2 ^ 32 ->
  (1 <= i <= 64)%nat -> md5_ff x a b c d (k, s, i) = Ok (md5_new x F5 a b c d k s (nth (i - 1) MD5_T 0)).
Proof. md5_fn. Qed.
Lemma md5_gg_eq x a b c d k s i : length x = 16%nat -> (k < 16)%nat -> b < 2 ^ 32 -> d < 2 ^ 32 ->
  (1 <= i <= 64)%nat -> md5_gg x a b c d (k, s, i) = Ok (md5_new x G5 a b c d k s (nth (i - 1) MD5_T 0)).
Proof. md5_fn. Qed.
Lemma md5_hh_eq x a b c d k s i : length x = 16%nat -> (k < 16)%nat -> b < 2 ^ 32 -> d < 2 ^ 32 ->
  (1 <= i <= 64)%nat -> md5_hh x a b c d (k, s, i) = Ok (md5_new x H5 a b c d k s (nth (i - 1) MD5_T 0)).
Proof. md5_fn. Qed.
Lemma md5_ii_eq x a b c d k s i : length x = 16%nat -> (k < 16)%nat -> b < 2 ^ 32 -> d < 2 ^ 32 ->
  (1 <= i <= 64)%nat -> md5_ii x a b c d (k, s, i) = Ok (md5_new x I5 a b c d k s (nth (i - 1) MD5_T 0)).
Proof. md5_fn. Qed.

Lemma md5_step_eq x a b c d f k s t :
  md5_step x (a, b, c, d) (f, k, s, t) = (d, md5_new x f a b c d k s t, b, c).
Proof. reflexivity. Qed.

Lemma md5_next x op f a b c d k s i l K :
  length x = 16%nat -> (k < 16)%nat -> b < 2 ^ 32 -> d < 2 ^ 32 -> (1 <= i <= 64)%nat ->
  (length x = 16%nat -> (k < 16)%nat -> b < 2 ^ 32 -> d < 2 ^ 32 -> (1 <= i <= 64)%nat ->
   op = Ok (md5_new x f a b c d k s (nth (i - 1) MD5_T 0))) ->
  (forall v, v < 2 ^ 32 -> K v = Ok (fold_left (md5_step x) l (d, v, b, c))) ->
  bind op K = Ok (fold_left (md5_step x) ((f, k, s, nth (i - 1) MD5_T 0) :: l) (a, b, c, d)).
Proof.
  intros Hx Hk Hb Hd Hi Hop HK. rewrite (Hop Hx Hk Hb Hd Hi). cbn [bind fold_left].
  rewrite md5_step_eq. apply HK, md5_new_lt.
Qed.

(** The sixteen operations of one round. *)
Definition md5_round_ops (f : N -> N -> N -> N) (rows : list (list (nat * N * nat))) : list md_op :=
  map (fun '(k, s, i) => (f, k, s, nth (i - 1) MD5_T 0)) (concat rows).

Definition md5_row (op : list N -> N -> N -> N -> N -> nat * N * nat -> res N) (x : list N)
    (rows : list (nat * N * nat)) (st : state4) : res state4 :=
  let '(a, b, c, d) := st in
  let* r := idx rows 0 in
  let* a := op x a b c d r in
  let* r := idx rows 1 in
  let* d := op x d a b c r in
  let* r := idx rows 2 in
  let* c := op x c d a b r in
  let* r := idx rows 3 in
  let* b := op x b c d a r in
  Ok (a, b, c, d).

Definition row_ok (r : nat * N * nat) : Prop := let '(k, s, i) := r in (k < 16)%nat /\ (1 <= i <= 64)%nat.

Lemma md5_row_eq op f x rows st :
  (forall a b c d k s i, length x = 16%nat -> (k < 16)%nat -> b < 2 ^ 32 -> d < 2 ^ 32 ->
     (1 <= i <= 64)%nat -> op x a b c d (k, s, i) = Ok (md5_new x f a b c d k s (nth (i - 1) MD5_T 0))) ->
  length x = 16%nat -> length rows = 4%nat -> Forall row_ok rows -> st_lt st ->
  md5_row op x rows st = Ok (fold_left (md5_step x) (md5_round_ops f [rows]) st) /\
  st_lt (fold_left (md5_step x) (md5_round_ops f [rows]) st).
Proof.
  intros Hop Hx Hl Hr Hst. destruct st as (((a, b), c), d). destruct Hst as (Ha & Hb & Hc & Hd).
  destruct rows as [|((k0, s0), i0) [|((k1, s1), i1) [|((k2, s2), i2) [|((k3, s3), i3) [|]]]]]; try discriminate Hl.
  rewrite !Forall_cons_iff in Hr. destruct Hr as ((K0 & I0) & (K1 & I1) & (K2 & I2) & (K3 & I3) & _).
  unfold md5_row, md5_round_ops. cbn [idx nth_error bind concat app map].
  rewrite (Hop a b c d) by auto. cbn [bind].
  rewrite fold_left_cons, md5_step_eq.
  pose proof (md5_new_lt x f a b c d k0 s0 (nth (i0 - 1) MD5_T 0)) as A.
  generalize dependent (md5_new x f a b c d k0 s0 (nth (i0 - 1) MD5_T 0)). intros a' A.
  rewrite (Hop d a' b c) by auto. cbn [bind].
  rewrite fold_left_cons, md5_step_eq.
  pose proof (md5_new_lt x f d a' b c k1 s1 (nth (i1 - 1) MD5_T 0)) as D.
  generalize dependent (md5_new x f d a' b c k1 s1 (nth (i1 - 1) MD5_T 0)). intros d' D.
  rewrite (Hop c d' a' b) by auto. cbn [bind].
  rewrite fold_left_cons, md5_step_eq.
  pose proof (md5_new_lt x f c d' a' b k2 s2 (nth (i2 - 1) MD5_T 0)) as C.
  generalize dependent (md5_new x f c d' a' b k2 s2 (nth (i2 - 1) MD5_T 0)). intros c' C.
  rewrite (Hop b c' d' a') by auto. cbn [bind].
  rewrite fold_left_cons, md5_step_eq.
  pose proof (md5_new_lt x f b c' d' a' k3 s3 (nth (i3 - 1) MD5_T 0)) as B.
  generalize dependent (md5_new x f b c' d' a' k3 s3 (nth (i3 - 1) MD5_T 0)). intros b' B.
  cbn [fold_left]. unfold st_lt. auto.
Qed.

Lemma md5_rows_eq op f x rows : 
  (forall a b c d k s i, length x = 16%nat -> (k < 16)%nat -> b < 2 ^ 32 -> d < 2 ^ 32 ->
     (1 <= i <= 64)%nat -> op x a b c d (k, s, i) = Ok (md5_new x f a b c d k s (nth (i - 1) MD5_T 0))) ->
  length x = 16%nat -> Forall (fun r => length r = 4%nat /\ Forall row_ok r) rows ->
  forall st, st_lt st ->
  forM rows (md5_row op x) st = Ok (fold_left (md5_step x) (md5_round_ops f rows) st) /\
  st_lt (fold_left (md5_step x) (md5_round_ops f rows) st).
Proof.
  intros Hop Hx Hr. induction Hr as [|r rows (L & Hr) _ IH]; intros st Hst.
  - cbn. auto.
  - cbn [forM]. destruct (md5_row_eq op f x r st Hop Hx L Hr Hst) as (E & Hst'). rewrite E. cbn [bind].
    replace (fold_left (md5_step x) (md5_round_ops f (r :: rows)) st) with
      (fold_left (md5_step x) (md5_round_ops f rows) (fold_left (md5_step x) (md5_round_ops f [r]) st)).
    { apply IH, Hst'. }
    unfold md5_round_ops. cbn [concat]. now rewrite app_nil_r, map_app, fold_left_app.
Qed.

Lemma forM_ext2 {A St} (l : list A) (f g : A -> St -> res St) s :
  (forall a s, f a s = g a s) -> forM l f s = forM l g s.
Proof.
  intros H. revert s. induction l; intros s; cbn [forM]; auto.
  rewrite H. destruct (g a s); cbn [bind]; auto.
Qed.

Lemma bind_next {A B} (m : res A) (v : A) (K : A -> res B) r : m = Ok v -> K v = r -> bind m K = r.
Proof. intros -> <-. reflexivity. Qed.

Definition rows_ok (rows : list (list (nat * N * nat))) : Prop :=
  Forall (fun r => length r = 4%nat /\ Forall row_ok r) rows.

Ltac rows_tac :=
  repeat (apply Forall_cons;
    [split; [reflexivity|repeat (apply Forall_cons; [cbv [row_ok]; lia|]); apply Forall_nil]|]);
  apply Forall_nil.

Ltac md5_round x op eqn :=
  match goal with
  | Hst : st_lt ?st |- bind (forM ?rows ?f ?st) _ = _ =>
    change f with (md5_row op x);
    let E := fresh "E" in let S := fresh "S" in
    destruct (md5_rows_eq op _ x rows eqn ltac:(assumption) ltac:(rows_tac) st Hst) as (E & S);
    refine (bind_next _ _ _ _ E _); clear E;
    match type of S with st_lt ?v => destruct v as (((?a, ?b), ?c), ?d) eqn:? end
  end.

Lemma md5_process_ok : process_ok md5_process md5_step md5_ops.
Proof.
  intros x a b c d Hx Hst. unfold md5_process.
  md5_round x md5_ff (md5_ff_eq x). clear Hst.
  md5_round x md5_gg (md5_gg_eq x). clear S.
  md5_round x md5_hh (md5_hh_eq x). clear S0.
  md5_round x md5_ii (md5_ii_eq x). clear S.
  f_equal.
  match goal with
  | E1 : fold_left _ (md5_round_ops F5 ?r1) _ = _, E2 : fold_left _ (md5_round_ops G5 ?r2) _ = _,
    E3 : fold_left _ (md5_round_ops H5 ?r3) _ = _, E4 : fold_left _ (md5_round_ops I5 ?r4) _ = _ |- _ =>
    replace md5_ops with (md5_round_ops F5 r1 ++ md5_round_ops G5 r2 ++ md5_round_ops H5 r3 ++ md5_round_ops I5 r4)
      by (cbv -[F5 G5 H5 I5]; exact eq_refl);
    rewrite !fold_left_app, E1, E2, E3, E4; exact eq_refl
  end.
Qed.

Lemma md4_conforms m : N.of_nat (length m) < 2 ^ 61 -> md4_hash m = Ok (md4_spec m).
Proof. apply md_hash_eq, md4_process_ok. Qed.
Lemma md5_conforms m : N.of_nat (length m) < 2 ^ 61 -> md5_hash m = Ok (md5_spec m).
Proof. apply md_hash_eq, md5_process_ok. Qed.
Lemma md4_long m : 2 ^ 61 <= N.of_nat (length m) -> md4_hash m = Panic POverflow.
Proof. eapply md_hash_long, md4_process_ok. Qed.
Lemma md5_long m : 2 ^ 61 <= N.of_nat (length m) -> md5_hash m = Panic POverflow.
Proof. eapply md_hash_long, md5_process_ok. Qed.

Lemma md_spec_wf step ops m : length (md_spec step ops m) = 16%nat /\ bytes (md_spec step ops m).
Proof.
  unfold md_spec. destruct (fold_left _ _ _) as (((a, b), c), d). cbn [md_output].
  split; [reflexivity|]. cbn [map concat].
  repeat (apply Forall_app; split; [rewrite <- to_le_le_bytes; apply to_le_bytes|]). constructor.
Qed.
