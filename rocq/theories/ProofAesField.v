From Coq Require Import ZifyBool ZifyNat ZifyN Btauto.
From Verif Require Import Base BaseLemmas ModelBlock ModelAes SpecAes SpecBlock.
Ltac Zify.zify_post_hook ::= Z.div_mod_to_equations.

(** ** Finite sweeps over bytes *)

Lemma in_all_bytes b : b < 256 -> In b all_bytes.
Proof.
  intros H. unfold all_bytes. apply in_map_iff. exists (N.to_nat b).
  split; [lia|]. apply in_seq. lia.
Qed.

Lemma all_bytes_lt b : In b all_bytes -> b < 256.
Proof. unfold all_bytes. rewrite in_map_iff. intros (n & <- & H). apply in_seq in H. lia. Qed.

Lemma sweep (f : N -> bool) : forallb f all_bytes = true -> forall b, b < 256 -> f b = true.
Proof. intros H b Hb. rewrite forallb_forall in H. apply H. now apply in_all_bytes. Qed.

Lemma sweep2 (f : N -> N -> bool) :
  forallb (fun a => forallb (f a) all_bytes) all_bytes = true ->
  forall a b, a < 256 -> b < 256 -> f a b = true.
Proof.
  intros H a b Ha Hb. apply (sweep (fun a => forallb (f a) all_bytes) H a) in Ha.
  now apply (sweep (f a) Ha b) in Hb.
Qed.

(** ** Linearity of the multiplication *)

Ltac xor_solve :=
  apply N.bits_inj; intro; rewrite ?N.lxor_spec, ?N.bits_0; btauto.

Lemma fold_linear (step : N -> N -> N) l :
  (forall x y i, step (N.lxor x y) i = N.lxor (step x i) (step y i)) ->
  forall x y, fold_left step l (N.lxor x y) = N.lxor (fold_left step l x) (fold_left step l y).
Proof.
  intros H. induction l as [|i l IH]; intros x y; cbn [fold_left]; auto.
  now rewrite H, IH.
Qed.

Lemma poly_mod_linear x y : poly_mod (N.lxor x y) = N.lxor (poly_mod x) (poly_mod y).
Proof.
  unfold poly_mod. apply fold_linear. intros a b i. rewrite N.lxor_spec.
  generalize (0x11b * 2 ^ (i - 8)); intros c.
  destruct (N.testbit a i), (N.testbit b i); cbn [xorb]; xor_solve.
Qed.

Lemma poly_mul_linear_r a x y : poly_mul a (N.lxor x y) = N.lxor (poly_mul a x) (poly_mul a y).
Proof.
  unfold poly_mul.
  assert (G : forall l u v,
    fold_left (fun acc i => if N.testbit (N.lxor x y) i then N.lxor acc (a * 2 ^ i) else acc) l (N.lxor u v) =
    N.lxor (fold_left (fun acc i => if N.testbit x i then N.lxor acc (a * 2 ^ i) else acc) l u)
           (fold_left (fun acc i => if N.testbit y i then N.lxor acc (a * 2 ^ i) else acc) l v)).
  { induction l as [|i l IH]; intros u v; cbn [fold_left]; auto.
    rewrite <- IH. f_equal. rewrite N.lxor_spec.
    destruct (N.testbit x i), (N.testbit y i); cbn [xorb];
      generalize (a * 2 ^ i); intros c; xor_solve. }
  exact (G [0; 1; 2; 3; 4; 5; 6; 7] 0 0).
Qed.

Lemma gmul_linear a x y : gmul a (N.lxor x y) = N.lxor (gmul a x) (gmul a y).
Proof. unfold gmul. now rewrite poly_mul_linear_r, poly_mod_linear. Qed.

Lemma poly_mul_linear_l a x y : poly_mul (N.lxor x y) a = N.lxor (poly_mul x a) (poly_mul y a).
Proof.
  unfold poly_mul.
  assert (G : forall l u v,
    fold_left (fun acc i => if N.testbit a i then N.lxor acc (N.lxor x y * 2 ^ i) else acc) l (N.lxor u v) =
    N.lxor (fold_left (fun acc i => if N.testbit a i then N.lxor acc (x * 2 ^ i) else acc) l u)
           (fold_left (fun acc i => if N.testbit a i then N.lxor acc (y * 2 ^ i) else acc) l v)).
  { induction l as [|i l IH]; intros u v; cbn [fold_left]; auto.
    rewrite <- IH. f_equal. destruct (N.testbit a i); auto.
    rewrite <- !N.shiftl_mul_pow2, N.shiftl_lxor.
    generalize (N.shiftl x i) (N.shiftl y i); intros c d; xor_solve. }
  exact (G [0; 1; 2; 3; 4; 5; 6; 7] 0 0).
Qed.

Lemma gmul_linear_l a x y : gmul (N.lxor x y) a = N.lxor (gmul x a) (gmul y a).
Proof. unfold gmul. now rewrite poly_mul_linear_l, poly_mod_linear. Qed.

Lemma field_mul_linear a x y : field_mul a (N.lxor x y) = N.lxor (field_mul a x) (field_mul a y).
Proof.
  assert (B : forall b, negb (N.land b 1 =? 0) = N.testbit b 0).
  { intros b. change 1 with (N.ones 1). rewrite N.land_ones.
    change (2 ^ 1) with 2. rewrite <- N.bit0_mod. now destruct (N.testbit b 0). }
  assert (G : forall i r s a x y,
    field_mul_loop i (N.lxor r s) a (N.lxor x y) =
    N.lxor (field_mul_loop i r a x) (field_mul_loop i s a y)).
  { clear a x y. induction i as [|i IH]; intros r s a x y; [reflexivity|].
    cbn [field_mul_loop]. rewrite !B. unfold wshr. rewrite N.shiftr_lxor, <- IH. f_equal.
    rewrite N.lxor_spec. destruct (N.testbit x 0), (N.testbit y 0); cbn [xorb]; xor_solve. }
  exact (G 8%nat 0 0 a x y).
Qed.

(** Every byte is a sum of powers of two. *)
Definition basis : list N := [1; 2; 4; 8; 16; 32; 64; 128].

Lemma byte_span (P : N -> Prop) :
  P 0 -> (forall i, In i basis -> P i) -> (forall x y, P x -> P y -> P (N.lxor x y)) ->
  forall b, b < 256 -> P b.
Proof.
  intros H0 Hb Hx b H.
  assert (E : b = fold_right N.lxor 0 (filter (fun i => negb (N.land b i =? 0)) basis)).
  { apply N.eqb_eq.
    apply (sweep (fun b => b =? fold_right N.lxor 0 (filter (fun i => negb (N.land b i =? 0)) basis)));
      [vm_compute; reflexivity|auto]. }
  rewrite E. assert (Hf : incl (filter (fun i => negb (N.land b i =? 0)) basis) basis).
  { intros i Hi. now apply filter_In in Hi. }
  revert Hf. generalize (filter (fun i => negb (N.land b i =? 0)) basis) as l.
  induction l as [|i l IH]; intros Hf; cbn [fold_right]; auto.
  apply Hx; [apply Hb, Hf; now left|]. apply IH. intros k Hk. apply Hf. now right.
Qed.

(** Two linear functions that agree on the powers of two agree on all bytes. *)
Lemma linear_eq (f g : N -> N) :
  (forall x y, f (N.lxor x y) = N.lxor (f x) (f y)) ->
  (forall x y, g (N.lxor x y) = N.lxor (g x) (g y)) ->
  Forall (fun i => f i = g i) basis ->
  forall b, b < 256 -> f b = g b.
Proof.
  intros Hf Hg H. rewrite Forall_forall in H.
  assert (Z : forall h : N -> N, (forall x y, h (N.lxor x y) = N.lxor (h x) (h y)) -> h 0 = 0).
  { intros h Hh. rewrite <- (N.lxor_0_l 0) at 1. rewrite Hh. apply N.lxor_nilpotent. }
  apply byte_span; auto.
  - now rewrite (Z f), (Z g).
  - intros x y Ex Ey. now rewrite Hf, Hg, Ex, Ey.
Qed.

(** ** The field *)

Lemma field_mul_gmul a b : a < 256 -> b < 256 -> field_mul a b = gmul a b.
Proof.
  intros Ha. apply linear_eq; [apply field_mul_linear|apply gmul_linear|].
  apply Forall_forall. intros i Hi. apply N.eqb_eq.
  apply (proj1 (forallb_forall (fun i => field_mul a i =? gmul a i) basis)); auto.
  apply (sweep (fun a => forallb (fun i => field_mul a i =? gmul a i) basis));
    [vm_compute; reflexivity|auto].
Qed.

Lemma gmul_comm a b : a < 256 -> b < 256 -> gmul a b = gmul b a.
Proof.
  intros Ha Hb. revert b Hb. apply linear_eq; [apply gmul_linear|intros; apply gmul_linear_l|].
  apply Forall_forall. intros i Hi. revert a Ha.
  apply (linear_eq (fun a => gmul a i) (fun a => gmul i a));
    [intros; apply gmul_linear_l|intros; apply gmul_linear|].
  apply Forall_forall. intros j Hj. apply N.eqb_eq. revert j Hj. apply forallb_forall.
  revert i Hi. apply forallb_forall. vm_compute. reflexivity.
Qed.

Lemma gmul_lt a b : a < 256 -> b < 256 -> gmul a b < 256.
Proof.
  intros Ha Hb. revert b Hb. apply byte_span.
  - unfold gmul. replace (poly_mul a 0) with 0 by reflexivity. reflexivity.
  - intros i Hi. revert a Ha. apply byte_span.
    + cbv [basis In] in Hi. intuition (subst; reflexivity).
    + intros j Hj. apply N.ltb_lt. revert j Hj. apply forallb_forall.
      revert i Hi. apply forallb_forall. vm_compute. reflexivity.
    + intros x y Hx Hy. rewrite gmul_linear_l. now apply lxor_byte.
  - intros x y Hx Hy. rewrite gmul_linear. now apply lxor_byte.
Qed.

Lemma gmul_assoc a b c : a < 256 -> b < 256 -> c < 256 -> gmul (gmul a b) c = gmul a (gmul b c).
Proof.
  intros Ha Hb Hc. revert c Hc. apply linear_eq; intros.
  1,2: now rewrite !gmul_linear.
  apply Forall_forall. intros k Hk. revert b Hb.
  apply (linear_eq (fun b => gmul (gmul a b) k) (fun b => gmul a (gmul b k))); intros.
  1,2: now rewrite ?gmul_linear, ?gmul_linear_l, ?gmul_linear.
  apply Forall_forall. intros j Hj. revert a Ha.
  apply (linear_eq (fun a => gmul (gmul a j) k) (fun a => gmul a (gmul j k))); intros.
  1,2: now rewrite !gmul_linear_l.
  apply Forall_forall. intros i Hi. apply N.eqb_eq. revert i Hi. apply forallb_forall.
  revert j Hj. apply forallb_forall. revert k Hk. apply forallb_forall. vm_compute. reflexivity.
Qed.

Lemma mul2_gmul a : a < 256 -> mul2 a = gmul 2 a.
Proof.
  intros. apply N.eqb_eq. apply (sweep (fun a => mul2 a =? gmul 2 a)); [vm_compute; reflexivity|auto].
Qed.

Lemma mul3_gmul a : a < 256 -> mul3 a = gmul 3 a.
Proof.
  intros. apply N.eqb_eq. apply (sweep (fun a => mul3 a =? gmul 3 a)); [vm_compute; reflexivity|auto].
Qed.

Lemma div3_gmul a : a < 256 -> gmul 3 (div3 a) = a /\ div3 (gmul 3 a) = a /\ div3 a < 256.
Proof.
  intros.
  assert (H' : ((gmul 3 (div3 a) =? a) && (div3 (gmul 3 a) =? a) && (div3 a <? 256))%bool = true).
  { apply (sweep (fun a => (gmul 3 (div3 a) =? a) && (div3 (gmul 3 a) =? a) && (div3 a <? 256))%bool);
    [vm_compute; reflexivity|auto..]. }
  lia.
Qed.

Lemma gmul_1_l a : a < 256 -> gmul 1 a = a.
Proof.
  intros. apply N.eqb_eq. apply (sweep (fun a => gmul 1 a =? a)); [vm_compute; reflexivity|auto].
Qed.

(** The walk over the powers of the generator 3. *)
Lemma field_items_spec :
  exists items, aes_field_items = Ok items /\
    NoDup (map fst items) /\
    (forall p, In p (map fst items) <-> 0 < p < 256) /\
    Forall (fun '(p, q) => q < 256 /\ gmul p q = 1) items.
Proof.
  destruct aes_field_items as [items|] eqn:E; [|vm_compute in E; discriminate].
  exists items. split; auto.
  assert (Hd : forall l : list N, forallb (fun i => negb (existsb (N.eqb (nth i l 0)) (skipn (S i) l)))
                 (seq 0 (length l)) = true -> NoDup l).
  { induction l as [|a l IH]; intros H; constructor.
    - cbn [length seq forallb] in H. apply andb_prop in H as [H _]. cbn [nth skipn] in H.
      apply negb_true_iff in H. intros Hin.
      assert (existsb (N.eqb a) l = true); [|congruence].
      apply existsb_exists. exists a. split; auto. apply N.eqb_refl.
    - apply IH. cbn [length seq forallb] in H. apply andb_prop in H as [_ H].
      rewrite <- seq_shift in H. rewrite forallb_forall in H. apply forallb_forall.
      intros i Hi. specialize (H (S i)). cbn [nth skipn] in H. apply H.
      apply in_map_iff. eauto. }
  assert (C1 : match aes_field_items with
     | Ok items => forallb (fun i => negb (existsb (N.eqb (nth i (map fst items) 0))
                     (skipn (S i) (map fst items)))) (seq 0 (length (map fst items)))
     | Panic _ => false end = true) by (vm_compute; reflexivity).
  assert (C2 : match aes_field_items with
     | Ok items => forallb (fun p => Bool.eqb (existsb (N.eqb p) (map fst items)) (negb (p =? 0))) all_bytes
     | Panic _ => false end = true) by (vm_compute; reflexivity).
  assert (C3 : match aes_field_items with
     | Ok items => forallb (fun '(p, q) => ((p <? 256) && (q <? 256) && (gmul p q =? 1))%bool) items
     | Panic _ => false end = true) by (vm_compute; reflexivity).
  rewrite E in C1, C2, C3. split; [now apply Hd|].
  rewrite forallb_forall in C3. split.
  - intros p. split; intros H.
    + assert (Hp : p < 256).
      { apply in_map_iff in H as ([p' q'] & <- & H). apply C3 in H. cbn [fst]. lia. }
      pose proof (sweep _ C2 p Hp) as Hs. cbv beta in Hs.
      assert (Ht : existsb (N.eqb p) (map fst items) = true).
      { apply existsb_exists. exists p. split; auto. apply N.eqb_refl. }
      rewrite Ht in Hs. destruct (N.eqb_spec p 0); [discriminate|lia].
    + pose proof (sweep _ C2 p ltac:(lia)) as Hs. cbv beta in Hs.
      replace (p =? 0) with false in Hs by lia. cbn [negb] in Hs.
      apply eqb_prop in Hs. apply existsb_exists in Hs as (x & Hx & Ex).
      apply N.eqb_eq in Ex. now subst.
  - apply Forall_forall. intros [p q] H. apply C3 in H. lia.
Qed.

(** ** Inverses *)

Lemma gmul_inverse a : 0 < a < 256 -> exists q, q < 256 /\ gmul a q = 1.
Proof.
  intros H. destruct field_items_spec as (items & _ & _ & Hin & F).
  apply Hin in H. apply in_map_iff in H as ([p q] & <- & H).
  rewrite Forall_forall in F. apply F in H. cbn [fst]. eauto.
Qed.

Lemma gmul_1_inv_unique a q q' : a < 256 -> q < 256 -> q' < 256 ->
  gmul a q = 1 -> gmul a q' = 1 -> q = q'.
Proof.
  intros Ha Hq Hq' E E'.
  rewrite <- (gmul_1_l q), <- E', (gmul_comm a q'), gmul_assoc, E, gmul_comm, gmul_1_l by (auto; reflexivity).
  reflexivity.
Qed.

Lemma gmul_no_zero_divisors a b : 0 < a < 256 -> 0 < b < 256 -> gmul a b <> 0.
Proof.
  intros Ha Hb E. destruct (gmul_inverse a Ha) as (q & Hq & Eq).
  assert (B : gmul q (gmul a b) = b).
  { rewrite <- gmul_assoc, (gmul_comm q a), Eq, gmul_1_l by lia. reflexivity. }
  rewrite E in B. change (gmul q 0) with 0 in B. lia.
Qed.

Lemma ginv_lt a : ginv a < 256.
Proof.
  unfold ginv. destruct (find _ all_bytes) eqn:E; [|reflexivity].
  apply find_some in E as [H _]. now apply all_bytes_lt.
Qed.

Lemma ginv_spec a : 0 < a < 256 -> gmul a (ginv a) = 1.
Proof.
  intros H. unfold ginv. destruct (find _ all_bytes) eqn:E.
  - apply find_some in E as [_ E]. now apply N.eqb_eq.
  - exfalso. destruct (gmul_inverse a H) as (q & Hq & Eq).
    pose proof (find_none _ _ E q (in_all_bytes q Hq)) as F. cbv beta in F.
    rewrite Eq in F. discriminate.
Qed.

Lemma ginv_eq a q : 0 < a < 256 -> q < 256 -> gmul a q = 1 -> ginv a = q.
Proof.
  intros H Hq E. apply (gmul_1_inv_unique a); auto; try lia; [apply ginv_lt|now apply ginv_spec].
Qed.

Lemma field_mul_laws a b c : a < 256 -> b < 256 -> c < 256 ->
  field_mul a b < 256 /\
  field_mul a b = field_mul b a /\
  field_mul (field_mul a b) c = field_mul a (field_mul b c) /\
  field_mul a (N.lxor b c) = N.lxor (field_mul a b) (field_mul a c) /\
  field_mul 1 a = a /\
  (a <> 0 -> exists q, q < 256 /\ field_mul a q = 1) /\
  (field_mul a b = 0 -> a = 0 \/ b = 0).
Proof.
  intros Ha Hb Hc.
  assert (Hab : field_mul a b < 256) by (rewrite field_mul_gmul by auto; now apply gmul_lt).
  assert (Hbc : field_mul b c < 256) by (rewrite field_mul_gmul by auto; now apply gmul_lt).
  split; [exact Hab|]. split; [rewrite !field_mul_gmul by auto; now apply gmul_comm|].
  split. { rewrite (field_mul_gmul _ c), (field_mul_gmul a (field_mul b c)), !field_mul_gmul by auto.
    now apply gmul_assoc. }
  split; [apply field_mul_linear|].
  split. { rewrite field_mul_gmul by (auto; reflexivity). now apply gmul_1_l. }
  split. { intros Hz. destruct (gmul_inverse a) as (q & Hq & E); [lia|].
    exists q. split; auto. now rewrite field_mul_gmul. }
  rewrite field_mul_gmul by auto. intros E.
  destruct (N.eq_dec a 0); [now left|]. destruct (N.eq_dec b 0); [now right|].
  exfalso. apply (gmul_no_zero_divisors a b); auto; lia.
Qed.

(** ** The S-box *)

Lemma forward_lookup b : b < 256 -> idx (forward SBOX) (ix b) = Ok (sub_byte b).
Proof.
  intros H.
  destruct (N.eq_dec b 0) as [->|Hz]; [vm_compute; reflexivity|].
  destruct field_items_spec as (items & E & _ & Hin & F).
  assert (C : match aes_field_items with
    | Ok items => forallb (fun '(p, q) => match idx (forward SBOX) (ix p) with
                                          | Ok x => x =? affine q | _ => false end) items
    | Panic _ => false end = true) by (vm_compute; reflexivity).
  rewrite E, forallb_forall in C. clear E.
  assert (Hb : In b (map fst items)) by (apply Hin; lia).
  apply in_map_iff in Hb as ([p q] & <- & Hb). cbn [fst] in *.
  rewrite Forall_forall in F. pose proof (F _ Hb) as [Hq Eq].
  apply C in Hb. unfold sub_byte. rewrite (ginv_eq p q) by (auto; lia).
  destruct (idx (forward SBOX) (ix p)); [|discriminate]. apply N.eqb_eq in Hb. now subst.
Qed.

Lemma sbox_lengths : length (forward SBOX) = 256%nat /\ length (backward SBOX) = 256%nat.
Proof. vm_compute. auto. Qed.

Global Opaque SBOX.

Definition back (b : N) : N := nth (N.to_nat b) (backward SBOX) 0.

Lemma backward_back b : b < 256 -> idx (backward SBOX) (ix b) = Ok (back b).
Proof.
  intros H. unfold back. rewrite (idx_nth (backward SBOX) (ix b) 0); [reflexivity|].
  rewrite (proj2 sbox_lengths). unfold ix. lia.
Qed.

Lemma back_lt b : b < 256 -> back b < 256.
Proof.
  intros. apply N.ltb_lt. apply (sweep (fun b => back b <? 256)); [vm_compute; reflexivity|auto].
Qed.

Definition fore (b : N) : N := nth (N.to_nat b) (forward SBOX) 0.

Lemma sub_byte_fore b : b < 256 -> sub_byte b = fore b.
Proof.
  intros H. pose proof (forward_lookup b H) as E.
  rewrite (idx_nth (forward SBOX) (ix b) 0) in E
    by (rewrite (proj1 sbox_lengths); unfold ix; lia).
  apply Ok_inj in E. symmetry. exact E.
Qed.

Lemma sub_byte_lt b : b < 256 -> sub_byte b < 256.
Proof.
  intros. rewrite sub_byte_fore by auto.
  apply N.ltb_lt. apply (sweep (fun b => fore b <? 256)); [vm_compute; reflexivity|auto].
Qed.

Lemma back_sub b : b < 256 -> back (sub_byte b) = b.
Proof.
  intros. rewrite sub_byte_fore by auto.
  apply N.eqb_eq. apply (sweep (fun b => back (fore b) =? b)); [vm_compute; reflexivity|auto].
Qed.

Lemma sub_back b : b < 256 -> sub_byte (back b) = b.
Proof.
  intros. rewrite sub_byte_fore by now apply back_lt.
  apply N.eqb_eq. apply (sweep (fun b => fore (back b) =? b)); [vm_compute; reflexivity|auto].
Qed.

Lemma inv_sub_byte_back b : b < 256 -> inv_sub_byte b = back b.
Proof.
  intros H. unfold inv_sub_byte. destruct (find _ all_bytes) eqn:E.
  - apply find_some in E as [H1 H2]. apply N.eqb_eq in H2. apply all_bytes_lt in H1.
    rewrite <- H2. symmetry. now apply back_sub.
  - exfalso. pose proof (find_none _ _ E (back b) (in_all_bytes _ (back_lt b H))) as F.
    cbv beta in F. rewrite sub_back in F by auto. rewrite N.eqb_refl in F. discriminate.
Qed.

Lemma backward_lookup b : b < 256 -> idx (backward SBOX) (ix b) = Ok (inv_sub_byte b).
Proof. intros. rewrite backward_back, inv_sub_byte_back; auto. Qed.

Lemma inv_sub_byte_lt b : b < 256 -> inv_sub_byte b < 256.
Proof. intros. rewrite inv_sub_byte_back by auto. now apply back_lt. Qed.

Lemma inv_sub_sub b : b < 256 -> inv_sub_byte (sub_byte b) = b.
Proof. intros. rewrite inv_sub_byte_back by now apply sub_byte_lt. now apply back_sub. Qed.

Lemma sub_inv_sub b : b < 256 -> sub_byte (inv_sub_byte b) = b.
Proof. intros. rewrite inv_sub_byte_back by auto. now apply sub_back. Qed.

(** ** One row of MixColumns and its inverse *)

(** Sums of four terms. *)
Definition s4 (a b c d : N) : N := N.lxor (N.lxor (N.lxor a b) c) d.

Lemma lxor_swap a b c d : N.lxor (N.lxor a b) (N.lxor c d) = N.lxor (N.lxor a c) (N.lxor b d).
Proof. xor_solve. Qed.

Lemma s4_add a b c d e f g h :
  N.lxor (s4 a b c d) (s4 e f g h) = s4 (N.lxor a e) (N.lxor b f) (N.lxor c g) (N.lxor d h).
Proof. unfold s4. now rewrite lxor_swap, (lxor_swap (N.lxor a b)), (lxor_swap a b). Qed.

Lemma s4_rot a b c d : s4 a b c d = s4 d a b c.
Proof. unfold s4. xor_solve. Qed.

Lemma s4_transpose a0 a1 a2 a3 b0 b1 b2 b3 c0 c1 c2 c3 d0 d1 d2 d3 :
  s4 (s4 a0 a1 a2 a3) (s4 b0 b1 b2 b3) (s4 c0 c1 c2 c3) (s4 d0 d1 d2 d3) =
  s4 (s4 a0 b0 c0 d0) (s4 a1 b1 c1 d1) (s4 a2 b2 c2 d2) (s4 a3 b3 c3 d3).
Proof. unfold s4 at 1. now rewrite !s4_add. Qed.

Lemma gmul_s4 p a b c d : gmul p (s4 a b c d) = s4 (gmul p a) (gmul p b) (gmul p c) (gmul p d).
Proof. unfold s4. now rewrite !gmul_linear. Qed.

Definition row4 (m0 m1 m2 m3 a b c d : N) : N :=
  s4 (gmul m0 a) (gmul m1 b) (gmul m2 c) (gmul m3 d).

Definition coef (p0 q0 p1 q1 p2 q2 p3 q3 x : N) : N :=
  s4 (gmul p0 (gmul q0 x)) (gmul p1 (gmul q1 x)) (gmul p2 (gmul q2 x)) (gmul p3 (gmul q3 x)).

Lemma row4_row4 p0 p1 p2 p3 m0 m1 m2 m3 a b c d :
  row4 p0 p1 p2 p3 (row4 m0 m1 m2 m3 a b c d) (row4 m0 m1 m2 m3 b c d a)
                   (row4 m0 m1 m2 m3 c d a b) (row4 m0 m1 m2 m3 d a b c) =
  s4 (coef p0 m0 p1 m3 p2 m2 p3 m1 a)
     (coef p0 m1 p1 m0 p2 m3 p3 m2 b)
     (coef p0 m2 p1 m1 p2 m0 p3 m3 c)
     (coef p0 m3 p1 m2 p2 m1 p3 m0 d).
Proof.
  unfold row4, coef.
  rewrite !gmul_s4.
  rewrite (s4_rot (gmul p1 (gmul m0 b))).
  rewrite (s4_rot (gmul p2 (gmul m0 c))), (s4_rot (gmul p2 (gmul m3 b))).
  rewrite <- (s4_rot (gmul p3 (gmul m1 a))).
  apply s4_transpose.
Qed.

Lemma coef_sweep p0 q0 p1 q1 p2 q2 p3 q3 (k : bool) :
  forallb (fun x => coef p0 q0 p1 q1 p2 q2 p3 q3 x =? (if k then x else 0)) basis = true ->
  forall x, x < 256 -> coef p0 q0 p1 q1 p2 q2 p3 q3 x = if k then x else 0.
Proof.
  intros H. apply linear_eq; intros.
  - unfold coef. now rewrite !gmul_linear, s4_add.
  - destruct k; [reflexivity|]. now rewrite N.lxor_0_l.
  - apply Forall_forall. intros i Hi. apply N.eqb_eq. revert i Hi. now apply forallb_forall.
Qed.

Lemma unmix_mix_row a b c d : a < 256 -> b < 256 -> c < 256 -> d < 256 ->
  row4 14 11 13 9 (row4 2 3 1 1 a b c d) (row4 2 3 1 1 b c d a)
                  (row4 2 3 1 1 c d a b) (row4 2 3 1 1 d a b c) = a.
Proof.
  intros. rewrite row4_row4.
  rewrite (coef_sweep 14 2 11 1 13 1 9 3 true), (coef_sweep 14 3 11 2 13 1 9 1 false),
    (coef_sweep 14 1 11 3 13 2 9 1 false), (coef_sweep 14 1 11 1 13 3 9 2 false)
    by (auto; vm_compute; reflexivity).
  unfold s4. now rewrite !N.lxor_0_r.
Qed.

Lemma mix_unmix_row a b c d : a < 256 -> b < 256 -> c < 256 -> d < 256 ->
  row4 2 3 1 1 (row4 14 11 13 9 a b c d) (row4 14 11 13 9 b c d a)
               (row4 14 11 13 9 c d a b) (row4 14 11 13 9 d a b c) = a.
Proof.
  intros. rewrite row4_row4.
  rewrite (coef_sweep 2 14 3 9 1 13 1 11 true), (coef_sweep 2 11 3 14 1 9 1 13 false),
    (coef_sweep 2 13 3 11 1 14 1 9 false), (coef_sweep 2 9 3 13 1 11 1 14 false)
    by (auto; vm_compute; reflexivity).
  unfold s4. now rewrite !N.lxor_0_r.
Qed.
