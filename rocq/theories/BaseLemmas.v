(** * Lemmas about the definitions of Base.v *)
From Coq Require Import ZifyBool ZifyNat ZifyN.
From Verif Require Import Base.

Ltac Zify.zify_post_hook ::= Z.div_mod_to_equations.

(** Unless said otherwise, the model is used with overflow checks. *)
#[global] Existing Instance debug.

(** ** res *)

(** [injection] would simplify the arguments. *)
Lemma Ok_inj {A} (a b : A) : Ok a = Ok b -> a = b.
Proof. now intros [=]. Qed.

Lemma bind_ok {A B} (m : res A) (f : A -> res B) a :
  m = Ok a -> bind m f = f a.
Proof. intros ->; reflexivity. Qed.

Lemma bind_ok_inv {A B} (m : res A) (f : A -> res B) b :
  bind m f = Ok b -> exists a, m = Ok a /\ f a = Ok b.
Proof. destruct m; cbn; [eauto | discriminate]. Qed.

Lemma bind_panic_inv {A B} (m : res A) (f : A -> res B) r :
  bind m f = Panic r -> m = Panic r \/ exists a, m = Ok a /\ f a = Panic r.
Proof. destruct m; cbn; [eauto | intros [= ->]; eauto]. Qed.

Lemma bind_assoc {A B C} (m : res A) (f : A -> res B) (g : B -> res C) :
  bind (bind m f) g = bind m (fun a => bind (f a) g).
Proof. destruct m; reflexivity. Qed.

Lemma bind_ret {A} (m : res A) : bind m Ok = m.
Proof. destruct m; reflexivity. Qed.

(** ** lists *)

Lemma nth_error_nth_lt {A} (l : list A) i d :
  (i < length l)%nat -> nth_error l i = Some (nth i l d).
Proof. intros; now apply nth_error_nth'. Qed.

Lemma firstn_app_exact {A} (l1 l2 : list A) n :
  n = length l1 -> firstn n (l1 ++ l2) = l1.
Proof. intros ->. rewrite firstn_app, Nat.sub_diag, firstn_all. apply app_nil_r. Qed.

Lemma skipn_app_exact {A} (l1 l2 : list A) n :
  n = length l1 -> skipn n (l1 ++ l2) = l2.
Proof. intros ->. rewrite skipn_app, Nat.sub_diag, skipn_all. reflexivity. Qed.

Lemma firstn_S_nth {A} (l : list A) i d :
  (i < length l)%nat -> firstn (S i) l = firstn i l ++ [nth i l d].
Proof.
  revert i; induction l as [|a l IH]; cbn [length]; intros i H; [lia|].
  destruct i; [reflexivity|]. change (firstn (S (S i)) (a :: l)) with (a :: firstn (S i) l).
  rewrite IH by lia. reflexivity.
Qed.

Lemma firstn_repeat {A} (x : A) n k : firstn n (repeat x k) = repeat x (Nat.min n k).
Proof.
  revert k; induction n; intros [|k]; cbn; auto. now rewrite IHn.
Qed.

Lemma skipn_repeat {A} (x : A) n k : skipn n (repeat x k) = repeat x (k - n).
Proof.
  revert k; induction n; intros [|k]; cbn; auto.
Qed.

Lemma firstn_seq n a k : firstn n (seq a k) = seq a (Nat.min n k).
Proof.
  revert a k; induction n; intros a [|k]; cbn; auto. now rewrite IHn.
Qed.

Lemma nth_repeat_any {A} (x d : A) n i : (i < n)%nat -> nth i (repeat x n) d = x.
Proof.
  revert i; induction n; intros [|i] H; cbn; try lia; auto. apply IHn; lia.
Qed.

Lemma Forall_nth_lt {A} (P : A -> Prop) l i d :
  Forall P l -> (i < length l)%nat -> P (nth i l d).
Proof. intros H Hi. rewrite Forall_forall in H. apply H. now apply nth_In. Qed.

Lemma Forall_firstn {A} (P : A -> Prop) n l : Forall P l -> Forall P (firstn n l).
Proof. intros H. revert n; induction H; intros [|n]; cbn; auto. Qed.

Lemma Forall_skipn {A} (P : A -> Prop) n l : Forall P l -> Forall P (skipn n l).
Proof. intros H. revert n; induction H; intros [|n]; cbn; auto. Qed.

Lemma Forall_repeat {A} (P : A -> Prop) x n : P x -> Forall P (repeat x n).
Proof. intros; induction n; cbn; auto. Qed.

Lemma Forall_concat {A} (P : A -> Prop) ls :
  Forall (Forall P) ls -> Forall P (concat ls).
Proof. induction 1; cbn; auto. apply Forall_app; auto. Qed.

Lemma list_ext {A} (d : A) (l1 l2 : list A) :
  length l1 = length l2 ->
  (forall i, (i < length l1)%nat -> nth i l1 d = nth i l2 d) -> l1 = l2.
Proof. intros; eapply nth_ext; eauto. Qed.

(** ** idx, upd, slices *)

Lemma idx_nth {A} (l : list A) i d : (i < length l)%nat -> idx l i = Ok (nth i l d).
Proof. intros. unfold idx. now rewrite (nth_error_nth_lt l i d). Qed.

Lemma idx_panic {A} (l : list A) i : (length l <= i)%nat -> idx l i = Panic PIndex.
Proof. intros. unfold idx. now rewrite (proj2 (nth_error_None l i)). Qed.

Lemma idx_ok_inv {A} (l : list A) i x d :
  idx l i = Ok x -> (i < length l)%nat /\ x = nth i l d.
Proof.
  unfold idx. destruct (nth_error l i) eqn:E; [|discriminate]. intros [= ->].
  split. apply nth_error_Some; congruence.
  symmetry. now apply nth_error_nth.
Qed.

(** Total version of [upd]. *)
Definition set_nth {A} (l : list A) (i : nat) (v : A) : list A :=
  firstn i l ++ v :: skipn (S i) l.

Lemma upd_ok {A} (l : list A) i v : (i < length l)%nat -> upd l i v = Ok (set_nth l i v).
Proof. intros. unfold upd. now rewrite (proj2 (Nat.ltb_lt _ _) H). Qed.

Lemma upd_panic {A} (l : list A) i v : (length l <= i)%nat -> upd l i v = Panic PIndex.
Proof. intros. unfold upd. now rewrite (proj2 (Nat.ltb_ge _ _) H). Qed.

Lemma set_nth_length {A} (l : list A) i v :
  (i < length l)%nat -> length (set_nth l i v) = length l.
Proof.
  intros. unfold set_nth. rewrite app_length, firstn_length. cbn [length].
  rewrite skipn_length. lia.
Qed.

Lemma nth_set_nth_eq {A} (l : list A) i v d :
  (i < length l)%nat -> nth i (set_nth l i v) d = v.
Proof.
  intros. unfold set_nth. rewrite app_nth2; rewrite firstn_length; [|lia].
  replace (i - Nat.min i (length l))%nat with O by lia. reflexivity.
Qed.

Lemma nth_skipn' {A} (l : list A) n i d : nth i (skipn n l) d = nth (n + i) l d.
Proof.
  revert l; induction n; intros [|a l]; cbn; auto. now destruct i.
Qed.

Lemma nth_firstn' {A} (l : list A) n i d :
  (i < n)%nat -> nth i (firstn n l) d = nth i l d.
Proof.
  revert l i; induction n; intros [|a l] [|i] H; cbn; auto; try lia.
  apply IHn; lia.
Qed.

Lemma nth_set_nth_neq {A} (l : list A) i j v d :
  (i < length l)%nat -> i <> j -> nth j (set_nth l i v) d = nth j l d.
Proof.
  intros. unfold set_nth. destruct (lt_dec j i).
  - rewrite app_nth1; [|rewrite firstn_length; lia]. apply nth_firstn'; lia.
  - rewrite app_nth2; rewrite firstn_length; [|lia].
    replace (j - Nat.min i (length l))%nat with (S (j - S i))%nat by lia.
    cbn [nth]. rewrite nth_skipn'. f_equal; lia.
Qed.

Lemma nth_set_nth {A} (l : list A) i j v d :
  (i < length l)%nat ->
  nth j (set_nth l i v) d = if Nat.eqb i j then v else nth j l d.
Proof.
  intros. destruct (Nat.eqb_spec i j) as [->|].
  now apply nth_set_nth_eq. now apply nth_set_nth_neq.
Qed.

Lemma Forall_set_nth {A} (P : A -> Prop) l i v :
  Forall P l -> P v -> Forall P (set_nth l i v).
Proof.
  intros. unfold set_nth. apply Forall_app; split.
  now apply Forall_firstn. constructor; auto. now apply Forall_skipn.
Qed.

Lemma set_nth_app_r {A} (l1 l2 : list A) i v :
  i = length l1 -> (0 < length l2)%nat ->
  set_nth (l1 ++ l2) i v = l1 ++ v :: skipn 1 l2.
Proof.
  intros -> H. unfold set_nth. rewrite firstn_app_exact by auto.
  f_equal. f_equal. rewrite skipn_app.
  rewrite skipn_all2 by lia. cbn [app].
  f_equal. lia.
Qed.

Lemma slice_ok {A} (l : list A) a b :
  (a <= b <= length l)%nat -> slice l a b = Ok (firstn (b - a) (skipn a l)).
Proof.
  intros. unfold slice.
  now rewrite (proj2 (Nat.leb_le a b)), (proj2 (Nat.leb_le b (length l))) by lia.
Qed.

Lemma slice_panic {A} (l : list A) a b :
  ~ (a <= b <= length l)%nat -> slice l a b = Panic PIndex.
Proof.
  intros. unfold slice.
  destruct (Nat.leb_spec a b), (Nat.leb_spec b (length l)); auto. lia.
Qed.

Lemma slice_to_ok {A} (l : list A) b :
  (b <= length l)%nat -> slice_to l b = Ok (firstn b l).
Proof. intros. unfold slice_to. now rewrite (proj2 (Nat.leb_le _ _) H). Qed.

Lemma slice_to_panic {A} (l : list A) b :
  (length l < b)%nat -> slice_to l b = Panic PIndex.
Proof. intros. unfold slice_to. now rewrite (proj2 (Nat.leb_gt _ _) H). Qed.

Lemma slice_from_ok {A} (l : list A) a :
  (a <= length l)%nat -> slice_from l a = Ok (skipn a l).
Proof. intros. unfold slice_from. now rewrite (proj2 (Nat.leb_le _ _) H). Qed.

Lemma slice_from_panic {A} (l : list A) a :
  (length l < a)%nat -> slice_from l a = Panic PIndex.
Proof. intros. unfold slice_from. now rewrite (proj2 (Nat.leb_gt _ _) H). Qed.

Lemma copy_range_ok {A} (l : list A) a b src :
  (a <= b <= length l)%nat -> length src = (b - a)%nat ->
  copy_range l a b src = Ok (firstn a l ++ src ++ skipn b l).
Proof.
  intros H Hs. unfold copy_range.
  rewrite (proj2 (Nat.leb_le a b)), (proj2 (Nat.leb_le b (length l))) by lia.
  cbn [andb]. now rewrite (proj2 (Nat.eqb_eq _ _) Hs).
Qed.

Lemma fill_range_ok {A} (l : list A) a b v :
  (a <= b <= length l)%nat ->
  fill_range l a b v = Ok (firstn a l ++ repeat v (b - a) ++ skipn b l).
Proof.
  intros H. unfold fill_range.
  now rewrite (proj2 (Nat.leb_le a b)), (proj2 (Nat.leb_le b (length l))) by lia.
Qed.

Lemma to_array_ok {A} n (l : list A) : length l = n -> to_array n l = Ok l.
Proof. intros. unfold to_array. now rewrite (proj2 (Nat.eqb_eq _ _) H). Qed.

Lemma to_array_panic {A} n (l : list A) : length l <> n -> to_array n l = Panic PUnwrap.
Proof. intros. unfold to_array. now rewrite (proj2 (Nat.eqb_neq _ _) H). Qed.

Lemma nsub_ok {P : profile} a b : (b <= a)%nat -> nsub a b = Ok (a - b)%nat.
Proof. intros. unfold nsub. now rewrite (proj2 (Nat.leb_le _ _) H). Qed.

Lemma nsub_panic a b : (a < b)%nat -> nsub a b = Panic POverflow.
Proof. intros. unfold nsub. now rewrite (proj2 (Nat.leb_gt _ _) H). Qed.

Lemma csub_ok {P : profile} w a b : b <= a -> csub w a b = Ok (a - b).
Proof. intros. unfold csub. now rewrite (proj2 (N.leb_le _ _) H). Qed.

Lemma csub_panic w a b : a < b -> csub w a b = Panic POverflow.
Proof. intros. unfold csub. now rewrite (proj2 (N.leb_gt _ _) H). Qed.

Lemma cadd_ok {P : profile} w a b : a + b < 2 ^ w -> cadd w a b = Ok (a + b).
Proof. intros. unfold cadd. now rewrite (proj2 (N.ltb_lt _ _) H). Qed.

Lemma cadd_panic w a b : 2 ^ w <= a + b -> cadd w a b = Panic POverflow.
Proof. intros. unfold cadd. now rewrite (proj2 (N.ltb_ge _ _) H). Qed.

Lemma cmul_ok {P : profile} w a b : a * b < 2 ^ w -> cmul w a b = Ok (a * b).
Proof. intros. unfold cmul. now rewrite (proj2 (N.ltb_lt _ _) H). Qed.

Lemma cmul_panic w a b : 2 ^ w <= a * b -> cmul w a b = Panic POverflow.
Proof. intros. unfold cmul. now rewrite (proj2 (N.ltb_ge _ _) H). Qed.

(** ** position, rposition *)

Lemma rposition_some {A} (p : A -> bool) l i :
  rposition p l = Some i ->
  (i < length l)%nat /\
  (forall d, p (nth i l d) = true) /\
  (forall j d, (i < j < length l)%nat -> p (nth j l d) = false).
Proof.
  revert i; induction l as [|a l IH]; cbn [rposition length]; [discriminate|].
  intros i. destruct (rposition p l) as [k|] eqn:E.
  - intros [= <-]. destruct (IH k eq_refl) as (H1 & H2 & H3).
    split; [lia|]. split; [intros d; cbn; apply H2|].
    intros [|j] d Hj; [lia|]. cbn. apply H3. lia.
  - destruct (p a) eqn:Ea; [|discriminate]. intros [= <-].
    split; [lia|]. split; [auto|].
    assert (Hn : forall j d, (j < length l)%nat -> p (nth j l d) = false).
    { clear -E. revert E. induction l as [|b l IH]; cbn [rposition length]; [lia|].
      destruct (rposition p l) eqn:E'; [discriminate|].
      destruct (p b) eqn:Eb; [discriminate|]. intros _ [|j] d Hj; cbn; auto.
      apply IH; auto. lia. }
    intros [|j] d Hj; [lia|]. cbn. apply Hn. lia.
Qed.

Lemma rposition_none {A} (p : A -> bool) l :
  rposition p l = None <-> Forall (fun a => p a = false) l.
Proof.
  induction l as [|a l IH]; cbn [rposition]; [split; auto|].
  destruct (rposition p l) eqn:E.
  - split; [discriminate|]. intros H; inversion H; subst.
    apply IH in H3. discriminate.
  - destruct (p a) eqn:Ea; split; try discriminate.
    + intros H; inversion H; congruence.
    + intros _; constructor; auto. now apply IH.
    + auto.
Qed.

Lemma rposition_app_r {A} (p : A -> bool) l1 l2 i :
  rposition p l2 = Some i -> rposition p (l1 ++ l2) = Some (length l1 + i)%nat.
Proof.
  intros H. induction l1 as [|a l1 IH]; cbn [app rposition length]; auto.
  now rewrite IH.
Qed.

Lemma position_some {A} (p : A -> bool) l i :
  position p l = Some i <->
  exists l1 a l2, l = l1 ++ a :: l2 /\ length l1 = i /\ p a = true /\
                  Forall (fun x => p x = false) l1.
Proof.
  revert i; induction l as [|a l IH]; cbn [position]; intros i; split.
  - discriminate.
  - intros (l1 & b & l2 & H & _). destruct l1; discriminate.
  - destruct (p a) eqn:Ea.
    + intros [= <-]. exists [], a, l. cbn. auto.
    + destruct (position p l) as [k|] eqn:E; [|discriminate]. intros [= <-].
      destruct (proj1 (IH k) eq_refl) as (l1 & b & l2 & -> & <- & Hb & Hf).
      exists (a :: l1), b, l2. cbn. auto.
  - intros (l1 & b & l2 & H & Hl & Hb & Hf). destruct l1 as [|c l1].
    + injection H as -> ->. cbn in Hl. subst. now rewrite Hb.
    + injection H as -> ->. inversion Hf; subst. rewrite H1.
      rewrite (proj2 (IH (length l1))); [reflexivity|].
      exists l1, b, l2. auto.
Qed.

Lemma position_none {A} (p : A -> bool) l :
  position p l = None <-> Forall (fun a => p a = false) l.
Proof.
  induction l as [|a l IH]; cbn [position]; [split; auto|].
  destruct (p a) eqn:Ea.
  - split; [discriminate|]. intros H; inversion H; congruence.
  - destruct (position p l); cbn.
    + split; [discriminate|]. intros H; inversion H; subst. apply IH in H3. discriminate.
    + split; auto. intros _; constructor; auto. now apply IH.
Qed.

(** ** chunks *)

Lemma chunks_exact_fuel_spec {A} fuel n (l : list A) cs r :
  (0 < n)%nat -> (length l <= fuel)%nat ->
  chunks_exact_fuel fuel n l = (cs, r) ->
  l = concat cs ++ r /\ Forall (fun c => length c = n) cs /\ (length r < n)%nat.
Proof.
  intros Hn. revert l cs r. induction fuel as [|fuel IH]; cbn [chunks_exact_fuel]; intros l cs r Hf E.
  - injection E as <- <-. cbn. split; auto. split; auto. lia.
  - destruct (Nat.leb_spec n (length l)).
    + destruct (chunks_exact_fuel fuel n (skipn n l)) as [cs' r'] eqn:E'.
      injection E as <- <-. apply IH in E'; [|rewrite skipn_length; lia].
      destruct E' as (E1 & E2 & E3). cbn [concat]. split; [|split; auto].
      * rewrite <- app_assoc, <- E1. now rewrite firstn_skipn.
      * constructor; auto. rewrite firstn_length. lia.
    + injection E as <- <-. cbn. auto.
Qed.

Lemma chunks_exact_spec {A} n (l : list A) :
  (0 < n)%nat ->
  exists cs r, chunks_exact n l = Ok (cs, r) /\
    l = concat cs ++ r /\ Forall (fun c => length c = n) cs /\ (length r < n)%nat.
Proof.
  intros Hn. destruct (chunks_exact_fuel (length l) n l) as [cs r] eqn:E.
  exists cs, r. split.
  - unfold chunks_exact. destruct n; [lia|]. now rewrite E.
  - eapply chunks_exact_fuel_spec; eauto.
Qed.

Lemma concat_length_const {A} n (cs : list (list A)) :
  Forall (fun c => length c = n) cs -> length (concat cs) = (length cs * n)%nat.
Proof.
  induction 1; cbn; auto. rewrite app_length. lia.
Qed.

Lemma chunks_unique {A} n (cs cs' : list (list A)) r r' :
  (0 < n)%nat ->
  Forall (fun c => length c = n) cs -> Forall (fun c => length c = n) cs' ->
  (length r < n)%nat -> (length r' < n)%nat ->
  concat cs ++ r = concat cs' ++ r' -> cs = cs' /\ r = r'.
Proof.
  intros Hn H H' Hr Hr'. revert cs' H'. induction H as [|c cs Hc Hcs IH]; intros cs' H' E.
  - destruct H' as [|c' cs' Hc' Hcs']; cbn in E; auto.
    exfalso. apply (f_equal (@length A)) in E. rewrite !app_length in E. lia.
  - destruct H' as [|c' cs' Hc' Hcs']; cbn in E.
    + exfalso. apply (f_equal (@length A)) in E. rewrite !app_length in E. lia.
    + rewrite <- !app_assoc in E.
      assert (Ec : c = c').
      { apply (f_equal (firstn n)) in E. now rewrite !firstn_app_exact in E. }
      subst c'. apply app_inv_head in E. destruct (IH _ Hcs' E) as [-> ->]. auto.
Qed.

(** The chunks of a list given as a concatenation. *)
Lemma chunks_exact_concat {A} n (cs : list (list A)) r :
  (0 < n)%nat -> Forall (fun c => length c = n) cs -> (length r < n)%nat ->
  chunks_exact n (concat cs ++ r) = Ok (cs, r).
Proof.
  intros Hn Hcs Hr. destruct (chunks_exact_spec n (concat cs ++ r) Hn)
    as (cs' & r' & E & H1 & H2 & H3).
  rewrite E. destruct (chunks_unique n cs cs' r r' Hn Hcs H2 Hr H3 H1) as [-> ->]. auto.
Qed.

Lemma skipn_skipn' {A} (l : list A) x y : skipn x (skipn y l) = skipn (y + x) l.
Proof.
  revert l; induction y; intros [|a l]; cbn [skipn plus]; auto. now destruct x.
Qed.

Lemma concat_pieces {A} n k (l : list A) : length l = (k * n)%nat ->
  concat (map (fun i => firstn n (skipn (n * i) l)) (seq 0 k)) = l.
Proof.
  revert l; induction k; intros l Hl.
  - now destruct l.
  - cbn [seq map concat]. rewrite Nat.mul_0_r. cbn [skipn].
    rewrite <- seq_shift, map_map.
    rewrite (map_ext _ (fun i => firstn n (skipn (n * i) (skipn n l)))).
    + rewrite IHk. apply firstn_skipn. rewrite skipn_length. lia.
    + intros i. rewrite skipn_skipn'. do 2 f_equal. lia.
Qed.

(** The chunks of a list whose length is a multiple of the chunk size. *)
Lemma chunks_exact_pieces {A} n k (l : list A) : (0 < n)%nat -> length l = (k * n)%nat ->
  chunks_exact n l = Ok (map (fun i => firstn n (skipn (n * i) l)) (seq 0 k), []).
Proof.
  intros Hn Hl. rewrite <- (concat_pieces n k l Hl) at 1.
  rewrite <- (app_nil_r (concat _)). apply chunks_exact_concat; auto.
  apply Forall_forall. intros c Hc. apply in_map_iff in Hc as (i & <- & Hi).
  apply in_seq in Hi. rewrite firstn_length, skipn_length. nia.
Qed.

Lemma chunks_pieces {A} n k (l : list A) : (0 < n)%nat -> length l = (k * n)%nat ->
  chunks n l = Ok (map (fun i => firstn n (skipn (n * i) l)) (seq 0 k)).
Proof. intros. unfold chunks. now rewrite (chunks_exact_pieces n k). Qed.

(** ** forM, mapM *)

Lemma forM_app {A S} (l1 l2 : list A) (f : A -> S -> res S) s :
  forM (l1 ++ l2) f s = let* s := forM l1 f s in forM l2 f s.
Proof.
  revert s; induction l1; intros s; cbn; auto.
  destruct (f a s); cbn; auto.
Qed.

Lemma forM_ext {A S} (l : list A) (f g : A -> S -> res S) s :
  (forall a s, In a l -> f a s = g a s) -> forM l f s = forM l g s.
Proof.
  revert s; induction l; intros s H; cbn; auto.
  rewrite H by (left; auto). destruct (g a s); cbn; auto.
  apply IHl. intros; apply H; right; auto.
Qed.

Lemma forM_fold {A S} (l : list A) (f : A -> S -> res S) (g : A -> S -> S) (P : S -> Prop) s :
  P s ->
  (forall a s, In a l -> P s -> f a s = Ok (g a s) /\ P (g a s)) ->
  forM l f s = Ok (fold_left (fun s a => g a s) l s) /\
  P (fold_left (fun s a => g a s) l s).
Proof.
  revert s; induction l; intros s Hs H; cbn; auto.
  destruct (H a s (or_introl eq_refl) Hs) as [-> HP]. cbn.
  apply IHl; auto. intros; apply H; auto. right; auto.
Qed.

Lemma range_cons a b : (a < b)%nat -> range a b = a :: range (S a) b.
Proof. intros. unfold range. replace (b - a)%nat with (S (b - S a))%nat by lia. reflexivity. Qed.

Lemma range_nil a b : (b <= a)%nat -> range a b = [].
Proof. intros. unfold range. replace (b - a)%nat with O by lia. reflexivity. Qed.

Lemma range_snoc a b : (a <= b)%nat -> range a (S b) = range a b ++ [b].
Proof.
  intros. unfold range. replace (S b - a)%nat with (S (b - a))%nat by lia.
  rewrite seq_S. f_equal. f_equal. lia.
Qed.

Lemma range_split a b c : (a <= b <= c)%nat -> range a c = range a b ++ range b c.
Proof.
  intros. unfold range. replace (c - a)%nat with ((b - a) + (c - b))%nat by lia.
  rewrite seq_app. repeat f_equal. lia.
Qed.

Lemma in_range a b i : In i (range a b) <-> (a <= i < b)%nat.
Proof. unfold range. rewrite in_seq. lia. Qed.

Lemma range_length a b : length (range a b) = (b - a)%nat.
Proof. apply seq_length. Qed.

(** Loop invariant over a range. *)
Lemma forM_range_inv {S} (P : nat -> S -> Prop) (f : nat -> S -> res S) a b s :
  (a <= b)%nat -> P a s ->
  (forall i s, (a <= i < b)%nat -> P i s -> exists s', f i s = Ok s' /\ P (Datatypes.S i) s') ->
  exists s', forM (range a b) f s = Ok s' /\ P b s'.
Proof.
  intros Hab Ha Hstep. remember (b - a)%nat as k eqn:Hk.
  revert a s Hab Ha Hstep Hk. induction k; intros a s Hab Ha Hstep Hk.
  - replace b with a in * by lia. exists s. rewrite range_nil by lia. auto.
  - rewrite range_cons by lia. destruct (Hstep a s) as (s' & E & HP); [lia|auto|].
    cbn [forM]. rewrite E. cbn [bind]. apply IHk; auto; try lia.
    intros; apply Hstep; auto. lia.
Qed.

(** Loop invariant over a reversed range. *)
Lemma forM_rev_range_inv {S} (P : nat -> S -> Prop) (f : nat -> S -> res S) a b s :
  (a <= b)%nat -> P b s ->
  (forall i s, (a <= i < b)%nat -> P (Datatypes.S i) s -> exists s', f i s = Ok s' /\ P i s') ->
  exists s', forM (rev (range a b)) f s = Ok s' /\ P a s'.
Proof.
  intros Hab Hb Hstep. remember (b - a)%nat as k eqn:Hk.
  revert b s Hab Hb Hstep Hk. induction k; intros b s Hab Hb Hstep Hk.
  - replace b with a in * by lia. exists s. rewrite range_nil by lia. auto.
  - destruct b as [|b]; [lia|]. rewrite range_snoc by lia. rewrite rev_app_distr. cbn [rev app forM].
    destruct (Hstep b s) as (s' & E & HP); [lia|auto|].
    rewrite E. cbn [bind]. apply IHk; auto; try lia.
    intros; apply Hstep; auto. lia.
Qed.

(** Loop invariant over any list, indexed by the consumed prefix. *)
Lemma forM_inv {A S} (P : list A -> S -> Prop) (f : A -> S -> res S) l s :
  P [] s ->
  (forall l1 a l2 s, l = l1 ++ a :: l2 -> P l1 s ->
     exists s', f a s = Ok s' /\ P (l1 ++ [a]) s') ->
  exists s', forM l f s = Ok s' /\ P l s'.
Proof.
  intros H0 Hstep.
  assert (G : forall l1 l2 s, l = l1 ++ l2 -> P l1 s ->
             exists s', forM l2 f s = Ok s' /\ P l s').
  { intros l1 l2. revert l1. induction l2 as [|a l2 IH]; intros l1 s0 E HP.
    - exists s0. rewrite app_nil_r in E. subst. auto.
    - destruct (Hstep l1 a l2 s0 E HP) as (s' & Ef & HP'). cbn [forM].
      rewrite Ef. cbn [bind]. apply (IH (l1 ++ [a])); auto.
      now rewrite <- app_assoc. }
  apply (G []); auto.
Qed.

Lemma mapM_ok {A B} (f : A -> res B) (g : A -> B) l :
  (forall a, In a l -> f a = Ok (g a)) -> mapM f l = Ok (map g l).
Proof.
  induction l; intros H; cbn; auto.
  rewrite H by (left; auto). cbn. rewrite IHl; auto. intros; apply H; right; auto.
Qed.

Lemma mapM_ok_inv {A B} (f : A -> res B) l bs :
  mapM f l = Ok bs -> Forall2 (fun a b => f a = Ok b) l bs.
Proof.
  revert bs; induction l; intros bs; cbn.
  - intros [= <-]. auto.
  - intros H. apply bind_ok_inv in H as (b & Hb & H).
    apply bind_ok_inv in H as (bs' & Hbs & H). injection H as <-. auto.
Qed.

Lemma enumerate_from_length {A} i (l : list A) : length (enumerate_from i l) = length l.
Proof. revert i; induction l; intros; cbn; auto. Qed.

Lemma enumerate_from_combine {A} i (l : list A) :
  enumerate_from i l = combine (seq i (length l)) l.
Proof. revert i; induction l; intros; cbn; auto. now rewrite IHl. Qed.

Lemma enumerate_from_app {A} i (l1 l2 : list A) :
  enumerate_from i (l1 ++ l2) = enumerate_from i l1 ++ enumerate_from (i + length l1) l2.
Proof.
  revert i; induction l1; intros i; cbn [app enumerate_from length].
  - now rewrite Nat.add_0_r.
  - rewrite IHl1. cbn [app]. do 2 f_equal. f_equal. lia.
Qed.

Lemma forM_enumerate_range {A S} (l : list A) (d : A) (f : nat * A -> S -> res S) s :
  forM (enumerate l) f s = forM (range 0 (length l)) (fun i => f (i, nth i l d)) s.
Proof.
  unfold enumerate, range. rewrite Nat.sub_0_r.
  assert (G : forall k pre s, l = pre ++ skipn (length pre) l ->
     forM (enumerate_from (length pre) (skipn (length pre) l)) f s
     = forM (seq (length pre) (length (skipn (length pre) l)))
            (fun i => f (i, nth i l d)) s \/ (k < length (skipn (length pre) l))%nat).
  { clear s. induction k; intros pre s Hpre.
    - destruct (skipn (length pre) l) as [|a t] eqn:E; [left; reflexivity|right; cbn; lia].
    - destruct (skipn (length pre) l) as [|a t] eqn:E; [left; reflexivity|].
      cbn [enumerate_from length seq forM].
      assert (Ha : nth (length pre) l d = a).
      { rewrite Hpre. rewrite app_nth2 by lia. rewrite Nat.sub_diag. reflexivity. }
      assert (Ht : skipn (length (pre ++ [a])) l = t).
      { rewrite Hpre. replace (pre ++ a :: t) with ((pre ++ [a]) ++ t)
          by (rewrite <- app_assoc; reflexivity). now apply skipn_app_exact. }
      destruct (le_lt_dec (length t) k) as [Hk|Hk]; [left|right; lia].
      rewrite Ha. destruct (f (length pre, a) s) as [s'|]; cbn [bind]; auto.
      destruct (IHk (pre ++ [a]) s') as [IH|IH].
      + rewrite Ht, <- app_assoc. exact Hpre.
      + rewrite Ht in IH. rewrite app_length in IH. cbn [length] in IH.
        replace (length pre + 1)%nat with (Datatypes.S (length pre)) in IH by lia. exact IH.
      + rewrite Ht in IH. lia. }
  destruct (G (length l) [] s) as [H|H]; [reflexivity|exact H|cbn in H; lia].
Qed.

(** ** Bits and bounds *)

Lemma testbit_high a w i : a < 2 ^ w -> w <= i -> N.testbit a i = false.
Proof.
  intros Ha Hi. destruct (N.eq_dec a 0) as [->|Hz]; [apply N.bits_0|].
  apply N.bits_above_log2. apply N.log2_lt_pow2 in Ha; lia.
Qed.

Lemma lt_pow2_testbit a w :
  (forall i, w <= i -> N.testbit a i = false) -> a < 2 ^ w.
Proof.
  intros H. destruct (N.eq_dec a 0) as [->|Hz].
  - apply N.neq_0_lt_0, N.pow_nonzero; lia.
  - apply N.log2_lt_pow2; [lia|]. destruct (N.lt_ge_cases (N.log2 a) w) as [|G]; auto.
    exfalso. specialize (H _ G). rewrite N.bit_log2 in H; auto. discriminate.
Qed.

Lemma lxor_lt a b w : a < 2 ^ w -> b < 2 ^ w -> N.lxor a b < 2 ^ w.
Proof.
  intros Ha Hb. apply lt_pow2_testbit. intros i Hi.
  rewrite N.lxor_spec, (testbit_high a w), (testbit_high b w); auto.
Qed.

Lemma lor_lt a b w : a < 2 ^ w -> b < 2 ^ w -> N.lor a b < 2 ^ w.
Proof.
  intros Ha Hb. apply lt_pow2_testbit. intros i Hi.
  rewrite N.lor_spec, (testbit_high a w), (testbit_high b w); auto.
Qed.

Lemma land_lt_l a b w : a < 2 ^ w -> N.land a b < 2 ^ w.
Proof.
  intros Ha. apply lt_pow2_testbit. intros i Hi.
  rewrite N.land_spec, (testbit_high a w); auto.
Qed.

Lemma land_lt_r a b w : b < 2 ^ w -> N.land a b < 2 ^ w.
Proof. rewrite N.land_comm. apply land_lt_l. Qed.

Lemma shiftr_lt a k w : a < 2 ^ w -> N.shiftr a k < 2 ^ w.
Proof.
  intros. rewrite N.shiftr_div_pow2. eapply N.le_lt_trans; [|eassumption].
  apply N.div_le_upper_bound. apply N.pow_nonzero; lia.
  assert (1 <= 2 ^ k). { apply N.lt_pred_le. apply N.neq_0_lt_0. apply N.pow_nonzero; lia. }
  nia.
Qed.

Lemma pow2_pos w : 0 < 2 ^ w.
Proof. apply N.neq_0_lt_0, N.pow_nonzero; lia. Qed.

Lemma mod_pow2_lt a w : a mod 2 ^ w < 2 ^ w.
Proof. apply N.mod_lt. apply N.pow_nonzero; lia. Qed.

Lemma wadd_lt w a b : wadd w a b < 2 ^ w.
Proof. apply mod_pow2_lt. Qed.
Lemma wsub_lt w a b : wsub w a b < 2 ^ w.
Proof. apply mod_pow2_lt. Qed.
Lemma wneg_lt w a : wneg w a < 2 ^ w.
Proof. apply mod_pow2_lt. Qed.
Lemma wshl_lt w a k : wshl w a k < 2 ^ w.
Proof. apply mod_pow2_lt. Qed.
Lemma wnot_lt w a : a < 2 ^ w -> wnot w a < 2 ^ w.
Proof.
  intros. apply lxor_lt; auto. rewrite N.ones_equiv.
  pose proof (pow2_pos w). lia.
Qed.
Lemma rotl_lt w a k : a < 2 ^ w -> rotl w a k < 2 ^ w.
Proof. intros. apply lor_lt. apply wshl_lt. now apply shiftr_lt. Qed.
Lemma rotr_lt w a k : a < 2 ^ w -> rotr w a k < 2 ^ w.
Proof. intros. apply lor_lt. now apply shiftr_lt. apply wshl_lt. Qed.

Lemma lxor_byte a b : a < 256 -> b < 256 -> N.lxor a b < 256.
Proof. apply (lxor_lt a b 8). Qed.

Lemma wnot_arith w a : a < 2 ^ w -> wnot w a = 2 ^ w - 1 - a.
Proof.
  intros H. unfold wnot.
  assert (E : N.lxor a (N.ones w) = N.lnot a w) by reflexivity. rewrite E.
  destruct (N.eq_dec a 0) as [->|Hz].
  - rewrite N.lnot_0_l, N.ones_equiv. pose proof (pow2_pos w). lia.
  - rewrite N.lnot_sub_low. rewrite N.ones_equiv. pose proof (pow2_pos w). lia.
    apply N.log2_lt_pow2; lia.
Qed.

Lemma lor_disjoint_add a b : N.land a b = 0 -> N.lor a b = a + b.
Proof.
  intros H. pose proof (N.add_nocarry_lxor a b H) as E. rewrite E.
  apply N.bits_inj. intros i. rewrite N.lor_spec, N.lxor_spec.
  apply (f_equal (fun x => N.testbit x i)) in H. rewrite N.land_spec, N.bits_0 in H.
  now destruct (N.testbit a i), (N.testbit b i).
Qed.

(** [x * 2^k + y] with [y < 2^k] as a bitwise or. *)
Lemma lor_shift_add x y k : y < 2 ^ k -> N.lor (N.shiftl x k) y = x * 2 ^ k + y.
Proof.
  intros H. rewrite lor_disjoint_add.
  - now rewrite N.shiftl_mul_pow2.
  - apply N.bits_inj. intros i. rewrite N.land_spec, N.bits_0.
    destruct (N.lt_ge_cases i k).
    + rewrite N.shiftl_spec_low; auto.
    + rewrite (testbit_high y k); auto. apply andb_false_r.
Qed.

Lemma pow2_split w k : k <= w -> 2 ^ w = 2 ^ k * 2 ^ (w - k).
Proof. intros. rewrite <- N.pow_add_r. f_equal. lia. Qed.

(** [wshl] keeps the low bits. *)
Lemma wshl_arith w a k : k <= w -> wshl w a k = (a mod 2 ^ (w - k)) * 2 ^ k.
Proof.
  intros H. unfold wshl. rewrite N.shiftl_mul_pow2.
  rewrite (pow2_split w k H). rewrite (N.mul_comm (2 ^ k)).
  rewrite N.mul_mod_distr_r; auto; apply N.pow_nonzero; lia.
Qed.

Lemma rotr_arith w a k : a < 2 ^ w -> k < w ->
  rotr w a k = a / 2 ^ k + (a mod 2 ^ k) * 2 ^ (w - k).
Proof.
  intros Ha Hk. unfold rotr, wshr. rewrite (N.mod_small k w) by auto.
  rewrite wshl_arith by lia. replace (w - (w - k)) with k by lia.
  rewrite N.lor_comm, <- N.shiftl_mul_pow2.
  rewrite lor_shift_add. rewrite N.shiftl_mul_pow2, N.shiftr_div_pow2. lia.
  rewrite N.shiftr_div_pow2. apply N.div_lt_upper_bound. apply N.pow_nonzero; lia.
  rewrite <- pow2_split by lia. auto.
Qed.

Lemma rotl_arith w a k : a < 2 ^ w -> k < w ->
  rotl w a k = (a mod 2 ^ (w - k)) * 2 ^ k + a / 2 ^ (w - k).
Proof.
  intros Ha Hk. unfold rotl, wshr. rewrite (N.mod_small k w) by auto.
  rewrite wshl_arith by lia.
  rewrite <- N.shiftl_mul_pow2.
  rewrite lor_shift_add. rewrite N.shiftl_mul_pow2, N.shiftr_div_pow2. lia.
  rewrite N.shiftr_div_pow2. apply N.div_lt_upper_bound. apply N.pow_nonzero; lia.
  rewrite N.mul_comm, <- pow2_split by lia. auto.
Qed.

Lemma rot_mod_l w a k : w <> 0 -> rotl w a k = rotl w a (k mod w).
Proof. intros. unfold rotl. now rewrite N.mod_mod. Qed.
Lemma rot_mod_r w a k : w <> 0 -> rotr w a k = rotr w a (k mod w).
Proof. intros. unfold rotr. now rewrite N.mod_mod. Qed.

Lemma rotr_rotl w a k : 0 < w -> a < 2 ^ w -> rotr w (rotl w a k) k = a.
Proof.
  intros Hw Ha. rewrite rot_mod_l, rot_mod_r by lia.
  set (j := k mod w). assert (Hj : j < w) by (apply N.mod_lt; lia).
  rewrite rotr_arith; auto. 2: now apply rotl_lt.
  rewrite rotl_arith by auto.
  assert (Hd : a / 2 ^ (w - j) < 2 ^ j).
  { apply N.div_lt_upper_bound. apply N.pow_nonzero; lia.
    rewrite N.mul_comm, <- pow2_split by lia. auto. }
  rewrite N.div_add_l by (apply N.pow_nonzero; lia).
  rewrite (N.div_small _ _ Hd), N.add_0_r.
  rewrite (N.add_comm _ (a / 2 ^ (w - j))), N.mod_add by (apply N.pow_nonzero; lia).
  rewrite (N.mod_small _ _ Hd).
  pose proof (N.div_mod' a (2 ^ (w - j))). lia.
Qed.

Lemma rotl_rotr w a k : 0 < w -> a < 2 ^ w -> rotl w (rotr w a k) k = a.
Proof.
  intros Hw Ha. rewrite rot_mod_l, rot_mod_r by lia.
  set (j := k mod w). assert (Hj : j < w) by (apply N.mod_lt; lia).
  rewrite rotl_arith; auto. 2: now apply rotr_lt.
  rewrite rotr_arith by auto.
  assert (Hd : a / 2 ^ j < 2 ^ (w - j)).
  { apply N.div_lt_upper_bound. apply N.pow_nonzero; lia.
    rewrite <- pow2_split by lia. auto. }
  rewrite N.div_add by (apply N.pow_nonzero; lia).
  rewrite (N.div_small _ _ Hd), N.add_0_l.
  rewrite N.mod_add by (apply N.pow_nonzero; lia).
  rewrite (N.mod_small _ _ Hd).
  pose proof (N.div_mod' a (2 ^ j)). lia.
Qed.

Lemma wsub_wadd w a b : a < 2 ^ w -> b < 2 ^ w -> wsub w (wadd w a b) b = a.
Proof.
  intros. unfold wsub, wadd. pose proof (pow2_pos w) as Hp. revert Hp H H0.
  generalize (2 ^ w). intros M Hp Ha Hb.
  destruct (N.lt_ge_cases (a + b) M).
  - rewrite (N.mod_small (a + b)) by auto.
    replace (a + b + M - b) with (a + 1 * M) by lia.
    rewrite N.mod_add by lia. now apply N.mod_small.
  - replace ((a + b) mod M) with (a + b - M).
    + replace (a + b - M + M - b) with a by lia. now apply N.mod_small.
    + symmetry. rewrite <- (N.mod_small (a + b - M) M) by lia.
      replace (a + b) with (a + b - M + 1 * M) at 1 by lia. now rewrite N.mod_add by lia.
Qed.

Lemma wadd_wsub w a b : a < 2 ^ w -> b < 2 ^ w -> wadd w (wsub w a b) b = a.
Proof.
  intros. unfold wsub, wadd. pose proof (pow2_pos w) as Hp. revert Hp H H0.
  generalize (2 ^ w). intros M Hp Ha Hb.
  rewrite N.add_mod_idemp_l by lia.
  replace (a + M - b + b) with (a + 1 * M) by lia.
  rewrite N.mod_add by lia. now apply N.mod_small.
Qed.

(** ** Endian conversions *)

Lemma to_le_length k x : length (to_le k x) = k.
Proof. revert x; induction k; intros; cbn [to_le length]; auto. Qed.

Lemma to_be_length k x : length (to_be k x) = k.
Proof. unfold to_be. rewrite rev_length. apply to_le_length. Qed.

Lemma to_le_bytes k x : bytes (to_le k x).
Proof.
  revert x; induction k; intros x; cbn [to_le]; constructor.
  - apply N.mod_lt. discriminate.
  - apply IHk.
Qed.

Lemma Forall_rev' {A} (P : A -> Prop) l : Forall P l -> Forall P (rev l).
Proof. apply Forall_rev. Qed.

Lemma to_be_bytes k x : bytes (to_be k x).
Proof. apply Forall_rev, to_le_bytes. Qed.

Lemma pow256_S k : 256 ^ N.of_nat (S k) = 256 * 256 ^ N.of_nat k.
Proof. rewrite Nat2N.inj_succ. apply N.pow_succ_r'. Qed.

Lemma from_le_to_le k x : from_le (to_le k x) = x mod 256 ^ N.of_nat k.
Proof.
  revert x; induction k; intros x; cbn [to_le from_le].
  - now rewrite N.mod_1_r.
  - rewrite IHk, pow256_S.
    rewrite (N.mod_mul_r x 256 (256 ^ N.of_nat k)); [reflexivity|discriminate|].
    apply N.pow_nonzero. discriminate.
Qed.

Lemma from_le_lt l : bytes l -> from_le l < 256 ^ N.of_nat (length l).
Proof.
  induction 1; cbn [from_le length].
  - reflexivity.
  - rewrite pow256_S. unfold byte in H. lia.
Qed.

Lemma to_le_from_le l : bytes l -> to_le (length l) (from_le l) = l.
Proof.
  induction 1; cbn [length to_le from_le]; auto. unfold byte in H.
  f_equal.
  - rewrite N.mul_comm, N.mod_add by discriminate. now apply N.mod_small.
  - rewrite N.mul_comm, N.div_add by discriminate. rewrite N.div_small by auto. exact IHForall.
Qed.

Lemma from_be_to_be k x : from_be (to_be k x) = x mod 256 ^ N.of_nat k.
Proof. unfold from_be, to_be. rewrite rev_involutive. apply from_le_to_le. Qed.

Lemma to_be_from_be l : bytes l -> to_be (length l) (from_be l) = l.
Proof.
  intros H. unfold to_be, from_be. rewrite <- (rev_length l).
  rewrite to_le_from_le by now apply Forall_rev. apply rev_involutive.
Qed.

Lemma from_be_lt l : bytes l -> from_be l < 256 ^ N.of_nat (length l).
Proof.
  intros. unfold from_be. rewrite <- rev_length. apply from_le_lt. now apply Forall_rev.
Qed.

Lemma from_le_app l1 l2 :
  from_le (l1 ++ l2) = from_le l1 + 256 ^ N.of_nat (length l1) * from_le l2.
Proof.
  induction l1; cbn [app from_le length].
  - rewrite N.pow_0_r. lia.
  - rewrite IHl1, pow256_S. lia.
Qed.

Lemma from_le_inj l1 l2 : bytes l1 -> bytes l2 -> length l1 = length l2 ->
  from_le l1 = from_le l2 -> l1 = l2.
Proof.
  intros H1 H2 Hl E. rewrite <- (to_le_from_le l1 H1), <- (to_le_from_le l2 H2), Hl. congruence.
Qed.
