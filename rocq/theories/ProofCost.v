(** * Operation sequences and recursion depth *)
From Coq Require Import ZifyBool ZifyNat ZifyN.
From Verif Require Import Base BaseLemmas ModelBig ModelRsa ModelPem ModelCost SpecEndian SpecBig SpecRsa SpecAsn1 SpecCost
  ProofBig ProofBig2 ProofBig3 ProofRsa ProofAsn1 ProofKey.
Local Open Scope N_scope.

(** ** Erasure *)

Lemma forM_project {A S T} (l : list A) (f : A -> S -> res S) (g : A -> T -> res T) (p : T -> S) t :
  (forall i t, In i l -> f i (p t) = let* t' := g i t in Ok (p t')) ->
  forM l f (p t) = let* t' := forM l g t in Ok (p t').
Proof.
  revert t. induction l as [|i l IH]; intros t H; [reflexivity|]. cbn [forM].
  rewrite H by now left. destruct (g i t) as [t'|r]; cbn [bind]; [|reflexivity].
  apply IH. intros. apply H. now right.
Qed.

Lemma mul_mod_loop_erase {P : profile} fuel capf : forall r a b m,
  mul_mod_loop fuel capf r a b m = let* (r, _) := mul_mod_loop_traced fuel capf r a b m in Ok r.
Proof.
  induction fuel as [|fuel IH]; intros r a b m; cbn [mul_mod_loop mul_mod_loop_traced];
    (destruct (bits_used b) as [n|e]; cbn [bind]; [|reflexivity]); (destruct (n =? 0); [reflexivity|]);
    [reflexivity|].
  destruct (is_set b 0) as [s|e]; cbn [bind]; [|reflexivity].
  destruct s.
  - destruct (add_assign r a) as [r1|e]; cbn [bind]; [|reflexivity].
    destruct (rem_assign capf r1 m) as [r2|e]; cbn [bind]; [|reflexivity].
    destruct (rem_assign capf (shl_assign a 1) m) as [a1|e]; cbn [bind]; [|reflexivity].
    destruct (shr_assign b 1) as [b1|e]; cbn [bind]; [|reflexivity].
    rewrite IH. destruct (mul_mod_loop_traced fuel capf r2 a1 b1 m) as [[r3 t]|e]; reflexivity.
  - cbn [bind].
    destruct (rem_assign capf (shl_assign a 1) m) as [a1|e]; cbn [bind]; [|reflexivity].
    destruct (shr_assign b 1) as [b1|e]; cbn [bind]; [|reflexivity].
    rewrite IH. destruct (mul_mod_loop_traced fuel capf r a1 b1 m) as [[r3 t]|e]; reflexivity.
Qed.

Lemma mul_mod_erase {P : profile} capf a b m : mul_mod capf a b m = let* (r, _) := mul_mod_traced capf a b m in Ok r.
Proof.
  unfold mul_mod, mul_mod_traced. destruct (big_from_u128 0) as [r|e]; cbn [bind]; [|reflexivity].
  apply mul_mod_loop_erase.
Qed.

Lemma pow_mod_erase {P : profile} capf a p m : pow_mod capf a p m = let* (r, _) := pow_mod_traced capf a p m in Ok r.
Proof.
  unfold pow_mod, pow_mod_traced. destruct (big_from_u128 1) as [r|e]; cbn [bind]; [|reflexivity].
  destruct (bits_used p) as [n|e]; cbn [bind]; [|reflexivity].
  match goal with |- context [forM _ ?g (a, r, [])] =>
    pose proof (forM_project (range 0 (ix n)) (fun i '(a, r) =>
      let* s := is_set p (N.of_nat i) in
      let* r := if s then mul_mod capf r a m else Ok r in
      let* a := mul_mod capf a a m in
      Ok (a, r)) g fst (a, r, [])) as H end.
  cbn [fst] in H. rewrite H; clear H.
  - destruct (forM _ _ _) as [[[x y] t]|e]; reflexivity.
  - intros i [[x y] t] _. cbn [fst].
    destruct (is_set p (N.of_nat i)) as [s|e]; cbn [bind]; [|reflexivity]. destruct s.
    + destruct (mul_mod capf y x m) as [y1|e]; cbn [bind]; [|reflexivity].
      destruct (mul_mod capf x x m) as [x1|e]; reflexivity.
    + cbn [bind]. destruct (mul_mod capf x x m) as [x1|e]; reflexivity.
Qed.

(** ** The sequence of operations *)

Lemma forM_append {A X T} (l : list A) (f : A -> X * list T -> res (X * list T)) (ev : A -> list T) x t x' t' :
  (forall i x t x' t', In i l -> f i (x, t) = Ok (x', t') -> t' = t ++ ev i) ->
  forM l f (x, t) = Ok (x', t') -> t' = t ++ flat_map ev l.
Proof.
  revert x t. induction l as [|i l IH]; intros x t H E; cbn [forM flat_map] in *.
  - apply Ok_inj in E. injection E as _ <-. now rewrite app_nil_r.
  - destruct (f i (x, t)) as [[x1 t1]|e] eqn:F; cbn [bind] in E; [|discriminate E].
    apply H in F; [|now left]. apply IH in E; [|intros; eapply H; eauto; now right].
    subst. now rewrite app_assoc.
Qed.

Lemma flat_map_map {A B C} (f : B -> list C) (g : A -> B) l : flat_map f (map g l) = flat_map (fun x => f (g x)) l.
Proof. induction l; cbn [map flat_map]; congruence. Qed.

Lemma pow_mod_ops capf a p m r t : canonical p -> countable p ->
  pow_mod_traced capf a p m = Ok (r, t) -> t = spells Multiply Square (num p).
Proof.
  intros Hp Cp E. unfold pow_mod_traced in E.
  destruct (big_from_u128 1) as [r0|e]; cbn [bind] in E; [|discriminate E].
  rewrite bits_used_spec in E by auto. cbn [bind] in E.
  destruct (forM _ _ _) as [[[x y] t']|e] eqn:F; cbn [bind] in E; [|discriminate E].
  apply Ok_inj in E. injection E as -> ->.
  apply (forM_append _ _ (fun i => if N.testbit (num p) (N.of_nat i) then [Multiply; Square] else [Square])) in F.
  - rewrite F. cbn [app]. unfold spells, bits. rewrite flat_map_map. unfold range, ix. now rewrite Nat.sub_0_r.
  - clear x F. intros i [x z] u [x' z'] u' _ E. rewrite is_set_spec in E by auto. cbn [bind] in E.
    destruct (N.testbit (num p) (N.of_nat i)).
    + destruct (mul_mod capf z x m) as [y1|e]; cbn [bind] in E; [|discriminate E].
      destruct (mul_mod capf x x m) as [x1|e]; cbn [bind] in E; [|discriminate E].
      apply Ok_inj in E. injection E as _ _ <-. now rewrite <- app_assoc.
    + cbn [bind] in E. destruct (mul_mod capf x x m) as [x1|e]; cbn [bind] in E; [|discriminate E].
      apply Ok_inj in E. now injection E as _ _ <-.
Qed.

Lemma bits_0 : bits 0 = [].
Proof. reflexivity. Qed.

Lemma bits_step e : e <> 0 -> bits e = N.testbit e 0 :: bits (e / 2).
Proof.
  intros H. unfold bits. rewrite !bit_length_size.
  assert (S : N.size e = N.succ (N.size (e / 2))).
  { rewrite <- N.div2_div. destruct e as [|[p|p|]]; [congruence|reflexivity..]. }
  rewrite S, N2Nat.inj_succ. cbn [seq map]. f_equal. rewrite <- seq_shift, map_map. apply map_ext.
  intros i. rewrite Nat2N.inj_succ, <- N.div2_div, N.div2_spec, N.shiftr_spec'. f_equal. lia.
Qed.

Lemma spells_step x y e : e <> 0 ->
  spells x y e = (if N.testbit e 0 then [x] else []) ++ y :: spells x y (e / 2).
Proof. intros H. unfold spells. rewrite bits_step by auto. cbn [flat_map]. now destruct (N.testbit e 0). Qed.

Lemma mul_mod_loop_ops fuel capf : forall r a b m r' t, canonical b -> countable b ->
  mul_mod_loop_traced fuel capf r a b m = Ok (r', t) -> t = spells Add Double (num b).
Proof.
  induction fuel as [|fuel IH]; intros r a b m r' t Hb Cb E; cbn [mul_mod_loop_traced] in E;
    rewrite bits_used_spec in E by auto; cbn [bind] in E;
    (destruct (N.eqb_spec (bit_length (num b)) 0) as [Z|Z];
     [apply Ok_inj in E; injection E as _ <-; unfold spells, bits; now rewrite Z|]); [discriminate E|].
  assert (Nb : num b <> 0) by (intros Y; rewrite Y in Z; now apply Z).
  rewrite spells_step by auto.
  rewrite is_set_spec in E by auto. cbn [bind] in E.
  destruct (shr_ok b 1 Hb) as (b1 & E4 & C4 & V4); [change (1 / 8) with 0; lia|].
  change (2 ^ 1) with 2 in V4. change from_le with num in V4.
  assert (Cb1 : countable b1).
  { assert (length b1 <= length b)%nat; [|unfold countable in *; lia].
    apply canonical_length_mono; auto using canonical_bytes. change from_le with num. rewrite V4.
    apply N.div_le_upper_bound; lia. }
  destruct (N.testbit (num b) 0).
  - destruct (add_assign r a) as [r1|e]; cbn [bind] in E; [|discriminate E].
    destruct (rem_assign capf r1 m) as [r2|e]; cbn [bind] in E; [|discriminate E].
    destruct (rem_assign capf (shl_assign a 1) m) as [a1|e]; cbn [bind] in E; [|discriminate E].
    rewrite E4 in E. cbn [bind] in E.
    destruct (mul_mod_loop_traced fuel capf r2 a1 b1 m) as [[r3 t3]|e] eqn:F; cbn [bind] in E; [|discriminate E].
    apply IH in F; auto. apply Ok_inj in E. injection E as _ <-. now rewrite F, V4.
  - cbn [bind] in E.
    destruct (rem_assign capf (shl_assign a 1) m) as [a1|e]; cbn [bind] in E; [|discriminate E].
    rewrite E4 in E. cbn [bind] in E.
    destruct (mul_mod_loop_traced fuel capf r a1 b1 m) as [[r3 t3]|e] eqn:F; cbn [bind] in E; [|discriminate E].
    apply IH in F; auto. apply Ok_inj in E. injection E as _ <-. now rewrite F, V4.
Qed.

Lemma mul_mod_ops capf a b m r t : canonical b -> countable b ->
  mul_mod_traced capf a b m = Ok (r, t) -> t = spells Add Double (num b).
Proof.
  intros Hb Cb E. unfold mul_mod_traced in E.
  destruct (big_from_u128 0) as [r0|e]; cbn [bind] in E; [|discriminate E].
  eapply mul_mod_loop_ops; eauto.
Qed.

(** ** Reading the number back *)

Lemma bits_length e : length (bits e) = N.to_nat (bit_length e).
Proof. unfold bits. now rewrite map_length, seq_length. Qed.

Lemma bits_inj d e : bits d = bits e -> d = e.
Proof.
  revert e. induction d as [d IH] using (well_founded_induction N.lt_wf_0). intros e.
  destruct (N.eq_dec d 0) as [->|Hd], (N.eq_dec e 0) as [->|He]; auto.
  - rewrite (bits_step e) by auto. discriminate.
  - rewrite (bits_step d) by auto. discriminate.
  - rewrite (bits_step d), (bits_step e) by auto. intros E.
    pose proof (f_equal (hd false) E) as E0. pose proof (f_equal (@tl bool) E) as E1. cbn [hd tl] in E0, E1.
    apply IH in E1; [|apply N.div_lt; lia].
    rewrite !N.bit0_eqb in E0.
    rewrite (N.div_mod d 2), (N.div_mod e 2), E1 by lia.
    destruct (N.eqb_spec (d mod 2) 1), (N.eqb_spec (e mod 2) 1); try discriminate; lia.
Qed.

Lemma spells_inj x y d e : x <> y -> spells x y d = spells x y e -> d = e.
Proof.
  intros D. unfold spells. intros E. apply bits_inj. revert E. generalize (bits d) as l, (bits e) as k.
  induction l as [|[] l IH]; intros [|[] k] E; cbn [flat_map app] in E; try congruence.
  - f_equal. apply IH. congruence.
  - f_equal. apply IH. congruence.
Qed.

Lemma spells_length x y e : length (spells x y e) = (N.to_nat (bit_length e) + ones e)%nat.
Proof.
  rewrite <- bits_length. unfold spells, ones.
  induction (bits e) as [|[] l IH]; cbn [flat_map filter length app]; lia.
Qed.

Definition op_dec (x y : op) : {x = y} + {x <> y}.
Proof. decide equality. Defined.

Lemma spells_count x y e : x <> y -> count_occ op_dec (spells x y e) x = ones e.
Proof.
  intros D. unfold spells, ones.
  induction (bits e) as [|[] l IH]; cbn [flat_map filter length app]; [reflexivity| |].
  - rewrite count_occ_cons_eq, count_occ_cons_neq by auto. lia.
  - rewrite count_occ_cons_neq by auto. exact IH.
Qed.

(** ** Recursion depth of the ASN.1 parser *)

Definition depths (es : list asn1) : nat := fold_right Nat.max 0%nat (map depth es).

Lemma depth_pos a : (1 <= depth a)%nat.
Proof. destruct a; cbn [depth]; lia. Qed.

Lemma parse_depth :
  (forall a e, lax a e -> forall fuel rest,
     parse_from_bytes fuel (e ++ rest) = if (depth a <=? fuel)%nat then Ok (ROk (a, rest)) else Panic PFuel) /\
  (forall es c, lax_all es c -> forall fuel fe acc, (length c <= fe)%nat ->
     asn1_elements (parse_from_bytes fuel) fe c acc =
       if (depths es <=? fuel)%nat then Ok (ROk (acc ++ es)) else Panic PFuel).
Proof.
  unfold lax, lax_all. apply encodes_mutind.
  1-6: intros.
  1-6: destruct fuel as [|fuel]; [cbn [depth Nat.leb]; reflexivity|]; rewrite parse_S; cbn [app]; rewrite <- app_assoc;
    (erewrite header_good; [|reflexivity|eassumption]); cbn [bind];
    (match goal with |- context [?a <? ?b] => destruct (N.ltb_spec a b) as [Hbad|_] end;
     [exfalso; revert Hbad; unfold size; cbn [app length]; rewrite ?app_length; cbn [length]; lia|]);
    cbv zeta; rewrite ix_size.
  1,3,4,5: cbn [N.eqb Pos.eqb depth Nat.leb]; rewrite ?slice_to_ok by (rewrite app_length; lia); cbn [bind];
    rewrite slice_from_ok by (rewrite app_length; lia); cbn [bind];
    rewrite ?firstn_app_exact, skipn_app_exact by reflexivity; reflexivity.
  - cbn [N.eqb Pos.eqb app depth Nat.leb]. rewrite slice_ok by (cbn [length]; rewrite app_length; lia).
    rewrite slice_from_ok by (cbn [length]; rewrite app_length; lia).
    unfold idx. cbn [nth_error length skipn bind].
    replace (S (length c) - 1)%nat with (length c) by lia.
    rewrite firstn_app_exact, skipn_app_exact by reflexivity. reflexivity.
  - cbn [N.eqb Pos.eqb]. rewrite slice_to_ok by (rewrite app_length; lia). cbn [bind].
    rewrite firstn_app_exact by reflexivity. rewrite H1 by lia.
    cbn [depth]. fold (depths es). cbn [Nat.leb].
    destruct (depths es <=? fuel)%nat; cbn [bind app]; [|reflexivity].
    rewrite slice_from_ok by (rewrite app_length; lia). cbn [bind].
    rewrite skipn_app_exact by reflexivity. reflexivity.
  - intros. destruct fe; cbn [asn1_elements]; now rewrite app_nil_r.
  - intros a c es cs Ha IHa Hes IHes fuel fe acc Hfe.
    pose proof (encodes_nonempty _ _ _ _ Ha) as Hne.
    rewrite app_length in Hfe.
    destruct c as [|x c]; [congruence|]. destruct fe as [|fe]; [cbn [length] in Hfe; lia|].
    cbn [asn1_elements app]. change (x :: c ++ cs) with ((x :: c) ++ cs).
    rewrite IHa. unfold depths. cbn [map fold_right]. fold (depths es).
    destruct (Nat.leb_spec (depth a) fuel) as [L|L].
    + cbn [bind]. rewrite IHes by (cbn [length] in *; lia). rewrite <- app_assoc. cbn [app].
      destruct (Nat.leb_spec (depths es) fuel), (Nat.leb_spec (Nat.max (depth a) (depths es)) fuel); auto; lia.
    + cbn [bind]. destruct (Nat.leb_spec (Nat.max (depth a) (depths es)) fuel); [lia|reflexivity].
Qed.

Lemma lax_depth_length :
  (forall a e, lax a e -> (2 * depth a <= length e)%nat) /\
  (forall es c, lax_all es c -> (2 * depths es <= length c)%nat).
Proof.
  unfold lax, lax_all. apply encodes_mutind; intros;
    repeat match goal with H : lax_len _ _ |- _ => apply lax_len_pos in H end;
    cbn [depth length]; rewrite ?app_length; cbn [length]; try lia.
  - fold (depths es). lia.
  - cbn. lia.
  - unfold depths. cbn [map fold_right]. fold (depths es). lia.
Qed.

Lemma digits_8 n : n < 2 ^ 64 -> (digits n <= 8)%nat.
Proof.
  intros H. unfold digits. assert (N.log2 n < 64); [|lia].
  destruct (N.eq_dec n 0) as [->|Z]; [reflexivity|]. apply N.log2_lt_pow2; lia.
Qed.

Lemma tlv_length t c : size c < 2 ^ 64 -> (length (tlv t c) <= 10 + length c)%nat.
Proof.
  intros H. unfold tlv. cbn [length]. rewrite app_length. unfold der_len.
  destruct (size c <? 128); cbn [length]; [lia|]. rewrite be_bytes_length. apply digits_8 in H. lia.
Qed.

Lemma nest_length k : 10 * N.of_nat k + 2 < 2 ^ 64 -> (length (der (nest k)) <= 2 + 10 * k)%nat.
Proof.
  induction k as [|k IH]; intros H; [cbn; lia|]. cbn [nest der map concat]. rewrite app_nil_r.
  rewrite tlv_length; unfold size; lia.
Qed.

Lemma nest_depth k : depth (nest k) = S k.
Proof. induction k as [|k IH]; [reflexivity|]. cbn [nest depth map fold_right]. rewrite IH. lia. Qed.

Lemma any_depth n : (0 < n)%nat -> 10 * N.of_nat n < 2 ^ 64 ->
  exists v bs, bytes bs /\ (length bs <= 10 * n)%nat /\ asn1_try_from bs = Ok (ROk v) /\ depth v = n /\
    parse_from_bytes (n - 1) bs = Panic PFuel.
Proof.
  intros Hn Hs. destruct n as [|k]; [lia|].
  pose proof (nest_length k ltac:(lia)) as L.
  assert (S : size (der (nest k)) < 2 ^ 64) by (unfold size; lia).
  exists (nest k), (der (nest k)). split.
  - apply der_bytes; auto. clear. induction k; cbn [nest]; constructor; auto.
  - split; [lia|]. split; [now apply der_roundtrip|]. split; [apply nest_depth|].
    apply der_lax in S. pose proof (proj1 parse_depth _ _ S k []) as E. rewrite app_nil_r in E.
    replace (Datatypes.S k - 1)%nat with k by lia. rewrite E, nest_depth.
    destruct (Nat.leb_spec (Datatypes.S k) k); [lia|reflexivity].
Qed.
