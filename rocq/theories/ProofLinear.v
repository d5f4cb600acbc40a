(** * Linear approximations of the S-box *)
From Coq Require Import ZifyBool ZifyNat ZifyN Permutation.
From Verif Require Import Base BaseLemmas ModelAes SpecAes SpecLinear ProofAesField ProofAes ProofBranch ProofTrail.
Ltac Zify.zify_post_hook ::= idtac.
Local Open Scope N_scope.

Lemma dot_fold (u x y : N) l : forall a b,
  fold_left (fun acc i => xorb acc (andb (N.testbit u i) (N.testbit (N.lxor x y) i))) l (xorb a b) =
  xorb (fold_left (fun acc i => xorb acc (andb (N.testbit u i) (N.testbit x i))) l a)
       (fold_left (fun acc i => xorb acc (andb (N.testbit u i) (N.testbit y i))) l b).
Proof.
  induction l as [|i l IH]; intros a b; cbn [fold_left]; [reflexivity|].
  rewrite <- IH. f_equal. rewrite N.lxor_spec.
  destruct (N.testbit u i), (N.testbit x i), (N.testbit y i), a, b; reflexivity.
Qed.

Lemma dot_xor_r u x y : dot u (N.lxor x y) = xorb (dot u x) (dot u y).
Proof. exact (dot_fold u x y _ false false). Qed.

(** Every linear map from bytes to bits is given by a mask. *)
Definition linear (f : N -> bool) : Prop :=
  forall x y, x < 256 -> y < 256 -> f (N.lxor x y) = xorb (f x) (f y).

Lemma linear_0 f : linear f -> f 0 = false.
Proof. intros H. pose proof (H 0 0 eq_refl eq_refl) as E. cbn [N.lxor] in E. destruct (f 0); [discriminate E|reflexivity]. Qed.

Lemma linear_ext f g : linear f -> linear g ->
  (forall i, In i [0; 1; 2; 3; 4; 5; 6; 7] -> f (2 ^ i) = g (2 ^ i)) -> forall x, x < 256 -> f x = g x.
Proof.
  intros Hf Hg HB x Hx.
  enough (G : x < 256 /\ f x = g x) by apply G. revert x Hx. apply byte_span.
  - split; [reflexivity|]. now rewrite (linear_0 f), (linear_0 g).
  - intros i Hi. unfold basis in Hi.
    repeat (destruct Hi as [<-|Hi]; [split; [reflexivity|]|]); try destruct Hi.
    1: apply (HB 0). 2: apply (HB 1). 3: apply (HB 2). 4: apply (HB 3).
    5: apply (HB 4). 6: apply (HB 5). 7: apply (HB 6). 8: apply (HB 7).
    all: cbn [In]; tauto.
  - intros y z [Ly Py] [Lz Pz]. split; [now apply lxor_byte|].
    rewrite Hf, Hg, Py, Pz by assumption. reflexivity.
Qed.

Definition mask_of (f : N -> bool) : N :=
  fold_left (fun acc i => if f (2 ^ i) then acc + 2 ^ i else acc) [0; 1; 2; 3; 4; 5; 6; 7] 0.

Definition mask8 (b0 b1 b2 b3 b4 b5 b6 b7 : bool) : N :=
  mask_of (fun x => if x =? 1 then b0 else if x =? 2 then b1 else if x =? 4 then b2 else if x =? 8 then b3
                    else if x =? 16 then b4 else if x =? 32 then b5 else if x =? 64 then b6 else b7).

Lemma mask_of_mask8 f : mask_of f = mask8 (f 1) (f 2) (f 4) (f 8) (f 16) (f 32) (f 64) (f 128).
Proof. reflexivity. Qed.

Lemma mask8_dot b0 b1 b2 b3 b4 b5 b6 b7 :
  let w := mask8 b0 b1 b2 b3 b4 b5 b6 b7 in
  w < 256 /\ dot w 1 = b0 /\ dot w 2 = b1 /\ dot w 4 = b2 /\ dot w 8 = b3 /\
  dot w 16 = b4 /\ dot w 32 = b5 /\ dot w 64 = b6 /\ dot w 128 = b7.
Proof.
  destruct b0, b1, b2, b3, b4, b5, b6, b7; vm_compute; repeat split.
Qed.

Lemma linear_mask f : linear f -> exists w, w < 256 /\ forall x, x < 256 -> f x = dot w x.
Proof.
  intros Hf. exists (mask_of f). rewrite mask_of_mask8.
  destruct (mask8_dot (f 1) (f 2) (f 4) (f 8) (f 16) (f 32) (f 64) (f 128))
    as (L & E0 & E1 & E2 & E3 & E4 & E5 & E6 & E7).
  split; [exact L|]. apply linear_ext; [exact Hf|intros x y _ _; apply dot_xor_r|].
  intros i Hi. repeat (destruct Hi as [<-|Hi]; [symmetry; assumption|]). destruct Hi.
Qed.

(** ** Counting *)

Lemma perm_count {A} (p : A -> bool) l l' : Permutation l l' -> length (filter p l) = length (filter p l').
Proof.
  induction 1; cbn [filter]; try reflexivity.
  - destruct (p x); cbn [length]; now rewrite IHPermutation.
  - destruct (p x), (p y); reflexivity.
  - congruence.
Qed.

Lemma count_map {A B} (p : B -> bool) (f : A -> B) l :
  length (filter p (map f l)) = length (filter (fun x => p (f x)) l).
Proof. induction l as [|a l IH]; cbn [map filter]; [reflexivity|]. destruct (p (f a)); cbn [length]; now rewrite IH. Qed.

Lemma count_ext {A} (p q : A -> bool) l : (forall x, In x l -> p x = q x) ->
  length (filter p l) = length (filter q l).
Proof. intros H. f_equal. now apply filter_ext_in. Qed.

Lemma count_negb {A} (p : A -> bool) l :
  (length (filter (fun x => negb (p x)) l) + length (filter p l) = length l)%nat.
Proof. induction l as [|a l IH]; cbn [filter length]; [reflexivity|]. destruct (p a); cbn [negb length]; lia. Qed.

Lemma all_bytes_NoDup : NoDup all_bytes.
Proof. unfold all_bytes. apply FinFun.Injective_map_NoDup; [intros a b E; lia|apply seq_NoDup]. Qed.

Lemma gmul_perm g : 0 < g < 256 -> Permutation (map (gmul g) all_bytes) all_bytes.
Proof.
  intros Hg. apply NoDup_Permutation_bis.
  - assert (D : forall l, NoDup l -> (forall x, In x l -> x < 256) -> NoDup (map (gmul g) l)).
    { induction 1 as [|a l Ha HN IH]; intros Hl; cbn [map]; constructor.
      - intros Hi. apply in_map_iff in Hi as (y & E & Hy). apply Ha.
        assert (y = a); [|now subst].
        assert (Ly : y < 256) by (apply Hl; now right). assert (La : a < 256) by (apply Hl; now left).
        assert (E2 : gmul (ginv g) (gmul g y) = gmul (ginv g) (gmul g a)) by now rewrite E.
        pose proof (ginv_lt g). pose proof (ginv_spec g Hg) as S.
        rewrite <- !gmul_assoc, (gmul_comm (ginv g)), S, !gmul_1_l in E2 by lia. exact E2.
      - apply IH. intros x Hx. apply Hl. now right. }
    apply D; [apply all_bytes_NoDup|]. intros x. apply all_bytes_lt.
  - rewrite map_length. lia.
  - intros x Hx. apply in_map_iff in Hx as (y & <- & Hy). apply in_all_bytes, gmul_lt; [lia|now apply all_bytes_lt].
Qed.

(** ** The inverse in the field *)

Definition inv_table : list (N * N) := map (fun x => (x, ginv x)) all_bytes.

Definition in_table (t : list (N * N)) (u v : N) : nat :=
  length (filter (fun p => Bool.eqb (dot u (fst p)) (dot v (snd p))) t).

Definition inv_agreements (u v : N) : nat :=
  length (filter (fun x => Bool.eqb (dot u x) (dot v (ginv x))) all_bytes).

Lemma in_table_eq u v : in_table inv_table u v = inv_agreements u v.
Proof. unfold in_table, inv_agreements, inv_table. now rewrite count_map. Qed.

Definition near (n : nat) : bool := andb (Nat.leb 112 n) (Nat.leb n 144).

Lemma inv_sweep :
  (fun t => forallb (fun v => orb (v =? 0) (andb (near (in_table t 0 v)) (near (in_table t 1 v)))) all_bytes) inv_table = true.
Proof. vm_compute. reflexivity. Qed.

(** Every mask is the mask 1 after a multiplication. *)
Definition masks : list N := map (fun h => mask_of (fun x => dot 1 (gmul h x))) all_bytes.

Lemma mask_sweep : (fun ms => forallb (fun u => existsb (N.eqb u) ms) all_bytes) masks = true.
Proof. vm_compute. reflexivity. Qed.

Lemma linear_gmul w h : linear (fun x => dot w (gmul h x)).
Proof. intros x y _ _. rewrite gmul_linear. apply dot_xor_r. Qed.

Lemma dot_0_r u : dot u 0 = false.
Proof. apply (linear_0 (dot u)). intros x y _ _. apply dot_xor_r. Qed.

Lemma mask_mul u : 0 < u < 256 -> exists h, 0 < h < 256 /\ forall x, x < 256 -> dot u x = dot 1 (gmul h x).
Proof.
  intros Hu. pose proof (sweep _ mask_sweep u (proj2 Hu)) as H. cbv beta in H.
  apply existsb_exists in H as (m & Hm & E). apply N.eqb_eq in E. subst m.
  unfold masks in Hm. apply in_map_iff in Hm as (h & E & Hh). apply all_bytes_lt in Hh.
  assert (D : forall x, x < 256 -> dot u x = dot 1 (gmul h x)).
  { apply linear_ext; [intros x y _ _; apply dot_xor_r|apply linear_gmul|].
    rewrite mask_of_mask8 in E.
    pose proof (mask8_dot (dot 1 (gmul h 1)) (dot 1 (gmul h 2)) (dot 1 (gmul h 4)) (dot 1 (gmul h 8))
      (dot 1 (gmul h 16)) (dot 1 (gmul h 32)) (dot 1 (gmul h 64)) (dot 1 (gmul h 128)))
      as (_ & E0 & E1 & E2 & E3 & E4 & E5 & E6 & E7).
    rewrite E in E0, E1, E2, E3, E4, E5, E6, E7.
    intros i Hi. repeat (destruct Hi as [<-|Hi]; [assumption|]). destruct Hi. }
  exists h. split; [|exact D]. split; [|exact Hh].
  destruct (N.eq_dec h 0) as [->|]; [|lia]. exfalso.
  assert (Z : mask_of (fun x => dot 1 (gmul 0 x)) = 0) by (vm_compute; reflexivity).
  rewrite Z in E. lia.
Qed.

Lemma nonzero_mask w : 0 < w < 256 -> exists x, x < 256 /\ dot w x = true.
Proof.
  intros Hw.
  assert (S : forallb (fun w => orb (w =? 0) (existsb (dot w) basis)) all_bytes = true) by (vm_compute; reflexivity).
  pose proof (sweep _ S w (proj2 Hw)) as H. cbv beta in H.
  apply Bool.orb_true_iff in H as [H|H]; [lia|].
  apply existsb_exists in H as (x & Hx & E). exists x. split; [|exact E].
  unfold basis in Hx. repeat (destruct Hx as [<-|Hx]; [reflexivity|]). destruct Hx.
Qed.

Lemma mask_nonzero w (f : N -> bool) y : (forall x, x < 256 -> f x = dot w x) -> y < 256 -> f y = true -> w < 256 -> 0 < w < 256.
Proof.
  intros H Ly E L. split; [|exact L]. destruct (N.eq_dec w 0) as [->|]; [|lia]. exfalso.
  rewrite H in E by exact Ly. unfold dot in E. cbn [fold_left] in E. rewrite !N.bits_0 in E. discriminate E.
Qed.

Lemma base_near w : 0 < w < 256 ->
  (112 <= inv_agreements 0 w <= 144)%nat /\ (112 <= inv_agreements 1 w <= 144)%nat.
Proof.
  intros Hw. pose proof (sweep _ inv_sweep w (proj2 Hw)) as H. cbv beta in H.
  apply Bool.orb_true_iff in H as [H|H]; [lia|].
  rewrite !in_table_eq in H. revert H. generalize (inv_agreements 0 w) (inv_agreements 1 w).
  intros a b H. unfold near in H. lia.
Qed.

Lemma subst_agree h u v w : 0 < h < 256 -> 0 < ginv h < 256 -> gmul h (ginv h) = 1 -> ginv (ginv h) = h ->
  (forall x, x < 256 -> dot u x = dot 1 (gmul h x)) -> (forall x, x < 256 -> dot v (gmul h x) = dot w x) ->
  inv_agreements u v = inv_agreements 1 w.
Proof.
  intros Hh Hg Si II D W. unfold inv_agreements.
  rewrite <- (perm_count (fun x => Bool.eqb (dot u x) (dot v (ginv x))) _ _ (gmul_perm (ginv h) Hg)), count_map.
  apply count_ext. intros y Hy. apply all_bytes_lt in Hy.
  rewrite D by now apply gmul_lt.
  rewrite <- gmul_assoc, Si, gmul_1_l by lia.
  rewrite ginv_mul, II by lia. rewrite <- W by apply ginv_lt. reflexivity.
Qed.

Lemma inv_near u v : u < 256 -> 0 < v < 256 -> (112 <= inv_agreements u v <= 144)%nat.
Proof.
  intros Hu Hv.
  destruct (N.eq_dec u 0) as [->|Nu]; [exact (proj1 (base_near v Hv))|].
  destruct (mask_mul u) as (h & Hh & D); [lia|].
  (* the substitution x = (1/h) y *)
  pose proof (ginv_lt h) as Li. pose proof (ginv_spec h Hh) as Si.
  assert (Hg : 0 < ginv h < 256).
  { split; [|exact Li]. destruct (N.eq_dec (ginv h) 0) as [E|]; [|lia].
    rewrite E, gmul_0_r in Si by lia. discriminate Si. }
  assert (II : ginv (ginv h) = h).
  { apply ginv_eq; [exact Hg|lia|]. rewrite gmul_comm by lia. exact Si. }
  destruct (linear_mask (fun x => dot v (gmul h x)) (linear_gmul v h)) as (w & Lw & W).
  assert (Hw : 0 < w < 256).
  { destruct (nonzero_mask v Hv) as (y & Ly & Ey).
    apply (mask_nonzero w (fun x => dot v (gmul h x)) (gmul (ginv h) y)); [exact W|now apply gmul_lt| |exact Lw].
    rewrite <- gmul_assoc, Si, gmul_1_l by lia. exact Ey. }
  rewrite (subst_agree h u v w Hh Hg Si II D W). exact (proj2 (base_near w Hw)).
Qed.

Transparent sub_byte.
Lemma sub_byte_affine x : sub_byte x = affine (ginv x).
Proof. reflexivity. Qed.
Opaque sub_byte.

Lemma affine_lin y : affine y = N.lxor (lin y) 0x63.
Proof. unfold lin. now rewrite N.lxor_assoc, N.lxor_nilpotent, N.lxor_0_r. Qed.

Definition lin_table : list N := map lin all_bytes.

Lemma lin_onto_sweep : (fun t => forallb (fun y => existsb (N.eqb y) t) all_bytes) lin_table = true.
Proof. vm_compute. reflexivity. Qed.

Lemma lin_onto y : y < 256 -> exists x, x < 256 /\ lin x = y.
Proof.
  intros Ly. pose proof (sweep _ lin_onto_sweep y Ly) as H. cbv beta in H.
  apply existsb_exists in H as (z & Hz & E). apply N.eqb_eq in E. unfold lin_table in Hz.
  apply in_map_iff in Hz as (x & Ex & Hx). exists x. split; [now apply all_bytes_lt|congruence].
Qed.

Lemma lin_mask v : 0 < v < 256 -> exists w, 0 < w < 256 /\ forall x, x < 256 -> dot v (lin x) = dot w x.
Proof.
  intros Hv.
  assert (HL : linear (fun x => dot v (lin x))).
  { intros x y Hx Hy. rewrite lin_add by assumption. apply dot_xor_r. }
  destruct (linear_mask _ HL) as (w & Lw & W). exists w. split; [|exact W].
  destruct (nonzero_mask v Hv) as (y & Ly & Ey). destruct (lin_onto y Ly) as (x & Lx & Ex).
  apply (mask_nonzero w (fun x => dot v (lin x)) x); [exact W|exact Lx| |exact Lw]. now rewrite Ex.
Qed.

Lemma dot_sub v w x : (forall x, x < 256 -> dot v (lin x) = dot w x) ->
  dot v (sub_byte x) = xorb (dot w (ginv x)) (dot v 0x63).
Proof. intros W. rewrite <- W by apply ginv_lt. rewrite <- dot_xor_r, sub_byte_affine, affine_lin. reflexivity. Qed.

Lemma agree_either u v w : (forall x, dot v (sub_byte x) = xorb (dot w (ginv x)) (dot v 0x63)) ->
  agreements sub_byte u v = inv_agreements u w \/ (agreements sub_byte u v + inv_agreements u w = 256)%nat.
Proof.
  intros Z. unfold agreements, inv_agreements. fold all_bytes.
  assert (L : length all_bytes = 256%nat) by reflexivity. revert L. generalize all_bytes as l. intros l L.
  destruct (dot v 0x63).
  - right. rewrite <- L, <- (count_negb (fun x => Bool.eqb (dot u x) (dot w (ginv x))) l). f_equal.
    apply count_ext. intros x _. rewrite Z. destruct (dot u x), (dot w (ginv x)); reflexivity.
  - left. apply count_ext. intros x _. rewrite Z. now rewrite Bool.xorb_false_r.
Qed.

Lemma sbox_linear u v : u < 256 -> 0 < v < 256 -> (112 <= agreements sub_byte u v <= 144)%nat.
Proof.
  intros Hu Hv. destruct (lin_mask v Hv) as (w & Hw & W).
  pose proof (inv_near u w Hu Hw) as HN.
  pose proof (agree_either u v w (fun x => dot_sub v w x W)) as HE.
  revert HN HE. generalize (agreements sub_byte u v) (inv_agreements u w). clear. lia.
Qed.

(** ** The table of the code *)

Lemma fore_lookup x : x < 256 -> idx (forward SBOX) (ix x) = Ok (fore x).
Proof. intros H. rewrite forward_lookup, sub_byte_fore by exact H. reflexivity. Qed.

Lemma agreements_ext f g u v : (forall x, x < 256 -> f x = g x) -> agreements f u v = agreements g u v.
Proof.
  intros H. unfold agreements. fold all_bytes. apply count_ext. intros x Hx.
  rewrite H by now apply all_bytes_lt. reflexivity.
Qed.

Lemma sbox_code_linear u v : u < 256 -> 0 < v < 256 -> (112 <= agreements fore u v <= 144)%nat.
Proof. intros Hu Hv. rewrite <- (agreements_ext sub_byte fore u v sub_byte_fore). exact (sbox_linear u v Hu Hv). Qed.

Lemma some_in {A} (p : A -> bool) l : (1 <= length (filter p l))%nat -> exists x, In x l /\ p x = true.
Proof.
  destruct (filter p l) as [|x r] eqn:E; cbn [length]; [lia|]. intros _. exists x.
  apply filter_In. rewrite E. now left.
Qed.

Lemma both_in {A} (p : A -> bool) l : length l = 256%nat -> (112 <= length (filter p l) <= 144)%nat ->
  (exists x, In x l /\ p x = true) /\ (exists x, In x l /\ negb (p x) = true).
Proof. intros L H. pose proof (count_negb p l). split; apply some_in; lia. Qed.

Lemma agreements_eq f u v : agreements f u v = length (filter (fun x => Bool.eqb (dot u x) (dot v (f x))) all_bytes).
Proof. reflexivity. Qed.

Lemma sbox_not_affine u v b : u < 256 -> 0 < v < 256 ->
  exists x, x < 256 /\ dot v (fore x) <> xorb (dot u x) b.
Proof.
  intros Hu Hv. pose proof (sbox_code_linear u v Hu Hv) as H. rewrite agreements_eq in H.
  destruct (both_in _ all_bytes eq_refl H) as [(x & Hx & E) (y & Hy & E')].
  destruct b; [exists x|exists y]; (split; [now apply all_bytes_lt|]).
  - apply Bool.eqb_prop in E. rewrite <- E. destruct (dot u x); discriminate.
  - revert E'. generalize (dot v (fore y)). intros c. destruct (dot u y), c; discriminate.
Qed.

Lemma linear_attained : exists u v u' v', u < 256 /\ 0 < v < 256 /\ u' < 256 /\ 0 < v' < 256 /\
  agreements fore u v = 112%nat /\ agreements fore u' v' = 144%nat.
Proof.
  exists 1, 72, 1, 136. split; [reflexivity|]. split; [split; reflexivity|]. split; [reflexivity|].
  split; [split; reflexivity|]. split; vm_compute; reflexivity.
Qed.
