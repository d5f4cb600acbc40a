(** * Proofs for C133: how many tables of RC4 have the second byte 0 *)
From Coq Require Import ZifyBool ZifyNat ZifyN Permutation.
From Verif Require Import Base BaseLemmas ModelBlock ModelRc SpecBlock SpecRc SpecMantin
  ProofRc4 ProofKeys ProofMantin.
Local Open Scope N_scope.

(** ** Exchange of two values *)

Definition other (v w x : N) : N := if x =? v then w else if x =? w then v else x.
Definition values (v w : N) (s : list N) : list N := map (other v w) s.

Lemma other_twice v w x : other v w (other v w x) = x.
Proof.
  unfold other. destruct (N.eqb_spec x v) as [->|A].
  - rewrite N.eqb_refl. destruct (N.eqb_spec w v); congruence.
  - destruct (N.eqb_spec x w) as [->|B]; [now rewrite N.eqb_refl|].
    now rewrite (proj2 (N.eqb_neq _ _) A), (proj2 (N.eqb_neq _ _) B).
Qed.

Lemma other_same v w x : x <> v -> x <> w -> other v w x = x.
Proof. intros A B. unfold other. now rewrite (proj2 (N.eqb_neq _ _) A), (proj2 (N.eqb_neq _ _) B). Qed.

Lemma other_left v w : other v w v = w.
Proof. unfold other. now rewrite N.eqb_refl. Qed.

Lemma other_right v w : other v w w = v.
Proof. unfold other. rewrite N.eqb_refl. destruct (N.eqb_spec w v); congruence. Qed.

Lemma values_twice v w s : values v w (values v w s) = s.
Proof. unfold values. rewrite map_map. rewrite <- (map_id s) at 2. apply map_ext. apply other_twice. Qed.

Lemma values_nth v w s i : (i < length s)%nat -> nth i (values v w s) 0 = other v w (nth i s 0).
Proof.
  intros H. unfold values. rewrite (nth_indep _ 0 (other v w 0)) by now rewrite map_length. apply map_nth.
Qed.

Definition iota : list N := map N.of_nat (seq 0 256).

Lemma iota_In x : In x iota <-> x < 256.
Proof.
  unfold iota. rewrite in_map_iff. split.
  - intros (i & <- & Hi). apply in_seq in Hi. lia.
  - intros H. exists (N.to_nat x). split; [lia|]. apply in_seq. lia.
Qed.

Lemma iota_NoDup : NoDup iota.
Proof. apply FinFun.Injective_map_NoDup; [intros x y; lia|apply seq_NoDup]. Qed.

Lemma iota_length : length iota = 256%nat.
Proof. reflexivity. Qed.

Lemma values_table v w s : v < 256 -> w < 256 -> rc4_table_ok s -> rc4_table_ok (values v w s).
Proof.
  intros Hv Hw T. unfold rc4_table_ok. fold iota. apply Permutation_trans with (values v w iota).
  - apply NoDup_Permutation; [apply iota_NoDup| |].
    + apply FinFun.Injective_map_NoDup; [|apply iota_NoDup]. intros x y E.
      rewrite <- (other_twice v w x), <- (other_twice v w y). now rewrite E.
    + intros x. unfold values. rewrite iota_In, in_map_iff. split.
      * intros H. exists (other v w x). split; [apply other_twice|]. apply iota_In.
        unfold other. destruct (x =? v); [auto|]. destruct (x =? w); auto.
      * intros (y & <- & H). apply iota_In in H. unfold other. destruct (y =? v); [auto|]. destruct (y =? w); auto.
  - now apply Permutation_map.
Qed.

(** ** Counting *)

Local Opaque iota.

Lemma NoDup_append {A} (l l' : list A) : NoDup l -> NoDup l' -> (forall x, In x l -> In x l' -> False) -> NoDup (l ++ l').
Proof.
  intros H H' D. induction H as [|a l Ha H IH]; [exact H'|]. cbn [app]. constructor.
  - intros X. apply in_app_or in X as [X|X]; [auto|]. apply (D a); [now left|exact X].
  - apply IH. intros x Hx. apply D. now right.
Qed.

Lemma NoDup_prod {A B} (l : list A) (l' : list B) : NoDup l -> NoDup l' -> NoDup (list_prod l l').
Proof.
  intros H H'. induction H as [|a l Ha H IH]; cbn [list_prod]; [constructor|].
  apply NoDup_append; auto.
  - apply FinFun.Injective_map_NoDup; auto. intros x y E. congruence.
  - intros (x, y) H1 H2. apply in_map_iff in H1 as (z & E & _). apply in_prod_iff in H2 as [H2 _]. congruence.
Qed.

Lemma inject {A B} (f : A -> B) (l : list A) (l' : list B) : NoDup l ->
  (forall x y, In x l -> In y l -> f x = f y -> x = y) -> (forall x, In x l -> In (f x) l') ->
  (length l <= length l')%nat.
Proof.
  intros N1 I H. rewrite <- (map_length f l). apply NoDup_incl_length.
  - clear H. induction N1 as [|a l Ha N1 IH]; cbn [map]; constructor.
    + intros X. apply in_map_iff in X as (y & E & Hy). apply Ha. rewrite <- (I y a); [exact Hy|now right|now left|exact E].
    + apply IH. intros x y Hx Hy. apply I; now right.
  - intros y Hy. apply in_map_iff in Hy as (x & <- & Hx). auto.
Qed.

Lemma filter_split {A} (p : A -> bool) l :
  length l = (length (filter p l) + length (filter (fun x => negb (p x)) l))%nat.
Proof. induction l as [|a l IH]; [reflexivity|]. cbn [filter]. destruct (p a); cbn [length negb]; lia. Qed.

Lemma filter_le {A} (p q : A -> bool) l : (forall x, In x l -> p x = true -> q x = true) ->
  (length (filter p l) <= length (filter q l))%nat.
Proof.
  intros H. induction l as [|a l IH]; [constructor|]. cbn [filter].
  specialize (IH ltac:(intros; apply H; auto; now right)). pose proof (H a (or_introl eq_refl)) as Ha.
  destruct (p a); [rewrite Ha by reflexivity; cbn [length]; lia|]. destruct (q a); cbn [length]; lia.
Qed.

(** What none of [es] holds for. *)
Lemma union {A} (es : list (A -> bool)) l :
  (length l <= length (filter (fun x => negb (existsb (fun e => e x) es)) l) +
    list_sum (map (fun e => length (filter e l)) es))%nat.
Proof.
  induction es as [|e es IH]; cbn [existsb map].
  - change (list_sum []) with O. rewrite Nat.add_0_r. rewrite <- (filter_le (fun _ => true)); [|reflexivity].
    clear. induction l; cbn [filter length]; lia.
  - change (list_sum (?a :: ?b)) with (a + list_sum b)%nat.
    enough (length (filter (fun x => negb (existsb (fun e => e x) es)) l) <=
      length (filter (fun x => negb (e x || existsb (fun e => e x) es)) l) + length (filter e l))%nat by lia.
    clear. induction l as [|a l IH]; [constructor|]. cbn [filter].
    destruct (e a), (existsb (fun e => e a) es); cbn [orb negb length]; lia.
Qed.

Definition allowed (avoid : list N) : list N := filter (fun w => negb (existsb (N.eqb w) avoid)) iota.

Lemma allowed_In avoid w : In w (allowed avoid) <-> w < 256 /\ ~ In w avoid.
Proof.
  unfold allowed. rewrite filter_In, iota_In, negb_true_iff. split; intros [A B]; split; auto.
  - intros H. rewrite <- not_true_iff_false in B. apply B. apply existsb_exists. exists w. split; [auto|apply N.eqb_refl].
  - apply not_true_iff_false. intros H. apply existsb_exists in H as (y & Hy & E). apply N.eqb_eq in E. congruence.
Qed.

Lemma allowed_length avoid : (length avoid <= 2)%nat -> (254 <= length (allowed avoid))%nat.
Proof.
  intros H. pose proof (filter_split (fun w => existsb (N.eqb w) avoid) iota) as S. rewrite iota_length in S.
  change (filter (fun x => negb (existsb (N.eqb x) avoid)) iota) with (allowed avoid) in S.
  enough (length (filter (fun w => existsb (N.eqb w) avoid) iota) <= length avoid)%nat by lia.
  apply NoDup_incl_length; [apply NoDup_filter, iota_NoDup|]. intros w Hw. apply filter_In in Hw as [_ Hw].
  apply existsb_exists in Hw as (y & Hy & E). apply N.eqb_eq in E. congruence.
Qed.

Section Tables.
Context (all : list (list N)).
Context (Hall : NoDup all) (Hin : forall t, In t all <-> rc4_table_ok t).

(** One of at least 254 values at a position that the exchange of values does not
    change. *)
Lemma few (e : list N -> bool) (pos : list N -> nat) (val : list N -> N) (avoid : list N -> list N) :
  (forall s, In s all -> e s = true -> (pos s < 256)%nat /\ val s < 256 /\ nth (pos s) s 0 = val s /\
    (length (avoid s) <= 2)%nat /\ forall w, w < 256 -> ~ In w (avoid s) ->
      pos (values (val s) w s) = pos s /\ val (values (val s) w s) = val s) ->
  (254 * length (filter e all) <= length all)%nat.
Proof using Hall Hin.
  intros H.
  assert (W : forall s k, In s all -> e s = true -> (k < 254)%nat ->
    nth k (allowed (avoid s)) 0 < 256 /\ ~ In (nth k (allowed (avoid s)) 0) (avoid s)).
  { intros s k Hs He Hk. apply allowed_In. apply nth_In.
    destruct (H s Hs He) as (_ & _ & _ & L & _). apply allowed_length in L. lia. }
  rewrite Nat.mul_comm. rewrite <- (seq_length 254 0) at 1. rewrite <- prod_length.
  apply (inject (fun p => values (val (fst p)) (nth (snd p) (allowed (avoid (fst p))) 0) (fst p))).
  - apply NoDup_prod; [now apply NoDup_filter|apply seq_NoDup].
  - intros (s, k) (s', k') A B. apply in_prod_iff in A as [A1 A2], B as [B1 B2]. cbn [fst snd].
    apply filter_In in A1 as [A1 Ae], B1 as [B1 Be]. apply in_seq in A2, B2.
    destruct (H s A1 Ae) as (P1 & P2 & P3 & P4 & P5). destruct (H s' B1 Be) as (Q1 & Q2 & Q3 & Q4 & Q5).
    destruct (W s k A1 Ae ltac:(lia)) as [W1 W2]. destruct (W s' k' B1 Be ltac:(lia)) as [X1 X2].
    destruct (P5 _ W1 W2) as [P6 P7]. destruct (Q5 _ X1 X2) as [Q6 Q7].
    pose proof (table_length s (proj1 (Hin s) A1)) as Ls. pose proof (table_length s' (proj1 (Hin s') B1)) as Ls'.
    intros E.
    assert (V : val s = val s') by (rewrite <- P7, <- Q7; now rewrite E).
    assert (U : pos s = pos s') by (rewrite <- P6, <- Q6; now rewrite E).
    assert (Wk : nth k (allowed (avoid s)) 0 = nth k' (allowed (avoid s')) 0).
    { apply (f_equal (fun t => nth (pos s) t 0)) in E. rewrite !values_nth in E by lia.
      rewrite P3, U, Q3 in E. now rewrite !other_left in E. }
    assert (S : s = s').
    { rewrite <- (values_twice (val s) (nth k (allowed (avoid s)) 0) s), E, V, Wk. apply values_twice. }
    subst s'. f_equal.
    apply allowed_length in P4. apply (proj1 (NoDup_nth (allowed (avoid s)) 0)); [|lia|lia|exact Wk].
    apply NoDup_filter, iota_NoDup.
  - intros (s, k) A. apply in_prod_iff in A as [A1 A2]. cbn [fst snd].
    apply filter_In in A1 as [A1 Ae]. apply in_seq in A2.
    destruct (H s A1 Ae) as (_ & P2 & _). destruct (W s k A1 Ae ltac:(lia)) as [W1 _].
    apply Hin. apply values_table; auto. now apply Hin.
Qed.

Definition ev1 (v : N) (s : list N) : bool := nth 1 s 0 =? v.
Definition ev2 (f : N -> N) (s : list N) : bool := nth 2 s 0 =? f (nth 1 s 0).
Definition place (s : list N) : nat := N.to_nat ((nth 1 s 0 + nth 2 s 0) mod 256).
Definition ev3 (f : N -> N -> N) (s : list N) : bool :=
  negb (place s =? 1)%nat && negb (place s =? 2)%nat && (nth (place s) s 0 =? f (nth 1 s 0) (nth 2 s 0)).

Lemma few1 v : v < 256 -> (254 * length (filter (ev1 v) all) <= length all)%nat.
Proof using Hall Hin.
  intros Hv. apply (few _ (fun _ => 1%nat) (fun _ => v) (fun _ => [])). intros s Hs He.
  apply N.eqb_eq in He. repeat split; auto; cbn [length]; lia.
Qed.

Lemma few2 f : (254 * length (filter (ev2 f) all) <= length all)%nat.
Proof using Hall Hin.
  apply (few _ (fun _ => 2%nat) (fun s => f (nth 1 s 0)) (fun s => [nth 1 s 0])). intros s Hs He.
  apply N.eqb_eq in He. apply Hin in Hs. pose proof (table_nth s 2 Hs) as H2. pose proof (table_length s Hs) as L.
  pose proof (table_distinct s 1 2 Hs ltac:(lia) ltac:(lia) ltac:(lia)) as D.
  rewrite <- He. repeat split; auto; cbn [length]; try lia.
  rewrite values_nth by lia. rewrite other_same; auto. intros E. apply H0. now left.
Qed.

Lemma place_lt s : (place s < 256)%nat.
Proof. unfold place. pose proof (N.mod_lt (nth 1 s 0 + nth 2 s 0) 256). lia. Qed.

Lemma few3 f : (254 * length (filter (ev3 f) all) <= length all)%nat.
Proof using Hall Hin.
  apply (few _ place (fun s => f (nth 1 s 0) (nth 2 s 0)) (fun s => [nth 1 s 0; nth 2 s 0])). intros s Hs He.
  apply andb_prop in He as [He E3]. apply andb_prop in He as [E1 E2]. apply N.eqb_eq in E3.
  apply negb_true_iff, Nat.eqb_neq in E1, E2. apply Hin in Hs. pose proof (place_lt s) as Pl.
  pose proof (table_nth s (place s) Hs) as H2. pose proof (table_length s Hs) as L.
  pose proof (table_distinct s 1 (place s) Hs ltac:(lia) Pl ltac:(lia)) as D1.
  pose proof (table_distinct s 2 (place s) Hs ltac:(lia) Pl ltac:(lia)) as D2.
  rewrite <- E3. split; [exact Pl|]. split; [exact H2|]. split; [reflexivity|]. split; [cbn [length]; lia|].
  intros w Hw Nw.
  assert (F1 : nth 1 (values (nth (place s) s 0) w s) 0 = nth 1 s 0).
  { rewrite values_nth by lia. rewrite other_same; auto. intros E. apply Nw. now left. }
  assert (F2 : nth 2 (values (nth (place s) s 0) w s) 0 = nth 2 s 0).
  { rewrite values_nth by lia. rewrite other_same; auto. intros E. apply Nw. right. now left. }
  set (v := nth (place s) s 0) in *. clearbody v. split; [unfold place|]; rewrite F1, F2; [reflexivity|now symmetry].
Qed.

(** ** Tables where three entries decide which one is the output *)

Definition target (s : list N) : nat := N.to_nat ((nth 2 s 0 + nth (place s) s 0) mod 256).

Definition route (s : list N) : Prop :=
  nth 1 s 0 <> 2 /\ place s <> 1%nat /\ place s <> 2%nat /\ place s <> N.to_nat (nth 1 s 0) /\
  target s <> 1%nat /\ target s <> 2%nat /\ target s <> N.to_nat (nth 1 s 0) /\ target s <> place s.

Lemma target_lt s : (target s < 256)%nat.
Proof. unfold target. pose proof (N.mod_lt (nth 2 s 0 + nth (place s) s 0) 256). lia. Qed.

Lemma route_second s : rc4_table_ok s -> route s -> second s = nth (target s) s 0.
Proof.
  intros T (R1 & R2 & R3 & R4 & R5 & R6 & R7 & R8). rewrite second_form. cbv zeta.
  pose proof (table_length s T) as L. pose proof (table_nth s 1 T) as Ha. pose proof (place_lt s) as Lp.
  pose proof (target_lt s) as Lt.
  rewrite (N.mod_small (nth 1 s 0)) by lia.
  set (s1 := exchange s 1 (N.to_nat (nth 1 s 0))).
  assert (L1 : length s1 = 256%nat) by (unfold s1; now rewrite exchange_length).
  assert (Same : forall i, (i < 256)%nat -> i <> 1%nat -> i <> N.to_nat (nth 1 s 0) -> nth i s1 0 = nth i s 0).
  { intros i Hi A B. unfold s1. rewrite nth_exchange by lia.
    now rewrite (proj2 (Nat.eqb_neq _ _) A), (proj2 (Nat.eqb_neq _ _) B). }
  rewrite (Same 2%nat) by lia. fold (place s).
  set (s2 := exchange s1 2 (place s)).
  assert (X2 : nth 2 s2 0 = nth (place s) s 0).
  { unfold s2. rewrite nth_exchange by lia. cbn [Nat.eqb]. now apply Same. }
  assert (Xp : nth (place s) s2 0 = nth 2 s 0).
  { unfold s2. rewrite nth_exchange by lia. rewrite (proj2 (Nat.eqb_neq _ _) R3), Nat.eqb_refl. apply Same; lia. }
  rewrite X2, Xp. rewrite (N.add_comm (nth (place s) s 0)). fold (target s).
  unfold s2. rewrite nth_exchange by lia.
  rewrite (proj2 (Nat.eqb_neq _ _) R6), (proj2 (Nat.eqb_neq _ _) R8). now apply Same.
Qed.

Definition sub (a b : N) : N := (a + 256 - b) mod 256.
Definition bad : list (list N -> bool) :=
  [ev1 2; ev1 0; ev2 (sub 1); ev2 (sub 2); ev2 (fun _ => 0); ev3 (fun _ _ => 0); ev3 (fun _ b => sub 1 b);
   ev3 (fun _ b => sub 2 b); ev3 (fun a b => sub a b); ev3 (fun a _ => a)].
Definition good (s : list N) : bool := negb (existsb (fun e => e s) bad).

Lemma mod_cases x y : x < 256 -> y < 256 ->
  (x + y) mod 256 = (if x + y <? 256 then x + y else x + y - 256).
Proof.
  intros Hx Hy. destruct (N.ltb_spec (x + y) 256); [now apply N.mod_small|].
  symmetry. apply (N.mod_unique _ _ 1); lia.
Qed.

Lemma sub_cases x y : x < 256 -> y < 256 -> sub x y = (if x <? y then x + 256 - y else x - y).
Proof.
  intros Hx Hy. unfold sub. destruct (N.ltb_spec x y); [apply N.mod_small; lia|].
  symmetry. apply (N.mod_unique _ _ 1); lia.
Qed.

Ltac cases := repeat match goal with
  | H : context [if (?x <? ?y) then _ else _] |- _ => destruct (N.ltb_spec x y)
  end; lia.

Lemma good_route s : rc4_table_ok s -> good s = true ->
  route s /\ nth 1 s 0 <> 0 /\ nth 2 s 0 <> 0 /\ nth (place s) s 0 <> 0.
Proof.
  intros T G. apply negb_true_iff in G. unfold bad in G. cbn [existsb] in G.
  repeat rewrite orb_false_iff in G. destruct G as (G1 & G2 & G3 & G4 & G5 & G6 & G7 & G8 & G9 & G10 & _).
  unfold ev1, ev2 in *. pose proof (table_nth s 1 T) as H1. pose proof (table_nth s 2 T) as H2.
  pose proof (table_nth s (place s) T) as H3.
  assert (Pv : N.of_nat (place s) = (nth 1 s 0 + nth 2 s 0) mod 256) by (unfold place; lia).
  assert (Tv : N.of_nat (target s) = (nth 2 s 0 + nth (place s) s 0) mod 256) by (unfold target; lia).
  rewrite mod_cases in Pv, Tv by auto. rewrite !sub_cases in G3, G4 by lia.
  assert (P1 : place s <> 1%nat) by (clear Tv; cases).
  assert (P2 : place s <> 2%nat) by (clear Tv; cases).
  unfold ev3 in *. rewrite (proj2 (Nat.eqb_neq _ _) P1), (proj2 (Nat.eqb_neq _ _) P2) in *. cbn [negb andb] in *.
  rewrite !sub_cases in G7, G8, G9 by lia.
  set (a := nth 1 s 0) in *. set (b := nth 2 s 0) in *. set (c := nth (place s) s 0) in *.
  unfold route. fold a. 
  assert (Tp : target s <> place s) by (clear G3 G4 G7 G8 G9; cases).
  assert (T1 : target s <> 1%nat) by (clear Pv G3 G4 G8 G9; cases).
  assert (T2 : target s <> 2%nat) by (clear Pv G3 G4 G7 G9; cases).
  assert (Ta : target s <> N.to_nat a) by (clear Pv G3 G4 G7 G8; cases).
  assert (Pa : place s <> N.to_nat a) by (clear Tv G3 G4 G7 G8 G9; cases).
  repeat split; auto; lia.
Qed.

(** The exchange of 0 and the output. *)
Lemma zero_output s : rc4_table_ok s -> good s = true -> let z := second s in
  second (values 0 z s) = 0 /\ nth 2 (values 0 z s) 0 <> 0 /\ z < 256.
Proof.
  intros T G z. destruct (good_route s T G) as (R & Z1 & Z2 & Z3).
  assert (Ez : z = nth (target s) s 0) by now apply route_second.
  pose proof (table_nth s (target s) T) as Hz. rewrite <- Ez in Hz.
  pose proof (table_length s T) as L. pose proof (place_lt s) as Lp. pose proof (target_lt s) as Lt.
  pose proof R as (R1 & R2 & R3 & R4 & R5 & R6 & R7 & R8).
  assert (F : forall i, (i < 256)%nat -> i <> target s -> nth i s 0 <> 0 -> nth i (values 0 z s) 0 = nth i s 0).
  { intros i Hi A B. rewrite values_nth by lia. apply other_same; auto. rewrite Ez. now apply table_distinct. }
  assert (F1 : nth 1 (values 0 z s) 0 = nth 1 s 0) by (apply F; auto; lia).
  assert (F2 : nth 2 (values 0 z s) 0 = nth 2 s 0) by (apply F; auto; lia).
  assert (Fp : place (values 0 z s) = place s) by (unfold place; now rewrite F1, F2).
  assert (F3 : nth (place s) (values 0 z s) 0 = nth (place s) s 0) by (apply F; auto).
  assert (Ft : target (values 0 z s) = target s) by (unfold target; now rewrite Fp, F2, F3).
  assert (T' : rc4_table_ok (values 0 z s)) by (apply values_table; auto; lia).
  split; [|split; [now rewrite F2|exact Hz]].
  rewrite route_second; auto.
  - rewrite Ft, values_nth by lia. rewrite <- Ez. apply other_right.
  - unfold route. rewrite Fp, Ft, F1. exact R.
Qed.

Definition partA (s : list N) : bool := (nth 2 s 0 =? 0) && negb (nth 1 s 0 =? 2).
Definition partB (s : list N) : bool := negb (nth 2 s 0 =? 0) && (second s =? 0).

Lemma countB : (length (filter good all) <= 256 * length (filter partB all))%nat.
Proof using Hall Hin.
  rewrite <- iota_length, <- prod_length.
  apply (inject (fun s => (second s, values 0 (second s) s))).
  - now apply NoDup_filter.
  - intros x y _ _ E. assert (E1 : second x = second y) by congruence.
    assert (E2 : values 0 (second x) x = values 0 (second y) y) by congruence.
    rewrite <- (values_twice 0 (second x) x), E2, E1. apply values_twice.
  - intros s Hs. apply filter_In in Hs as [Hs G]. apply Hin in Hs.
    destruct (zero_output s Hs G) as (A & B & C). apply in_prod_iff. split; [now apply iota_In|].
    apply filter_In. split; [apply Hin; apply values_table; auto; lia|].
    unfold partB. rewrite A, (proj2 (N.eqb_neq _ _) B). reflexivity.
Qed.

Definition startA (s : list N) : bool := negb (existsb (fun e => e s) [ev1 2; ev1 0]).

Lemma countA : (length (filter startA all) <= 256 * length (filter partA all))%nat.
Proof using Hall Hin.
  rewrite <- iota_length, <- prod_length.
  apply (inject (fun s => (nth 2 s 0, values 0 (nth 2 s 0) s))).
  - now apply NoDup_filter.
  - intros x y _ _ E. assert (E1 : nth 2 x 0 = nth 2 y 0) by congruence.
    assert (E2 : values 0 (nth 2 x 0) x = values 0 (nth 2 y 0) y) by congruence.
    rewrite <- (values_twice 0 (nth 2 x 0) x), E2, E1. apply values_twice.
  - intros s Hs. apply filter_In in Hs as [Hs G]. apply Hin in Hs.
    pose proof (table_nth s 2 Hs) as H2. pose proof (table_length s Hs) as L.
    apply in_prod_iff. split; [now apply iota_In|].
    apply filter_In. split; [apply Hin; apply values_table; auto; lia|].
    unfold startA in G. cbn [existsb] in G. unfold ev1 in G. unfold partA.
    rewrite !values_nth by lia. rewrite other_right. cbn [N.eqb andb].
    rewrite other_same; [|lia|]; [lia|]. apply table_distinct; auto; lia.
Qed.

Definition sec0 (s : list N) : bool := second s =? 0.
Definition two0 (s : list N) : bool := nth 2 s 0 =? 0.

Lemma count_second : (496 * N.of_nat (length all) <= 65024 * N.of_nat (length (filter sec0 all))).
Proof using Hall Hin.
  pose proof (filter_split two0 (filter sec0 all)) as S.
  assert (A : (length (filter partA all) <= length (filter two0 (filter sec0 all)))%nat).
  { apply NoDup_incl_length; [now apply NoDup_filter|]. intros s Hs. apply filter_In in Hs as [Hs P].
    apply andb_prop in P as [P1 P2]. apply filter_In. split; [|exact P1]. apply filter_In. split; [exact Hs|].
    apply N.eqb_eq in P1. apply N.eqb_eq. apply second_zero; auto; [now apply Hin|]. left. lia. }
  assert (B : (length (filter partB all) <= length (filter (fun s => negb (two0 s)) (filter sec0 all)))%nat).
  { apply NoDup_incl_length; [now apply NoDup_filter|]. intros s Hs. apply filter_In in Hs as [Hs P].
    apply andb_prop in P as [P1 P2]. apply filter_In. split; [|exact P1]. apply filter_In. split; [exact Hs|exact P2]. }
  pose proof countA as CA. pose proof countB as CB.
  pose proof (union [ev1 2; ev1 0] all) as U. fold startA in U. pose proof (union bad all) as V. fold good in V.
  unfold bad in V. cbn [map list_sum fold_right] in U, V.
  pose proof (few1 2 ltac:(lia)) as K1. pose proof (few1 0 ltac:(lia)) as K2.
  pose proof (few2 (sub 1)) as K3. pose proof (few2 (sub 2)) as K4. pose proof (few2 (fun _ => 0)) as K5.
  pose proof (few3 (fun _ _ => 0)) as K6. pose proof (few3 (fun _ b => sub 1 b)) as K7.
  pose proof (few3 (fun _ b => sub 2 b)) as K8. pose proof (few3 (fun a b => sub a b)) as K9.
  pose proof (few3 (fun a _ => a)) as K10.
  repeat match goal with
  | H : context [length (filter ?f all)] |- _ => let x := fresh "x" in set (x := length (filter f all)) in *; clearbody x
  end. lia.
Qed.
End Tables.

(** ** In terms of the model *)

Lemma second_yields t : rc4_table_ok t -> second t = 0 -> exists k ks,
  yields rc4_next {| rc4_state := t; rc4_x := 0; rc4_y := 0 |} [k; 0] ks.
Proof.
  intros T E. destruct (rc4_yields 2 (t, 0, 0) T) as (Y & _); [reflexivity..|].
  unfold second in E. cbn [rc4_run] in Y. destruct (rc4_prga (t, 0, 0)) as [k st]. cbn [snd] in E.
  destruct (rc4_prga st) as [k' st']. cbn [fst] in E. subst k'. cbn [fst snd] in Y. eauto.
Qed.

Lemma bias all zeros : NoDup all -> (forall t, In t all <-> Permutation (map N.of_nat (seq 0 256)) t) ->
  NoDup zeros -> (forall t, In t zeros <-> In t all /\ exists k ks,
    yields rc4_next {| rc4_state := t; rc4_x := 0; rc4_y := 0 |} [k; 0] ks) ->
  195 * N.of_nat (length all) <= 25600 * N.of_nat (length zeros).
Proof.
  intros N1 H1 N2 H2. pose proof (count_second all N1 H1) as C.
  enough (length (filter sec0 all) <= length zeros)%nat by lia.
  apply NoDup_incl_length; [now apply NoDup_filter|]. intros t Ht. apply filter_In in Ht as [Ht E].
  apply H2. split; [exact Ht|]. apply second_yields; [now apply H1|]. now apply N.eqb_eq.
Qed.

Lemma arrangements (l : list N) : exists L, forall t, In t L <-> Permutation l t.
Proof.
  induction l as [|a l (L & IH)].
  - exists [[]]. intros t. split; [intros [<-|[]]; constructor|]. intros H. apply Permutation_nil in H. now left.
  - exists (flat_map (fun t => map (fun i => firstn i t ++ a :: skipn i t) (seq 0 (S (length t)))) L).
    intros t. rewrite in_flat_map. split.
    + intros (u & Hu & Ht). apply in_map_iff in Ht as (i & <- & _). apply IH in Hu.
      apply Permutation_cons_app. now rewrite firstn_skipn.
    + intros H. assert (X : In a t) by (apply (Permutation_in a H); now left).
      apply in_split in X as (t1 & t2 & ->). exists (t1 ++ t2). split.
      * apply IH. now apply Permutation_cons_app_inv in H.
      * apply in_map_iff. exists (length t1). split.
        -- rewrite firstn_app, firstn_all, Nat.sub_diag, app_nil_r.
           now rewrite skipn_app, skipn_all, Nat.sub_diag.
        -- apply in_seq. rewrite app_length. lia.
Qed.

Lemma tables_exist : exists all zeros, NoDup all /\
  (forall t, In t all <-> Permutation (map N.of_nat (seq 0 256)) t) /\
  NoDup zeros /\ (forall t, In t zeros <-> In t all /\ exists k ks,
    yields rc4_next {| rc4_state := t; rc4_x := 0; rc4_y := 0 |} [k; 0] ks).
Proof.
  destruct (arrangements (map N.of_nat (seq 0 256))) as (L & H).
  exists (nodup (list_eq_dec N.eq_dec) L), (filter sec0 (nodup (list_eq_dec N.eq_dec) L)).
  split; [apply NoDup_nodup|]. split; [intros t; rewrite nodup_In; apply H|].
  split; [apply NoDup_filter, NoDup_nodup|]. intros t. rewrite filter_In. split; intros [A B]; (split; [exact A|]).
  - apply second_yields; [apply H; now apply nodup_In in A|]. now apply N.eqb_eq.
  - destruct B as (k & ks & Y). apply N.eqb_eq. symmetry. apply nodup_In, H in A.
    apply (two_values (t, 0, 0) k 0 ks) in Y; [exact Y|]. split; [exact A|split; reflexivity].
Qed.
