(** * Proofs for C133: the second byte of RC4 *)
From Coq Require Import ZifyBool ZifyNat ZifyN Permutation.
From Verif Require Import Base BaseLemmas ModelBlock ModelRc SpecBlock SpecRc SpecMantin
  ProofRc4 ProofKeys.
Ltac Zify.zify_post_hook ::= Z.div_mod_to_equations.
Local Open Scope N_scope.

Definition second (s : list N) : N := fst (rc4_prga (snd (rc4_prga (s, 0, 0)))).

Lemma second_form s : let a := nth 1 s 0 in let s1 := exchange s 1 (N.to_nat (a mod 256)) in
  let j := (a mod 256 + nth 2 s1 0) mod 256 in let s2 := exchange s1 2 (N.to_nat j) in
  second s = nth (N.to_nat ((nth 2 s2 0 + nth (N.to_nat j) s2 0) mod 256)) s2 0.
Proof. reflexivity. Qed.

Lemma table_distinct s i j : rc4_table_ok s -> (i < 256)%nat -> (j < 256)%nat -> i <> j -> nth i s 0 <> nth j s 0.
Proof.
  intros T Hi Hj D E. apply D. pose proof (table_length s T) as L.
  assert (ND : NoDup s).
  { apply (Permutation_NoDup T). apply FinFun.Injective_map_NoDup; [|apply seq_NoDup]. intros x y. lia. }
  apply (proj1 (NoDup_nth s 0)); auto; lia.
Qed.

Lemma second_zero s : rc4_table_ok s -> nth 2 s 0 = 0 ->
  (second s = 0 <-> nth 1 s 0 <> 2 \/ nth 4 s 0 = 255).
Proof.
  intros T Z. pose proof (table_length s T) as L. rewrite second_form. cbv zeta.
  pose proof (table_nth s 1 T) as Ha.
  pose proof (table_distinct s 1 2 T ltac:(lia) ltac:(lia) ltac:(lia)) as Hz. rewrite Z in Hz.
  set (a := nth 1 s 0) in *. rewrite (N.mod_small a) by lia.
  set (s1 := exchange s 1 (N.to_nat a)).
  assert (L1 : length s1 = 256%nat) by (unfold s1; now rewrite exchange_length).
  destruct (N.eq_dec a 2) as [A|A].
  - assert (E2 : nth 2 s1 0 = 2).
    { unfold s1. rewrite nth_exchange by lia. rewrite A. exact A. }
    assert (E1 : nth 1 s1 0 = 0).
    { unfold s1. rewrite nth_exchange by lia. rewrite A. exact Z. }
    assert (E4 : nth 4 s1 0 = nth 4 s 0).
    { unfold s1. rewrite nth_exchange by lia. rewrite A. reflexivity. }
    rewrite E2, A. change (N.to_nat ((2 + 2) mod 256)) with 4%nat.
    rewrite !nth_exchange by lia. cbn [Nat.eqb]. rewrite E2, E4.
    pose proof (table_nth s 4 T) as H4.
    destruct (Nat.eqb_spec (N.to_nat ((nth 4 s 0 + 2) mod 256)) 2) as [C|C].
    + split; intros H; [|destruct H; lia].
      exfalso. refine (table_distinct s 4 2 T _ _ _ _); lia.
    + destruct (Nat.eqb_spec (N.to_nat ((nth 4 s 0 + 2) mod 256)) 4) as [D|D].
      * split; [discriminate|]. intros [H|H]; [lia|]. rewrite H in D. discriminate D.
      * destruct (N.eq_dec (nth 4 s 0) 255) as [F|F].
        -- rewrite F. change (N.to_nat ((255 + 2) mod 256)) with 1%nat. rewrite E1. tauto.
        -- split; [|intros [H|H]; lia]. intros H. exfalso.
           assert (P1 : N.to_nat ((nth 4 s 0 + 2) mod 256) <> 1%nat) by lia.
           set (t := N.to_nat ((nth 4 s 0 + 2) mod 256)) in *.
           assert (Ht : (t < 256)%nat) by (unfold t; lia). clearbody t.
           unfold s1 in H. rewrite nth_exchange in H by lia. rewrite A in H.
           change (N.to_nat 2) with 2%nat in H.
           rewrite (proj2 (Nat.eqb_neq t 1)), (proj2 (Nat.eqb_neq t 2)) in H by lia.
           apply (table_distinct s t 2 T); try lia.
  - assert (E2 : nth 2 s1 0 = 0).
    { unfold s1. rewrite nth_exchange by lia. rewrite (proj2 (Nat.eqb_neq 2 (N.to_nat a))) by lia. exact Z. }
    assert (Ea : nth (N.to_nat a) s1 0 = a).
    { unfold s1. rewrite nth_exchange by lia. rewrite Nat.eqb_refl.
      destruct (Nat.eqb_spec (N.to_nat a) 1) as [C|C]; [|reflexivity]. rewrite C. reflexivity. }
    rewrite E2, N.add_0_r, (N.mod_small a) by lia.
    assert (X2 : nth 2 (exchange s1 2 (N.to_nat a)) 0 = a) by (rewrite nth_exchange by lia; exact Ea).
    assert (Xa : nth (N.to_nat a) (exchange s1 2 (N.to_nat a)) 0 = 0).
    { rewrite nth_exchange by lia. rewrite (proj2 (Nat.eqb_neq (N.to_nat a) 2)), Nat.eqb_refl by lia. exact E2. }
    rewrite X2, Xa, N.add_0_r, N.mod_small by lia. rewrite Xa. tauto.
Qed.

Lemma step_value st k ks : st_valid st -> rc4_next (of_state st) = Ok (Some k, ks) ->
  k = fst (rc4_prga st) /\ ks = of_state (snd (rc4_prga st)).
Proof.
  intros (T & X & Y) E. destruct (rc4_next_eq st T X Y) as (R & _). rewrite R in E. apply Ok_inj in E.
  split; [apply (f_equal fst) in E|apply (f_equal snd) in E]; cbn [fst snd] in E; [|now symmetry].
  assert (U : forall a b : N, Some a = Some b -> a = b) by congruence. symmetry. exact (U _ _ E).
Qed.

Lemma two_values st k1 k2 ks : st_valid st -> yields rc4_next (of_state st) [k1; k2] ks ->
  k2 = fst (rc4_prga (snd (rc4_prga st))).
Proof.
  intros V Y. inversion Y as [|? ? ? ? ? Y1 Y2]; subst. inversion Y2 as [|? ? ? ? ? Y3 Y4]; subst.
  apply step_value in Y1 as [_ ->]; [|exact V]. apply step_value in Y3 as [-> _]; [reflexivity|].
  now apply prga_valid.
Qed.

Lemma stream_two key k1 k2 ks ks' : key <> [] -> bytes key -> rc4_new key = Ok ks ->
  yields rc4_next ks [k1; k2] ks' -> rc4_table_ok (rc4_state ks) /\ k2 = second (rc4_state ks).
Proof.
  intros N1 B E Y. destruct (rc4_new_eq key N1 B) as [Q T]. rewrite Q in E. apply Ok_inj in E. subst ks.
  revert T Y. generalize (rc4_ksa key). intros s T Y. split; [exact T|].
  apply two_values in Y; [exact Y|]. split; [exact T|split; reflexivity].
Qed.

Lemma second_iff key k1 k2 ks ks' : key <> [] -> bytes key -> rc4_new key = Ok ks ->
  yields rc4_next ks [k1; k2] ks' -> nth 2 (rc4_state ks) 0 = 0 ->
  (k2 = 0 <-> mantin ks \/ nth 4 (rc4_state ks) 0 = 255).
Proof.
  intros N1 B E Y Z. destruct (stream_two _ _ _ _ _ N1 B E Y) as [T ->].
  rewrite (second_zero _ T Z). unfold mantin. tauto.
Qed.

Lemma second_clear key ks p1 p2 p c : key <> [] -> bytes key -> rc4_new key = Ok ks -> mantin ks ->
  rc4_encrypt ks (p1 :: p2 :: p) = Ok c -> nth 1 c 0 = p2.
Proof.
  intros N1 B E M C. unfold rc4_encrypt in C. cbn [sc_encrypt] in C.
  destruct (rc4_next ks) as [[[k1|] ks1]|] eqn:X1; cbn [bind unwrap] in C; try discriminate C.
  destruct (rc4_next ks1) as [[[k2|] ks2]|] eqn:X2; cbn [bind unwrap] in C; try discriminate C.
  destruct (sc_encrypt rc4_next ks2 p) as [[bs ks3]|]; cbn [bind] in C; [|discriminate C].
  injection C as <-. cbn [nth].
  assert (Y : yields rc4_next ks [k1; k2] ks2) by (repeat (econstructor; eauto)).
  assert (k2 = 0) as ->; [|apply N.lxor_0_l].
  apply (second_iff key k1 k2 ks ks2); auto. apply M.
Qed.

(** ** Every step *)

Lemma glimpse ks z ks' : ks_valid ks -> rc4_next ks = Ok (Some z, ks') ->
  let at_ i := nth (N.to_nat i) (rc4_state ks') 0 in
  let x := rc4_x ks' in let y := rc4_y ks' in
  ((at_ x + at_ y) mod 256 = x -> at_ y = (x + 256 - z) mod 256) /\
  ((at_ x + at_ y) mod 256 = y -> at_ x = (y + 256 - z) mod 256).
Proof.
  intros V E. destruct V as (T & Hx & Hy).
  destruct (rc4_next_eq (rc4_state ks, rc4_x ks, rc4_y ks) T Hx Hy) as (R & A & Bx & By & _).
  rewrite (to_state ks) in E. apply step_value in E as [-> ->]; [|split; [exact T|split; [exact Hx|exact Hy]]].
  clear R. unfold rc4_prga in *. cbn [fst snd of_state rc4_state rc4_x rc4_y] in *. cbv zeta.
  set (s := exchange _ _ _) in *. set (x := (rc4_x ks + 1) mod 256) in *. set (y := (rc4_y ks + _) mod 256) in *.
  pose proof (table_nth s (N.to_nat x) A) as Vx. pose proof (table_nth s (N.to_nat y) A) as Vy.
  clearbody s x y. split; intros H; rewrite H; lia.
Qed.
