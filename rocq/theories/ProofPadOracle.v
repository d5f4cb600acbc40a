(** * Block decryption as a padding oracle *)
From Coq Require Import FinFun ZifyBool ZifyNat ZifyN.
From Verif Require Import Base BaseLemmas ModelPad ModelBlock ModelAes SpecPad SpecBlock SpecPadOracle
  ProofPad ProofBlock.
Local Open Scope N_scope.

Lemma in_all_bytes x : In x all_bytes <-> x < 256.
Proof.
  unfold all_bytes. rewrite in_map_iff. split.
  - intros (i & <- & Hi). apply in_seq in Hi. lia.
  - intros H. exists (N.to_nat x). rewrite in_seq. lia.
Qed.

Lemma lxor_one_le a : N.lxor a 1 <= a + 1.
Proof. destruct a as [|[p|p|]]; cbn; lia. Qed.
Lemma lxor_one_even n : N.even n = true -> N.lxor n 1 = n + 1.
Proof. destruct n as [|[p|p|]]; cbn; intros H; try discriminate; reflexivity. Qed.

Lemma lxor_byte_lt a b : a < 256 -> b < 256 -> N.lxor a b < 256.
Proof. intros Ha Hb. now apply lxor_byte. Qed.

(** Two different bytes are told apart by some question. *)
Lemma told_apart n x y : N.even n = true -> n < 255 -> x < 256 -> y < 256 -> x <> y ->
  exists v, v < 256 /\ (n <? N.lxor x v) <> (n <? N.lxor y v).
Proof.
  intros He Hn Hx Hy Hxy.
  assert (K : forall w, N.lxor x (N.lxor x w) = w /\ N.lxor y (N.lxor x w) = N.lxor w (N.lxor x y)).
  { intros w. split.
    - now rewrite <- N.lxor_assoc, N.lxor_nilpotent, N.lxor_0_l.
    - rewrite <- N.lxor_assoc, (N.lxor_comm y x), N.lxor_comm. reflexivity. }
  set (d := N.lxor x y) in *.
  assert (Hd : d <> 0) by (intros E; apply Hxy, N.lxor_eq, E).
  assert (Hne : N.lxor n d <> n).
  { intros E. apply Hd. apply (f_equal (N.lxor n)) in E.
    rewrite <- N.lxor_assoc, N.lxor_nilpotent, N.lxor_0_l in E. exact E. }
  destruct (N.ltb_spec n (N.lxor n d)) as [L|L].
  - exists (N.lxor x n). split; [apply lxor_byte_lt; lia|].
    destruct (K n) as [-> ->]. rewrite (proj2 (N.ltb_lt _ _) L), N.ltb_irrefl. discriminate.
  - exists (N.lxor x (n + 1)). split; [apply lxor_byte_lt; lia|].
    destruct (K (n + 1)) as [-> ->].
    rewrite (proj2 (N.ltb_lt n (n + 1))) by lia.
    rewrite (proj2 (N.ltb_ge _ _)); [discriminate|].
    rewrite <- (lxor_one_even n He), N.lxor_assoc, (N.lxor_comm 1 d), <- N.lxor_assoc.
    pose proof (lxor_one_le (N.lxor n d)). lia.
Qed.

Lemma filter_one (P : N -> bool) x l : NoDup l -> In x l -> (forall y, In y l -> P y = true <-> y = x) ->
  filter P l = [x].
Proof.
  induction l as [|a l IH]; [easy|]. intros Hn Hx H. inversion Hn; subst. cbn [filter].
  destruct (N.eq_dec a x) as [->|Ha].
  - rewrite (proj2 (H x (or_introl eq_refl)) eq_refl). f_equal.
    assert (E : forall y, In y l -> P y = false).
    { intros y Hy. destruct (P y) eqn:E; [|reflexivity]. apply H in E; [|now right]. now subst y. }
    clear - E. induction l as [|b l IH]; [reflexivity|]. cbn [filter]. rewrite E by now left.
    apply IH. intros y Hy. apply E. now right.
  - destruct (P a) eqn:E; [apply H in E; [congruence|now left]|].
    apply IH; auto. { destruct Hx; [congruence|assumption]. } intros y Hy. apply H. now right.
Qed.

Lemma all_bytes_nodup : NoDup all_bytes.
Proof.
  unfold all_bytes. apply FinFun.Injective_map_NoDup; [|apply seq_NoDup]. intros a b E. lia.
Qed.

Lemma candidates_one n o x : Nat.even n = true -> (n < 255)%nat -> x < 256 ->
  (forall v, v < 256 -> o v = (N.of_nat n <? N.lxor x v)) -> candidates n o = [x].
Proof.
  intros He Hn Hx Ho. apply filter_one.
  - exact all_bytes_nodup.
  - now apply in_all_bytes.
  - intros y Hy. apply in_all_bytes in Hy. rewrite forallb_forall. split.
    + intros H. destruct (N.eq_dec y x) as [E|E]; [exact E|exfalso].
      destruct (told_apart (N.of_nat n) x y) as (v & Hv & D); auto.
      * rewrite <- He. apply Bool.eq_iff_eq_true. rewrite N.even_spec, Nat.even_spec.
        split; intros [k K]; [exists (N.to_nat k)|exists (N.of_nat k)]; lia.
      * lia.
      * apply D. rewrite <- Ho by auto. specialize (H v). rewrite in_all_bytes in H.
        apply Bool.eqb_prop, H, Hv.
    + intros ->. intros v Hv. apply in_all_bytes in Hv. rewrite Ho by auto. apply Bool.eqb_reflx.
Qed.

(** ** The answers *)

Lemma last_xor a : forall b, length a = length b -> last (xor_bytes a b) 0 = N.lxor (last a 0) (last b 0).
Proof.
  induction a as [|x a IH]; intros [|y b] L; try discriminate; [reflexivity|].
  cbn [length] in L. cbn [xor_bytes].
  destruct a as [|x' a], b as [|y' b]; try discriminate; [reflexivity|].
  change (last (x :: x' :: a) 0) with (last (x' :: a) 0).
  change (last (y :: y' :: b) 0) with (last (y' :: b) 0).
  rewrite <- IH by (cbn in *; lia). reflexivity.
Qed.

Lemma last_bytes l : bytes l -> last l 0 < 256.
Proof.
  induction l as [|x [|y l] IH]; intros H; [reflexivity|now inversion H|].
  change (last (x :: y :: l) 0) with (last (y :: l) 0). inversion H. auto.
Qed.

(** Decrypting with one last block, after others that decrypt. *)
Lemma decrypt_last {S} n cipher (mode : cipher_mode S) st cs os st' c o :
  (1 <= n)%nat -> Forall (fun b => length b = n) cs -> length c = n ->
  run_mode (cm_decrypt_block mode cipher) st cs = (os, Ok st') ->
  Forall (fun b => length b = n) os ->
  (exists st'', cm_decrypt_block mode cipher st' c = Ok (st'', o)) -> length o = n ->
  panics (be_decrypt n cipher mode st (concat cs ++ c)) = (N.of_nat n <? last o 0) /\
  (last o 0 <= N.of_nat n ->
     be_decrypt n cipher mode st (concat cs ++ c) = (concat os ++ firstn (n - N.to_nat (last o 0%N)) o, Ok tt)) /\
  (N.of_nat n < last o 0 ->
     be_decrypt n cipher mode st (concat cs ++ c) = (concat os, Panic PExplicit)).
Proof.
  intros Hn Hcs Hc R Hos [st'' E] Ho.
  assert (Rn : run_mode (cm_decrypt_block mode cipher) st (cs ++ [c]) = (os ++ [o], Ok st'')).
  { rewrite run_mode_app, R. cbn [run_mode]. now rewrite E. }
  pose proof (be_decrypt_eq n cipher mode st (concat cs ++ c) (cs ++ [c]) Hn) as D.
  rewrite Rn in D. destruct D as (os' & o' & Eo & _ & D1 & D2).
  - split; [apply Forall_app; auto|]. rewrite concat_app. cbn [concat]. now rewrite app_nil_r.
  - destruct cs; discriminate.
  - cbn [fst]. apply Forall_app; auto.
  - apply app_inj_tail in Eo. destruct Eo as [<- <-].
    split; [|split; assumption]. unfold panics.
    destruct (N.ltb_spec (N.of_nat n) (last o 0)) as [L|L].
    + now rewrite D2.
    + now rewrite D1.
Qed.

Lemma ecb_block n cipher c b : (1 <= n)%nat -> length c = n -> bc_decrypt cipher c = Ok b -> length b = n ->
  be_decrypt n cipher ecb_mode tt c =
  if N.of_nat n <? last b 0 then ([], Panic PExplicit)
  else (firstn (n - N.to_nat (last b 0%N)) b, Ok tt).
Proof.
  intros Hn Hc E Hb.
  destruct (decrypt_last n cipher ecb_mode tt [] [] tt c b) as (_ & D1 & D2); auto.
  { exists tt. cbn. now rewrite E. }
  cbn [concat app] in D1, D2. destruct (N.ltb_spec (N.of_nat n) (last b 0)); auto.
Qed.

Lemma cbc_answer n cipher iv r c b : (1 <= n)%nat -> decrypts n cipher -> length iv = n -> length r = n -> bytes r ->
  length c = n -> bc_decrypt cipher c = Ok b -> length b = n ->
  panics (be_decrypt n cipher cbc_mode iv (r ++ c)) = (N.of_nat n <? N.lxor (last b 0) (last r 0)).
Proof.
  intros Hn Hd Hi Hr Br Hc E Hb. destruct (Hd r Hr Br) as (o & Eo & Lo & _).
  destruct (decrypt_last n cipher cbc_mode iv [r] [xor_bytes iv o] r c (xor_bytes r b)) as (P & _).
  - exact Hn.
  - now constructor.
  - exact Hc.
  - cbn [run_mode cm_decrypt_block cbc_mode]. rewrite Eo. reflexivity.
  - constructor; [|constructor]. rewrite xor_bytes_length; congruence.
  - exists c. cbn [cm_decrypt_block cbc_mode]. rewrite E. reflexivity.
  - rewrite xor_bytes_length; congruence.
  - cbn [concat] in P. rewrite app_nil_r in P. rewrite P.
    rewrite last_xor by congruence. now rewrite N.lxor_comm.
Qed.

Lemma question_block n v : (1 <= n)%nat -> length (repeat 0 (n - 1) ++ [v]) = n /\ last (repeat 0 (n - 1) ++ [v]) 0 = v.
Proof.
  intros Hn. split; [rewrite app_length, repeat_length; cbn; lia|apply last_last].
Qed.

Lemma cbc_last_byte n cipher iv c b : (1 <= n < 255)%nat -> Nat.even n = true -> decrypts n cipher ->
  length iv = n -> length c = n -> bytes c -> bc_decrypt cipher c = Ok b ->
  candidates n (fun v => panics (be_decrypt n cipher cbc_mode iv (question n v c))) = [last b 0].
Proof.
  intros Hn He Hd Hi Hc Bc E.
  destruct (Hd c Hc Bc) as (b' & E' & Lb & Bb). rewrite E in E'. apply Ok_inj in E'. subst b'.
  apply candidates_one; [exact He|lia|now apply last_bytes|].
  intros v Hv. unfold question. rewrite app_assoc.
  destruct (question_block n v) as [L1 L2]; [lia|].
  rewrite (cbc_answer n cipher iv (repeat 0 (n - 1) ++ [v]) c b); auto; try lia.
  - now rewrite L2.
  - apply Forall_app. split; [apply Forall_repeat; reflexivity|]. now constructor.
Qed.

(** ** For a whole message *)

Lemma cbc_chain n cipher bs : cipher_inverse n cipher -> forall iv cs st,
  length iv = n -> bytes iv ->
  Forall (fun b => length b = n) bs -> Forall bytes bs ->
  run_mode (cm_encrypt_block cbc_mode cipher) iv bs = (cs, Ok st) ->
  forall i, (i < length bs)%nat ->
  length (nth i cs []) = n /\ bytes (nth i cs []) /\
  bc_decrypt cipher (nth i cs []) = Ok (xor_bytes (nth i (iv :: cs) []) (nth i bs [])) /\
  length (nth i (iv :: cs) []) = n.
Proof.
  intros Hc. induction bs as [|b bs IH]; intros iv cs st Li Bi Lb Bb R i Hi; [cbn in Hi; lia|].
  inversion Lb; inversion Bb; subst. cbn [run_mode cm_encrypt_block cbc_mode] in R.
  destruct (Hc (xor_bytes iv b)) as (c & E & Lc & Bc & D).
  - rewrite xor_bytes_length; congruence.
  - now apply xor_bytes_bytes.
  - rewrite E in R. cbn [bind] in R. destruct (run_mode _ c bs) as [os r] eqn:Er.
    injection R as <- ->. destruct i as [|i].
    + cbn [nth]. auto.
    + cbn [nth]. cbn [length] in Hi. destruct (IH c os st Lc Bc H2 H6 Er i) as (A & B & C & G); [lia|].
      auto.
Qed.

Lemma cbc_message n cipher iv p ct bs cs : (1 <= n < 255)%nat -> Nat.even n = true ->
  cipher_inverse n cipher -> decrypts n cipher -> length iv = n -> bytes iv -> bytes p ->
  be_encrypt n cipher cbc_mode iv p = (ct, Ok tt) ->
  blocks_of n (pkcs_message n p) bs -> blocks_of n ct cs ->
  forall i iv', (i < length bs)%nat -> length iv' = n ->
  exists x, candidates n (fun v => panics (be_decrypt n cipher cbc_mode iv' (question n v (nth i cs [])))) = [x] /\
    N.lxor x (last (nth i (iv :: cs) []) 0) = last (nth i bs []) 0.
Proof.
  intros Hn He Hc Hd Li Bi Bp E Hbs Hcs i iv' Hi Li'.
  rewrite (be_encrypt_eq n cipher cbc_mode iv p bs) in E by (auto; lia).
  destruct (run_mode _ iv bs) as [os r] eqn:R. destruct r as [st|]; [|discriminate].
  cbn [discard] in E. injection E as <-.
  assert (Bb : Forall bytes bs).
  { assert (Hm : bytes (pkcs_message n p)).
    { apply Forall_app; split; auto. apply Forall_repeat. red. lia. }
    destruct Hbs as [_ Hb]. rewrite <- Hb in Hm. clear - Hm.
    induction bs; auto. cbn in Hm. apply Forall_app in Hm as [H1 H2]. auto. }
  pose proof (cbc_chain n cipher bs Hc iv os st Li Bi (proj1 Hbs) Bb R) as Ch.
  assert (Lo : length os = length bs) by (now apply run_mode_length in R).
  assert (cs = os) as ->.
  { apply (blocks_unique n (concat os)); [lia|exact Hcs|]. split; [|reflexivity].
    apply Forall_forall. intros o Ho. apply (In_nth _ _ []) in Ho. destruct Ho as (k & Hk & <-).
    apply Ch. lia. }
  destruct (Ch i Hi) as (A & B & C & G).
  exists (last (xor_bytes (nth i (iv :: os) []) (nth i bs [])) 0). split.
  - apply cbc_last_byte; auto.
  - assert (Lb : length (nth i bs []) = n).
    { destruct Hbs as [Hb _]. rewrite Forall_forall in Hb. apply Hb, nth_In, Hi. }
    rewrite last_xor by congruence. rewrite (N.lxor_comm (last (nth i (iv :: os) []) 0)).
    now rewrite N.lxor_assoc, N.lxor_nilpotent, N.lxor_0_r.
Qed.

(** ** Nothing else *)

Lemma cbc_run n cipher cs : decrypts n cipher -> forall iv, length iv = n ->
  Forall (fun b => length b = n) cs -> Forall bytes cs ->
  exists os, run_mode (cm_decrypt_block cbc_mode cipher) iv cs = (os, Ok (last cs iv)) /\
    Forall (fun b => length b = n) os /\ length (last cs iv) = n.
Proof.
  intros Hd. induction cs as [|c cs IH]; intros iv Li L B.
  - exists []. cbn. auto.
  - inversion L; inversion B; subst. destruct (Hd c) as (o & E & Lo & _); auto.
    destruct (IH c) as (os & R & F & G); auto.
    exists (xor_bytes iv o :: os). cbn [run_mode].
    assert (S1 : cm_decrypt_block cbc_mode cipher iv c = Ok (c, xor_bytes iv o)) by (cbn; now rewrite E).
    rewrite S1, R. assert (Hl : last (c :: cs) iv = last cs c).
    { clear. destruct cs as [|d cs]; [reflexivity|]. cbn [last]. revert d. induction cs as [|e cs IH]; intros d; [reflexivity|].
      cbn [last]. apply IH. }
    rewrite Hl. split; [reflexivity|]. split; [|exact G]. constructor; [|exact F].
    rewrite xor_bytes_length; congruence.
Qed.

Lemma cbc_nothing_else n cipher iv cs c c' b b' : (1 <= n)%nat -> decrypts n cipher -> length iv = n ->
  Forall (fun b => length b = n) cs -> Forall bytes cs ->
  length c = n -> length c' = n -> bc_decrypt cipher c = Ok b -> bc_decrypt cipher c' = Ok b' ->
  length b = n -> length b' = n -> last b 0 = last b' 0 ->
  panics (be_decrypt n cipher cbc_mode iv (concat cs ++ c)) = panics (be_decrypt n cipher cbc_mode iv (concat cs ++ c')) /\
  length (fst (be_decrypt n cipher cbc_mode iv (concat cs ++ c))) =
  length (fst (be_decrypt n cipher cbc_mode iv (concat cs ++ c'))).
Proof.
  intros Hn Hd Li L B Lc Lc' E E' Lb Lb' Hl.
  destruct (cbc_run n cipher cs Hd iv Li L B) as (os & R & F & G).
  destruct (decrypt_last n cipher cbc_mode iv cs os (last cs iv) c (xor_bytes (last cs iv) b)) as (P & D1 & D2); auto.
  { exists c. cbn [cm_decrypt_block cbc_mode]. now rewrite E. }
  { rewrite xor_bytes_length; congruence. }
  destruct (decrypt_last n cipher cbc_mode iv cs os (last cs iv) c' (xor_bytes (last cs iv) b')) as (P' & D1' & D2'); auto.
  { exists c'. cbn [cm_decrypt_block cbc_mode]. now rewrite E'. }
  { rewrite xor_bytes_length; congruence. }
  rewrite last_xor in P, D1, D2 by congruence. rewrite last_xor in P', D1', D2' by congruence.
  rewrite <- Hl in P', D1', D2'. split; [congruence|].
  destruct (N.leb_spec (N.lxor (last (last cs iv) 0) (last b 0)) (N.of_nat n)) as [Hle|Hgt].
  - rewrite D1, D1' by auto. cbn [fst]. rewrite !app_length, !firstn_length, !xor_bytes_length by congruence. congruence.
  - rewrite D2, D2' by auto. reflexivity.
Qed.
