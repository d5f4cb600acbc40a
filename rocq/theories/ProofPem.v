(** * PEM printing and parsing *)
From Coq Require Import String ZifyBool ZifyNat ZifyN.
From Verif Require Import Base BaseLemmas SpecEndian SpecText SpecPem ModelPem ProofBase64.
Local Open Scope N_scope.
Local Open Scope list_scope.
Ltac Zify.zify_post_hook ::= Z.div_mod_to_equations.

(** ** Strings *)

Lemma is_whitespace_iff c : is_whitespace c = true <-> white c.
Proof.
  unfold is_whitespace, white, white_space. split.
  - intros H. assert (E : exists i, (i <= 24)%nat /\ nth i white_space 0 = c).
    { unfold white_space.
      destruct (N.leb_spec c 32); [|destruct (N.leb_spec c 0x200a)].
      - destruct (N.eqb_spec c 32) as [Hc|]; [exists 5%nat; split; [lia|now rewrite Hc]|].
        assert (C : c = 9 \/ c = 10 \/ c = 11 \/ c = 12 \/ c = 13) by lia.
        destruct C as [->|[->|[->|[->| ->]]]];
          [exists 0%nat|exists 1%nat|exists 2%nat|exists 3%nat|exists 4%nat]; (split; [lia|reflexivity]).
      - destruct (N.eqb_spec c 0x85) as [Hc|]; [exists 6%nat; split; [lia|now rewrite Hc]|].
        destruct (N.eqb_spec c 0xa0) as [Hc|]; [exists 7%nat; split; [lia|now rewrite Hc]|].
        destruct (N.eqb_spec c 0x1680) as [Hc|]; [exists 8%nat; split; [lia|now rewrite Hc]|].
        assert (C : exists k, (k <= 10)%nat /\ c = 0x2000 + N.of_nat k).
        { exists (N.to_nat (c - 0x2000)). lia. }
        destruct C as (k & Hk & ->). exists (9 + k)%nat. split; [lia|].
        do 11 (destruct k as [|k]; [reflexivity|]). lia.
      - assert (C : c = 0x2028 \/ c = 0x2029 \/ c = 0x202f \/ c = 0x205f \/ c = 0x3000) by lia.
        destruct C as [->|[->|[->|[->| ->]]]];
          [exists 20%nat|exists 21%nat|exists 22%nat|exists 23%nat|exists 24%nat]; (split; [lia|reflexivity]). }
    destruct E as (i & Hi & <-). apply nth_In. cbn [length]. lia.
  - intros H. repeat (destruct H as [<-|H]; [reflexivity|]). destruct H.
Qed.

Lemma trim_start_spec s : exists a, s = a ++ trim_start s /\ Forall white a /\
  (forall c r, trim_start s = c :: r -> ~ white c).
Proof.
  induction s as [|c s (a & E & Ha & Hn)]; cbn [trim_start].
  - exists []. repeat split; auto. discriminate.
  - destruct (is_whitespace c) eqn:W.
    + exists (c :: a). rewrite E at 1. repeat split; auto. constructor; auto. now apply is_whitespace_iff.
    + exists []. repeat split; auto. intros c' r H. injection H as <- _. rewrite <- is_whitespace_iff. congruence.
Qed.

Lemma Forall_rev_iff {A} (P : A -> Prop) l : Forall P (rev l) <-> Forall P l.
Proof. split; intros H; [rewrite <- (rev_involutive l)|]; now apply Forall_rev'. Qed.

Lemma trim_trimmed l : trimmed l (trim l).
Proof.
  unfold trim. destruct (trim_start_spec l) as (a & E1 & Ha & Hn).
  destruct (trim_start_spec (rev (trim_start l))) as (b & E2 & Hb & Hm).
  set (t := trim_start (rev (trim_start l))) in *. exists a, (rev b).
  assert (E3 : trim_start l = rev t ++ rev b).
  { rewrite <- rev_app_distr, <- E2, rev_involutive. reflexivity. }
  split; [rewrite <- E3; exact E1|]. split; [auto|]. split; [now apply Forall_rev'|]. split.
  - intros c r Et. apply (Hn c (r ++ rev b)). rewrite E3, Et. reflexivity.
  - intros c r Et. apply (Hm c (rev r)). rewrite <- (rev_involutive t), Et, rev_app_distr. reflexivity.
Qed.

Lemma white_prefix_unique a b t u : Forall white a -> Forall white b -> a ++ t = b ++ u ->
  (forall c r, t = c :: r -> ~ white c) -> (forall c r, u = c :: r -> ~ white c) -> t = u.
Proof.
  revert b. induction a as [|x a IH]; intros [|y b] Ha Hb E Ht Hu; cbn [app] in E; auto.
  - subst t. inversion Hb; subst. exfalso. eapply Ht; [reflexivity|auto].
  - subst u. inversion Ha; subst. exfalso. eapply Hu; [reflexivity|auto].
  - injection E as -> E. inversion Ha; inversion Hb; subst. eapply IH; eauto.
Qed.

Lemma trimmed_unique l t u : trimmed l t -> trimmed l u -> t = u.
Proof.
  intros (a & b & E & Ha & Hb & Ht1 & Ht2) (a' & b' & E' & Ha' & Hb' & Hu1 & Hu2).
  assert (Hte : forall t b a, l = a ++ t ++ b -> t = [] -> Forall white a -> Forall white b -> Forall white l).
  { intros ? ? ? -> -> ? ?. rewrite app_nil_l. now apply Forall_app. }
  destruct t as [|ct t].
  - pose proof (Hte _ _ _ E eq_refl Ha Hb) as Hw. destruct u as [|cu u]; auto. exfalso.
    rewrite E' in Hw. apply Forall_app in Hw as (_ & Hw). inversion Hw; subst. eapply Hu1; eauto.
  - destruct u as [|cu u].
    { pose proof (Hte _ _ _ E' eq_refl Ha' Hb') as Hw. exfalso.
      rewrite E in Hw. apply Forall_app in Hw as (_ & Hw). inversion Hw; subst. eapply Ht1; eauto. }
    assert (E2 : (ct :: t) ++ b = (cu :: u) ++ b').
    { apply (white_prefix_unique a a'); auto; [congruence| |].
      - intros c r H. injection H as <- _. eapply Ht1; eauto.
      - intros c r H. injection H as <- _. eapply Hu1; eauto. }
    rewrite <- (rev_involutive (ct :: t)), <- (rev_involutive (cu :: u)). f_equal.
    apply (white_prefix_unique (rev b) (rev b')); try now apply Forall_rev'.
    + now rewrite <- !rev_app_distr, E2.
    + intros c r H. apply (Ht2 c (rev r)). rewrite <- (rev_involutive (ct :: t)), H. reflexivity.
    + intros c r H. apply (Hu2 c (rev r)). rewrite <- (rev_involutive (cu :: u)), H. reflexivity.
Qed.

Lemma trim_iff l t : trim l = t <-> trimmed l t.
Proof.
  split; [intros <-; apply trim_trimmed|]. intros H. eapply trimmed_unique; [apply trim_trimmed|auto].
Qed.

Lemma trimmed_app_white l t b : trimmed l t -> Forall white b -> trimmed (l ++ b) t.
Proof.
  intros (a & c & -> & Ha & Hc & H1 & H2) Hb. exists a, (c ++ b). rewrite <- !app_assoc.
  repeat split; auto. now apply Forall_app.
Qed.

Lemma trim_app_white l b : Forall white b -> trim (l ++ b) = trim l.
Proof. intros H. apply trim_iff. apply trimmed_app_white; auto. apply trim_trimmed. Qed.

Lemma strip_prefix_iff p s r : strip_prefix p s = Some r <-> s = p ++ r.
Proof.
  revert s. induction p as [|x p IH]; intros s; cbn [strip_prefix app].
  - split; [now intros [= ->]|now intros ->].
  - destruct s as [|y s]; [split; discriminate|]. destruct (N.eqb_spec x y) as [->|Hn].
    + rewrite IH. split; [now intros ->|now intros [= ->]].
    + split; [discriminate|]. intros H. injection H as ? ?. congruence.
Qed.

Lemma strip_prefix_none p s : strip_prefix p s = None <-> forall r, s <> p ++ r.
Proof.
  split.
  - intros H r ->. assert (E : strip_prefix p (p ++ r) = Some r) by now apply strip_prefix_iff. congruence.
  - intros H. destruct (strip_prefix p s) as [r|] eqn:E; auto. apply strip_prefix_iff in E. now apply H in E.
Qed.

Lemma strip_suffix_iff p s r : strip_suffix p s = Some r <-> s = r ++ p.
Proof.
  unfold strip_suffix. destruct (strip_prefix (rev p) (rev s)) as [q|] eqn:E; cbn [option_map].
  - apply strip_prefix_iff in E. assert (Es : s = rev q ++ p).
    { rewrite <- (rev_involutive s), E, rev_app_distr, rev_involutive. reflexivity. }
    rewrite Es. split; [now intros [= <-]|]. intros H. apply app_inv_tail in H. now subst.
  - split; [discriminate|]. intros ->. rewrite rev_app_distr in E.
    rewrite strip_prefix_none in E. now destruct (E (rev r)).
Qed.

Lemma str_eqb_iff a b : str_eqb a b = true <-> a = b.
Proof.
  revert b. induction a as [|x a IH]; intros [|y b]; cbn [str_eqb]; split; try discriminate; auto.
  - intros H. apply andb_prop in H as (H1 & H2). apply N.eqb_eq in H1. apply IH in H2. now subst.
  - intros H. injection H as -> ->. rewrite N.eqb_refl. now apply IH.
Qed.

(** ** Lines *)

Lemma split_inclusive_line cur l s : no_lf l ->
  split_inclusive cur (l ++ 10 :: s) = (rev cur ++ l ++ [10]) :: split_inclusive [] s.
Proof.
  revert cur. induction l as [|c l IH]; intros cur H; cbn [app split_inclusive].
  - reflexivity.
  - destruct (N.eqb_spec c 10) as [->|]; [exfalso; apply H; now left|].
    rewrite IH by (intros Hi; apply H; now right). cbn [rev]. now rewrite <- app_assoc.
Qed.

Lemma split_inclusive_last cur l : no_lf l ->
  split_inclusive cur l = match rev cur ++ l with [] => [] | x => [x] end.
Proof.
  revert cur. induction l as [|c l IH]; intros cur H; cbn [split_inclusive].
  - rewrite app_nil_r. destruct cur as [|x cur]; [reflexivity|].
    destruct (rev (x :: cur)) eqn:E; [|reflexivity]. cbn [rev] in E. now destruct (rev cur).
  - destruct (N.eqb_spec c 10) as [->|]; [exfalso; apply H; now left|].
    rewrite IH by (intros Hi; apply H; now right). cbn [rev]. now rewrite <- app_assoc.
Qed.

Definition strip_eol (l : list N) : list N :=
  match strip_suffix [10] l with
  | None => l
  | Some l => match strip_suffix [13] l with None => l | Some l => l end
  end.

Lemma trim_strip_eol l : trim (strip_eol l) = trim l.
Proof.
  unfold strip_eol. destruct (strip_suffix [10] l) as [l1|] eqn:E1; auto.
  apply strip_suffix_iff in E1 as ->.
  assert (W10 : white 10) by (right; left; reflexivity).
  assert (W13 : white 13) by (do 4 right; left; reflexivity).
  rewrite trim_app_white by (constructor; auto).
  destruct (strip_suffix [13] l1) as [l2|] eqn:E2; auto.
  apply strip_suffix_iff in E2 as ->. now rewrite trim_app_white by (constructor; auto).
Qed.

Lemma lines_trim ls : Forall no_lf ls ->
  map trim (lines (join_lines ls)) = map trim ls \/
  exists ls', ls = ls' ++ [[]] /\ map trim (lines (join_lines ls)) = map trim ls'.
Proof.
  assert (W10 : white 10) by (right; left; reflexivity).
  unfold lines. change (fun l => match strip_suffix [10] l with
       | Some l0 => match strip_suffix [13] l0 with Some l1 => l1 | None => l0 end
       | None => l end) with strip_eol.
  assert (E : forall l, map trim (map strip_eol l) = map trim l).
  { intros l. rewrite map_map. apply map_ext, trim_strip_eol. }
  intros H. rewrite E. clear E. induction H as [|l ls Hl Hls IH]; [now left|].
  destruct ls as [|l2 ls].
  - cbn [join_lines]. rewrite split_inclusive_last by auto. cbn [rev app].
    destruct l; [right; exists []; split; reflexivity|left; reflexivity].
  - change (join_lines (l :: l2 :: ls)) with (l ++ 10 :: join_lines (l2 :: ls)).
    rewrite split_inclusive_line by auto. cbn [rev app].
    cbn [map]. rewrite trim_app_white by (constructor; auto).
    destruct IH as [IH|(ls' & E1 & IH)].
    + left. cbn [map]. now rewrite IH.
    + right. exists (l :: ls'). split; [cbn [app]; now rewrite E1|]. cbn [map] in IH |- *. now rewrite IH.
Qed.

(** Every string is the join of its lines. *)
Lemma join_lines_exists s : exists ls, ls <> [] /\ s = join_lines ls /\ Forall no_lf ls.
Proof.
  induction s as [|c s (ls & Hne & E & Hn)].
  - exists [[]]. repeat split; [discriminate|]. constructor; [intros []|constructor].
  - destruct (N.eq_dec c 10) as [->|Hc].
    + exists ([] :: ls). split; [discriminate|]. split.
      * destruct ls; [congruence|]. cbn [join_lines app]. now rewrite E.
      * constructor; auto. intros [].
    + destruct ls as [|l ls]; [congruence|]. exists ((c :: l) :: ls). split; [discriminate|]. split.
      * rewrite E. destruct ls; reflexivity.
      * inversion Hn as [|? ? H1 H2]; subst. constructor; auto. intros [->|H]; auto.
Qed.

Lemma join_lines_unique ls ls' : ls <> [] -> ls' <> [] -> Forall no_lf ls -> Forall no_lf ls' ->
  join_lines ls = join_lines ls' -> ls = ls'.
Proof.
  assert (S1 : forall l m s r, no_lf l -> no_lf m -> l ++ 10 :: s = m ++ 10 :: r -> l = m /\ s = r).
  { induction l as [|x l IH]; intros [|y m] s r Hl Hm E; cbn [app] in E.
    - injection E as ->. auto.
    - injection E as <- _. destruct Hm. now left.
    - injection E as -> _. destruct Hl. now left.
    - injection E as -> E. apply IH in E as [-> ->]; auto; intros Hi; [apply Hl|apply Hm]; now right. }
  assert (S2 : forall l m r, no_lf l -> l <> m ++ 10 :: r).
  { intros l m r Hl ->. apply Hl. apply in_app_iff. right. now left. }
  intros Hne. revert ls'. induction ls as [|l ls IH]; [congruence|]. intros ls' Hne' H H' E.
  destruct ls' as [|l' ls']; [congruence|].
  inversion H as [|? ? Hl Hls]; inversion H' as [|? ? Hl' Hls']; subst.
  destruct ls as [|l2 ls], ls' as [|l2' ls'].
  - cbn [join_lines] in E. now subst.
  - exfalso. change (join_lines (l' :: l2' :: ls')) with (l' ++ 10 :: join_lines (l2' :: ls')) in E.
    change (join_lines [l]) with l in E. exact (S2 _ _ _ Hl E).
  - exfalso. change (join_lines (l :: l2 :: ls)) with (l ++ 10 :: join_lines (l2 :: ls)) in E.
    change (join_lines [l']) with l' in E. symmetry in E. exact (S2 _ _ _ Hl' E).
  - change (join_lines (l' :: l2' :: ls')) with (l' ++ 10 :: join_lines (l2' :: ls')) in E.
    change (join_lines (l :: l2 :: ls)) with (l ++ 10 :: join_lines (l2 :: ls)) in E.
    apply S1 in E as [-> E]; auto. f_equal. apply IH; auto; discriminate.
Qed.

(** ** The line loop *)

Lemma pem_lines_app l1 : forall l2 b d e,
  pem_lines (l1 ++ l2) b d e =
  match pem_lines l1 b d e with
  | RErr x => RErr x
  | ROk (b, d, e) => pem_lines l2 b d e
  end.
Proof.
  induction l1 as [|l l1 IH]; intros l2 b d e; cbn [app pem_lines]; [reflexivity|].
  repeat match goal with
  | |- context [match ?x with _ => _ end] => destruct x; auto
  end.
Qed.

Lemma pem_lines_trim ls ls' : map trim ls = map trim ls' -> forall b d e,
  pem_lines ls b d e = pem_lines ls' b d e.
Proof.
  revert ls'. induction ls as [|l ls IH]; intros [|l' ls'] E b d e; try discriminate; auto.
  cbn [map] in E. injection E as E1 E2. cbn [pem_lines]. rewrite E1.
  repeat match goal with
  | |- context [match ?x with _ => _ end] => destruct x; auto
  end.
Qed.

Definition is_plain (l : list N) : Prop :=
  strip_prefix begin_prefix l = None /\ strip_prefix end_prefix l = None.

Lemma begin_prefix_text : begin_prefix = text "-----BEGIN ". Proof. reflexivity. Qed.
Lemma end_prefix_text : end_prefix = text "-----END ". Proof. reflexivity. Qed.
Lemma dashes_text : dashes = text "-----". Proof. reflexivity. Qed.

Lemma is_plain_iff l : is_plain l <-> plain l.
Proof.
  unfold is_plain, plain. rewrite begin_prefix_text, end_prefix_text, !strip_prefix_none. tauto.
Qed.

Lemma begin_not_end r : strip_prefix begin_prefix (end_prefix ++ r) = None.
Proof. reflexivity. Qed.

Lemma strip_begin_line b : strip_prefix begin_prefix (begin_line b) = Some (b ++ dashes).
Proof. now apply strip_prefix_iff. Qed.
Lemma strip_end_line e : strip_prefix begin_prefix (end_line e) = None /\
  strip_prefix end_prefix (end_line e) = Some (e ++ dashes).
Proof. split; [reflexivity|now apply strip_prefix_iff]. Qed.
Lemma strip_dashes b : strip_suffix dashes (b ++ dashes) = Some b.
Proof. now apply strip_suffix_iff. Qed.

(** A run of plain lines. *)
Lemma pem_lines_plain ls b d e : Forall is_plain (map trim ls) ->
  pem_lines ls b d e =
  ROk (b, match b, e with Some _, None => d ++ map trim ls | _, _ => d end, e).
Proof.
  revert d. induction ls as [|l ls IH]; intros d H; cbn [pem_lines map].
  - destruct b, e; now rewrite ?app_nil_r.
  - inversion H as [|? ? (H1 & H2) H3]; subst. rewrite H1, H2.
    destruct b, e; rewrite IH by auto; auto. now rewrite <- app_assoc.
Qed.

(** The first line that is not plain. *)
Lemma first_special (ts : list (list N)) :
  Forall is_plain ts \/
  exists pre x post, ts = pre ++ x :: post /\ Forall is_plain pre /\ ~ is_plain x.
Proof.
  induction ts as [|t ts IH]; [left; constructor|].
  destruct (strip_prefix begin_prefix t) eqn:E1.
  { right. exists [], t, ts. repeat split; auto. intros (H & _). congruence. }
  destruct (strip_prefix end_prefix t) eqn:E2.
  { right. exists [], t, ts. repeat split; auto. intros (_ & H). congruence. }
  destruct IH as [IH|(pre & x & post & -> & Hp & Hx)].
  - left. constructor; auto. now split.
  - right. exists (t :: pre), x, post. repeat split; auto. constructor; auto. now split.
Qed.

Lemma map_trim_split ls pre x post : map trim ls = pre ++ x :: post ->
  exists l1 l l2, ls = l1 ++ l :: l2 /\ map trim l1 = pre /\ trim l = x /\ map trim l2 = post.
Proof.
  revert pre. induction ls as [|l ls IH]; intros [|p pre] E; cbn [map app] in E; try discriminate.
  - injection E as <- <-. exists [], l, ls. auto.
  - injection E as <- E. apply IH in E as (l1 & l' & l2 & -> & <- & <- & <-).
    exists (l :: l1), l', l2. auto.
Qed.

Lemma pem_lines_ok ls b mid e :
  pem_lines ls None [] None = ROk (Some b, mid, Some e) <->
  exists pre post, map trim ls = pre ++ [begin_line b] ++ mid ++ [end_line e] ++ post /\
    Forall is_plain pre /\ Forall is_plain mid /\ Forall is_plain post.
Proof.
  split.
  - intros H.
    destruct (first_special (map trim ls)) as [Hp|(pre & x & post & E & Hpre & Hx)].
    { rewrite pem_lines_plain in H by auto. discriminate. }
    apply map_trim_split in E as (l1 & l & l2 & -> & <- & <- & <-).
    rewrite pem_lines_app, pem_lines_plain in H by auto. cbn [pem_lines] in H.
    destruct (strip_prefix begin_prefix (trim l)) as [r|] eqn:Eb.
    2:{ destruct (strip_prefix end_prefix (trim l)) eqn:Ee; [discriminate|].
        exfalso. apply Hx. now split. }
    destruct (strip_suffix dashes r) as [b'|] eqn:Ed; [|discriminate].
    apply strip_suffix_iff in Ed as ->. apply strip_prefix_iff in Eb.
    destruct (first_special (map trim l2)) as [Hp|(pre2 & x2 & post2 & E & Hpre2 & Hx2)].
    { rewrite pem_lines_plain in H by auto. discriminate. }
    apply map_trim_split in E as (l3 & m & l4 & -> & <- & <- & <-).
    rewrite pem_lines_app, pem_lines_plain in H by auto. cbn [pem_lines app] in H.
    destruct (strip_prefix begin_prefix (trim m)) as [r|] eqn:Eb2; [discriminate|].
    destruct (strip_prefix end_prefix (trim m)) as [r|] eqn:Ee2.
    2:{ exfalso. apply Hx2. now split. }
    destruct (strip_suffix dashes r) as [e'|] eqn:Ed2; [|discriminate].
    apply strip_suffix_iff in Ed2 as ->. apply strip_prefix_iff in Ee2.
    destruct (first_special (map trim l4)) as [Hp|(pre3 & x3 & post3 & E & Hpre3 & Hx3)].
    + rewrite pem_lines_plain in H by auto. injection H as -> <- ->.
      exists (map trim l1), (map trim l4). split; auto.
      rewrite !map_app. cbn [map app]. rewrite !map_app. cbn [map]. rewrite Eb, Ee2. reflexivity.
    + apply map_trim_split in E as (l5 & k & l6 & -> & <- & <- & <-).
      rewrite pem_lines_app, pem_lines_plain in H by auto. cbn [pem_lines] in H.
      destruct (strip_prefix begin_prefix (trim k)) as [r|] eqn:Eb3; [discriminate|].
      destruct (strip_prefix end_prefix (trim k)) as [r|] eqn:Ee3; [discriminate|].
      exfalso. apply Hx3. now split.
  - intros (pre & post & E & Hpre & Hmid & Hpost).
    apply map_trim_split in E as (l1 & l & l2 & -> & <- & El & E). cbn [app] in E.
    apply map_trim_split in E as (l3 & m & l4 & -> & <- & Em & <-).
    rewrite pem_lines_app, pem_lines_plain by auto. cbn [pem_lines].
    rewrite El, strip_begin_line, strip_dashes.
    rewrite pem_lines_app, pem_lines_plain by auto. cbn [pem_lines app].
    destruct (strip_end_line e) as (S1 & S2). rewrite Em, S1, S2, strip_dashes.
    now rewrite pem_lines_plain by auto.
Qed.

(** What [decode_pem] does with the lines. *)
Definition decode_lines (ls : list (list N)) : result pem pem_error :=
  match pem_lines ls None [] None with
  | RErr e => RErr e
  | ROk (None, _, _) => RErr MissingBegin
  | ROk (Some _, _, None) => RErr MissingEnd
  | ROk (Some b, d, Some e) =>
      if str_eqb e b
      then match b64_decode (concat d) with
           | Some data => ROk {| pem_label := b; pem_data := data |}
           | None => RErr BadBase64
           end
      else RErr LabelMismatch
  end.

Lemma decode_pem_lines s : decode_pem s = decode_lines (lines s).
Proof.
  unfold decode_pem, extract_pem_pieces, decode_lines, parse_pem_data.
  destruct (pem_lines (lines s) None [] None) as [[[[b|] d] [e|]]|]; auto.
  destruct (str_eqb e b); auto. cbn [negb]. destruct (b64_decode (concat d)); auto.
Qed.

Lemma decode_lines_trim ls ls' : map trim ls = map trim ls' -> decode_lines ls = decode_lines ls'.
Proof. intros H. unfold decode_lines. now rewrite (pem_lines_trim ls ls' H). Qed.

Lemma decode_lines_empty ls : decode_lines (ls ++ [[]]) = decode_lines ls.
Proof.
  unfold decode_lines. rewrite pem_lines_app.
  destruct (pem_lines ls None [] None) as [[[[b|] d] [e|]]|]; reflexivity.
Qed.

Lemma decode_join ls : Forall no_lf ls -> decode_pem (join_lines ls) = decode_lines ls.
Proof.
  intros H. rewrite decode_pem_lines. destruct (lines_trim ls H) as [E|(ls' & -> & E)].
  - now apply decode_lines_trim.
  - rewrite decode_lines_empty. now apply decode_lines_trim.
Qed.

Lemma Forall2_trimmed ls ts : Forall2 trimmed ls ts <-> map trim ls = ts.
Proof.
  split.
  - intros H. induction H; cbn [map]; auto. f_equal; auto. now apply trim_iff.
  - intros <-. induction ls; constructor; auto. apply trim_trimmed.
Qed.

Lemma Forall_plain ls : Forall is_plain ls <-> Forall plain ls.
Proof. split; intros H; (eapply Forall_impl; [|exact H]); intros a; apply is_plain_iff. Qed.

Lemma decode_iff s label data :
  decode_pem s = ROk {| pem_label := label; pem_data := data |} <-> pem_text s label data.
Proof.
  split.
  - intros H. destruct (join_lines_exists s) as (ls & _ & -> & Hn).
    rewrite decode_join in H by auto. unfold decode_lines in H.
    destruct (pem_lines ls None [] None) as [[[[b|] mid] [e|]]|] eqn:E; try discriminate.
    destruct (str_eqb e b) eqn:Eb; [|discriminate]. apply str_eqb_iff in Eb as ->.
    destruct (b64_decode (concat mid)) as [dd|] eqn:Ed; [|discriminate]. injection H as <- <-.
    apply b64_decode_iff in Ed as (Hb & Ed).
    apply pem_lines_ok in E as (pre & post & E & H1 & H2 & H3).
    exists ls, pre, mid, post. rewrite <- !Forall_plain. repeat split; auto. now apply Forall2_trimmed.
  - intros (ls & pre & mid & post & -> & Hn & E & H1 & H2 & H3 & Hb & Ed).
    apply Forall_plain in H1, H2, H3. apply Forall2_trimmed in E.
    rewrite decode_join by auto. unfold decode_lines.
    assert (E2 : pem_lines ls None [] None = ROk (Some label, mid, Some label))
      by (apply pem_lines_ok; exists pre, post; auto).
    rewrite E2. replace (str_eqb label label) with true by (symmetry; now apply str_eqb_iff).
    replace (b64_decode (concat mid)) with (Some data); [reflexivity|].
    symmetry. now apply b64_decode_iff.
Qed.

(** Only the trimmed lines matter. *)
Lemma decode_white ls ls' : Forall no_lf ls -> Forall no_lf ls' ->
  Forall2 (fun l l' => exists t, trimmed l t /\ trimmed l' t) ls ls' ->
  decode_pem (join_lines ls) = decode_pem (join_lines ls').
Proof.
  intros H H' E. rewrite !decode_join by auto. apply decode_lines_trim.
  clear H H'. induction E as [|l l' ls ls' (t & H1 & H2) _ IH]; cbn [map]; auto.
  f_equal; auto. apply trim_iff in H1, H2. congruence.
Qed.

(** Labels never contain a line feed. *)
Lemma decode_label s p : decode_pem s = ROk p -> ~ In 10 (pem_label p).
Proof.
  destruct p as [label data]. intros H. apply decode_iff in H.
  destruct H as (ls & pre & mid & post & _ & Hn & E & _). intros Hi. cbn [pem_label] in Hi.
  assert (W : exists l, In l ls /\ trimmed l (begin_line label)).
  { clear - E. revert pre E. induction ls as [|l ls IH]; intros [|p pre] E; inversion E; subst.
    - exists l. split; [now left|auto].
    - destruct (IH pre) as (l' & K1 & K2); auto. exists l'. split; [now right|exact K2]. }
  destruct W as (l & Hl & (a & b & -> & _)). rewrite Forall_forall in Hn. apply (Hn _ Hl).
  rewrite !in_app_iff. right. left. unfold begin_line. rewrite !in_app_iff. auto.
Qed.

(** ** Printing *)

Definition with_lf (ls : list (list N)) : list N := concat (map (fun l => l ++ [10]) ls).

Lemma with_lf_app a b : with_lf (a ++ b) = with_lf a ++ with_lf b.
Proof. unfold with_lf. now rewrite map_app, concat_app. Qed.

Lemma join_with_lf ls l : join_lines (ls ++ [l]) = with_lf ls ++ l.
Proof.
  induction ls as [|x ls IH]; [reflexivity|].
  change (with_lf (x :: ls)) with ((x ++ [10]) ++ with_lf ls). rewrite <- !app_assoc. cbn [app].
  rewrite <- IH. destruct (ls ++ [l]) eqn:E; [now destruct ls|]. reflexivity.
Qed.

Lemma fmt_loop_spec s : forall i line,
  (i = 0%nat /\ line = []) \/ ((1 <= length line <= 64)%nat /\ (i mod 64 = length line mod 64)%nat /\ i <> 0%nat) ->
  let (o, l) := fmt_loop i line s in
  exists full lst, o ++ l ++ [10] = with_lf (full ++ [lst]) /\
    concat full ++ lst = line ++ s /\ Forall (fun l => length l = 64%nat) full /\
    (length lst <= 64)%nat /\ (line ++ s <> [] -> lst <> []).
Proof.
  induction s as [|c s IH]; intros i line H; cbn [fmt_loop].
  - exists [], line. cbn [app concat with_lf map]. rewrite !app_nil_r.
    repeat split; auto. destruct H as [(_ & ->)|H]; cbn [length]; lia.
  - destruct ((i mod 64 =? 0)%nat && negb (i =? 0)%nat) eqn:E.
    + apply andb_prop in E as (E1 & E2). destruct H as [(-> & _)|(Hl & Hm & Hi)]; [discriminate|].
      assert (Hl64 : length line = 64%nat) by lia.
      specialize (IH (S i) [c]). destruct (fmt_loop (S i) [c] s) as (o, l).
      destruct IH as (full & lst & E3 & E4 & H1 & H2 & H3).
      { right. cbn [length]. lia. }
      exists (line :: full), lst. split; [|split; [|split; [|split]]]; auto.
      * cbn [app]. change (with_lf (line :: full ++ [lst])) with ((line ++ [10]) ++ with_lf (full ++ [lst])).
        rewrite <- E3, <- !app_assoc. reflexivity.
      * cbn [concat]. rewrite <- app_assoc, E4. reflexivity.
      * intros _. apply H3. discriminate.
    + specialize (IH (S i) (line ++ [c])). destruct (fmt_loop (S i) (line ++ [c]) s) as (o, l).
      destruct IH as (full & lst & E3 & E4 & H1 & H2 & H3).
      { right. rewrite app_length. cbn [length].
        destruct H as [(-> & ->)|(Hl & Hm & Hi)]; cbn [length]; [repeat split; lia|].
        assert (Hnz : (i mod 64 <> 0)%nat) by lia.
        assert (Hl2 : (length line < 64)%nat) by lia. repeat split; lia. }
      exists full, lst. split; auto. rewrite <- app_assoc in E4, H3. auto.
Qed.

Lemma pem_fmt_spec p : bytes (pem_data p) -> exists full lst,
  pem_fmt p = join_lines ([begin_line (pem_label p)] ++ full ++ [lst] ++ [end_line (pem_label p)]) /\
  concat full ++ lst = base64 (pem_data p) /\
  Forall (fun l => length l = 64%nat) full /\ (length lst <= 64)%nat /\
  (pem_data p <> [] -> lst <> []).
Proof.
  intros Hb. unfold pem_fmt. pose proof (fmt_loop_spec (b64_encode (pem_data p)) 0 []) as H.
  destruct (fmt_loop 0 [] (b64_encode (pem_data p))) as (o, l).
  destruct H as (full & lst & E1 & E2 & H1 & H2 & H3); [left; auto|].
  exists full, lst. rewrite <- (b64_encode_spec (pem_data p)) by auto.
  split; [|split; [|split; [|split]]]; auto.
  - rewrite E1. replace ([begin_line (pem_label p)] ++ full ++ [lst] ++ [end_line (pem_label p)])
      with (([begin_line (pem_label p)] ++ full ++ [lst]) ++ [end_line (pem_label p)])
      by now rewrite <- !app_assoc.
    rewrite join_with_lf, (with_lf_app [begin_line (pem_label p)]).
    replace (with_lf [begin_line (pem_label p)]) with (begin_line (pem_label p) ++ [10])
      by (unfold with_lf; cbn [map concat]; now rewrite app_nil_r).
    unfold begin_line, end_line. rewrite <- begin_prefix_text, <- end_prefix_text, <- dashes_text.
    rewrite <- !app_assoc. reflexivity.
  - intros Hd. apply H3. cbn [app]. destruct (pem_data p) as [|x [|y [|z d]]]; [congruence| | |]; discriminate.
Qed.

(** ** Round trip *)

Lemma white_range c : 43 <= c < 128 -> ~ white c.
Proof.
  intros H Hw. apply is_whitespace_iff in Hw. unfold is_whitespace in Hw. lia.
Qed.

Lemma trimmed_self l : (forall c r, l = c :: r -> ~ white c) -> (forall c r, l = r ++ [c] -> ~ white c) ->
  trimmed l l.
Proof.
  intros H1 H2. exists [], []. rewrite app_nil_r. repeat split; auto.
Qed.

Lemma trimmed_dashes a b : trimmed (text "-----" ++ a ++ b ++ text "-----") (text "-----" ++ a ++ b ++ text "-----").
Proof.
  apply trimmed_self.
  - intros c r E. apply (f_equal (hd 0)) in E. cbn [text] in E. change (45 = c) in E. subst c.
    apply white_range. lia.
  - intros c r E. apply (f_equal (fun l => hd 0 (rev l))) in E.
    rewrite !app_assoc, !rev_app_distr in E. change (45 = c) in E. subst c. apply white_range. lia.
Qed.

Lemma b64_line l : Forall (fun c => 43 <= c < 128 /\ c <> 45) l ->
  trimmed l l /\ plain l /\ no_lf l.
Proof.
  intros H. assert (W : forall c, In c l -> 43 <= c < 128 /\ c <> 45) by now apply Forall_forall.
  split; [apply trimmed_self|split; [split|]].
  - intros c r ->. apply white_range. apply W. now left.
  - intros c r ->. apply white_range. apply W. apply in_app_iff. right. now left.
  - intros r ->. destruct (W 45); [now left|congruence].
  - intros r ->. destruct (W 45); [now left|congruence].
  - intros Hi. apply W in Hi. lia.
Qed.

Lemma pem_roundtrip p : bytes (pem_data p) -> ~ In 10 (pem_label p) ->
  decode_pem (pem_fmt p) = ROk p.
Proof.
  intros Hb Hl. destruct (pem_fmt_spec p Hb) as (full & lst & -> & E & _ & _ & _).
  destruct p as [label data]. cbn [pem_label pem_data] in *. apply decode_iff.
  assert (HF : Forall (fun l => Forall (fun c => 43 <= c < 128 /\ c <> 45) l) (full ++ [lst])).
  { pose proof (b64_encode_chars data Hb) as Hc. rewrite b64_encode_spec, <- E in Hc by auto.
    apply Forall_app in Hc as (H1 & H2). apply Forall_app. split; [|constructor; auto].
    apply Forall_forall. intros l Hil. rewrite Forall_forall in H1 |- *. intros c Hc. apply H1.
    apply in_concat. eauto. }
  exists ([begin_line label] ++ full ++ [lst] ++ [end_line label]), [], (full ++ [lst]), [].
  split; [reflexivity|]. split; [|split; [|split; [|split; [|split; [|split]]]]]; auto.
  - assert (Ht : no_lf (text "-----BEGIN ") /\ no_lf (text "-----END ") /\ no_lf (text "-----")).
    { repeat split; intros H; repeat (destruct H as [H|H]; [discriminate H|]); destruct H. }
    destruct Ht as (T1 & T2 & T3). unfold no_lf in T1, T2, T3. cbn [app].
    constructor; [unfold begin_line; rewrite !in_app_iff; tauto|].
    replace (full ++ [lst; end_line label]) with ((full ++ [lst]) ++ [end_line label])
      by now rewrite <- app_assoc.
    apply Forall_app. split.
    + eapply Forall_impl; [|exact HF]. intros l H. now apply b64_line.
    + constructor; [|constructor]. unfold end_line. rewrite !in_app_iff. tauto.
  - cbn [app]. rewrite <- app_assoc. cbn [app].
    assert (Hd : trimmed (begin_line label) (begin_line label) /\ trimmed (end_line label) (end_line label)).
    { split; [apply (trimmed_dashes (text "BEGIN ") label)|apply (trimmed_dashes (text "END ") label)]. }
    constructor; [apply Hd|]. replace (full ++ lst :: [end_line label]) with ((full ++ [lst]) ++ [end_line label])
      by now rewrite <- app_assoc.
    apply Forall2_app; [|constructor; [apply Hd|constructor]].
    clear - HF. induction HF; constructor; auto. now apply b64_line.
  - eapply Forall_impl; [|exact HF]. intros l H. now apply b64_line.
  - rewrite concat_app. cbn [concat]. now rewrite app_nil_r.
Qed.

Lemma pem_roundtrip_lf p : In 10 (pem_label p) -> forall s, decode_pem s <> ROk p.
Proof. intros H s E. apply decode_label in E. auto. Qed.

(** ** Errors *)

Lemma strip_begin_text r : strip_prefix begin_prefix (text "-----BEGIN " ++ r) = Some r.
Proof. now apply strip_prefix_iff. Qed.
Lemma strip_end_text r : strip_prefix begin_prefix (text "-----END " ++ r) = None /\
  strip_prefix end_prefix (text "-----END " ++ r) = Some r.
Proof. split; [reflexivity|now apply strip_prefix_iff]. Qed.
Lemma strip_unclosed r : unclosed r -> strip_suffix dashes r = None.
Proof.
  intros H. destruct (strip_suffix dashes r) as [q|] eqn:E; auto.
  apply strip_suffix_iff in E. now apply H in E.
Qed.

Lemma faulty_error ls f : faulty (map trim ls) f -> decode_lines ls = RErr (fault_error f).
Proof.
  intros H. remember (map trim ls) as ts eqn:E. symmetry in E. unfold decode_lines.
  assert (HP : forall l, Forall plain l -> Forall is_plain l) by (intros; now apply Forall_plain).
  destruct H; repeat match goal with H : Forall plain _ |- _ => apply HP in H end;
  repeat match goal with
  | E : map trim ?l = _ ++ _ :: _ |- _ =>
      let l1 := fresh "l" in let x := fresh "x" in let l2 := fresh "l" in let E2 := fresh "E" in
      apply map_trim_split in E as (l1 & x & l2 & -> & <- & E2 & E)
  end;
  repeat match goal with
  | E : map trim ?l = ?m |- _ => is_var m; symmetry in E; subst m
  end.
  all: repeat first
   [ rewrite pem_lines_app | rewrite pem_lines_plain by auto
   | progress cbn [pem_lines app]
   | match goal with E : trim ?x = _ |- context [trim ?x] => rewrite E end
   | rewrite strip_begin_line | rewrite strip_dashes | rewrite strip_begin_text
   | rewrite strip_unclosed by auto
   | rewrite (proj1 (strip_end_line _)) | rewrite (proj2 (strip_end_line _))
   | rewrite (proj1 (strip_end_text _)) | rewrite (proj2 (strip_end_text _)) ].
  all: try reflexivity.
  - destruct (str_eqb e b) eqn:Es; [|reflexivity]. apply str_eqb_iff in Es. congruence.
  - replace (str_eqb b b) with true by (symmetry; now apply str_eqb_iff).
    destruct (b64_decode (concat (map trim l1))) as [d|] eqn:Ed; [|reflexivity].
    apply b64_decode_iff in Ed as (Hd & Ed). exfalso. eapply H2; eauto.
Qed.

Lemma special_cases x : ~ is_plain x ->
  (exists b, x = begin_line b) \/ (exists e, x = end_line e) \/
  (exists r, x = text "-----BEGIN " ++ r /\ unclosed r) \/
  (exists r, x = text "-----END " ++ r /\ unclosed r).
Proof.
  intros H. destruct (strip_prefix begin_prefix x) as [r|] eqn:E1.
  - apply strip_prefix_iff in E1. destruct (strip_suffix dashes r) as [q|] eqn:E2.
    + apply strip_suffix_iff in E2. left. exists q. now subst.
    + right. right. left. exists r. split; auto. intros q ->.
      rewrite (proj2 (strip_suffix_iff dashes (q ++ text "-----") q)) in E2 by reflexivity. discriminate.
  - destruct (strip_prefix end_prefix x) as [r|] eqn:E3.
    + apply strip_prefix_iff in E3. destruct (strip_suffix dashes r) as [q|] eqn:E2.
      * apply strip_suffix_iff in E2. right. left. exists q. now subst.
      * right. right. right. exists r. split; auto. intros q ->.
        rewrite (proj2 (strip_suffix_iff dashes (q ++ text "-----") q)) in E2 by reflexivity. discriminate.
    + exfalso. apply H. now split.
Qed.

Lemma lines_cases ls :
  (exists f, faulty (map trim ls) f) \/ (exists p, decode_lines ls = ROk p).
Proof.
  assert (HP : forall l, Forall is_plain l -> Forall plain l) by (intros; now apply Forall_plain).
  destruct (decode_lines ls) as [p|e0] eqn:D; [right; eauto|left].
  destruct (first_special (map trim ls)) as [Hp|(pre & x & post & E & Hpre & Hx)].
  { exists FMissingBegin. constructor. auto. }
  rewrite E. apply HP in Hpre.
  apply special_cases in Hx as [(b & ->)|[(e & ->)|[(r & -> & Hr)|(r & -> & Hr)]]].
  2:{ exists FEndBeforeBegin. unfold end_line. constructor; auto. }
  2:{ exists FInvalidBegin. constructor; auto. }
  2:{ exists FEndBeforeBegin. constructor; auto. }
  destruct (first_special post) as [Hp|(mid & y & post2 & -> & Hmid & Hy)].
  { exists FMissingEnd. constructor; auto. }
  apply HP in Hmid.
  apply special_cases in Hy as [(b2 & ->)|[(e & ->)|[(r & -> & Hr)|(r & -> & Hr)]]].
  1:{ exists FMultipleBegin. apply (f_second_begin pre b mid (b2 ++ text "-----")); auto. }
  2:{ exists FMultipleBegin. constructor; auto. }
  2:{ exists FInvalidEnd. constructor; auto. }
  destruct (first_special post2) as [Hp|(rest & z & post3 & -> & Hrest & Hz)].
  - apply HP in Hp. destruct (list_eq_dec N.eq_dec e b) as [->|Hn].
    2:{ exists FLabelMismatch. constructor; auto. }
    destruct (b64_decode (concat mid)) as [d|] eqn:Ed.
    + exfalso. unfold decode_lines in D.
      assert (E2 : pem_lines ls None [] None = ROk (Some b, mid, Some b)).
      { apply pem_lines_ok. exists pre, post2. rewrite !Forall_plain. auto. }
      rewrite E2 in D. replace (str_eqb b b) with true in D by (symmetry; now apply str_eqb_iff).
      rewrite Ed in D. discriminate.
    + exists FBadBase64. constructor; auto. intros d Hd Ec.
      assert (Es : b64_decode (concat mid) = Some d) by (apply b64_decode_iff; auto). congruence.
  - apply HP in Hrest.
    apply special_cases in Hz as [(b2 & ->)|[(e2 & ->)|[(r & -> & Hr)|(r & -> & Hr)]]].
    + exists FMultipleBegin. apply (f_begin_after_end pre b mid e rest (b2 ++ text "-----")); auto.
    + exists FMultipleEnd. apply (f_second_end pre b mid e rest (e2 ++ text "-----")); auto.
    + exists FMultipleBegin. constructor; auto.
    + exists FMultipleEnd. constructor; auto.
Qed.

Lemma decode_error ls ts f : Forall no_lf ls -> Forall2 trimmed ls ts ->
  decode_pem (join_lines ls) = RErr (fault_error f) <-> faulty ts f.
Proof.
  intros Hn Ht. apply Forall2_trimmed in Ht as <-. rewrite decode_join by auto. split.
  - intros H. destruct (lines_cases ls) as [(g & G)|(p & P)]; [|congruence].
    pose proof (faulty_error _ _ G) as E. rewrite H in E.
    assert (fault_error f = fault_error g) by congruence.
    assert (f = g) by (destruct f, g; auto; discriminate). now subst.
  - apply faulty_error.
Qed.

Lemma decode_total s : (exists p, decode_pem s = ROk p) \/
  (exists f, decode_pem s = RErr (fault_error f)).
Proof.
  destruct (decode_pem s) as [p|e]; [left; eauto|right].
  destruct e; [exists FMultipleBegin|exists FInvalidBegin|exists FEndBeforeBegin|exists FMultipleEnd
    |exists FInvalidEnd|exists FMissingBegin|exists FMissingEnd|exists FLabelMismatch|exists FBadBase64];
    reflexivity.
Qed.

Lemma trimmed_exists l : exists t, trimmed l t /\ forall u, trimmed l u -> u = t.
Proof.
  exists (trim l). split; [apply trim_trimmed|]. intros u H. symmetry. now apply trim_iff.
Qed.

Lemma pem_normalises s p : decode_pem s = ROk p -> decode_pem (pem_fmt p) = ROk p.
Proof.
  intros E. apply pem_roundtrip.
  - destruct p as [l d]. apply decode_iff in E. destruct E as (ls & pre & mid & post & _ & _ & _ & _ & _ & _ & B & _). exact B.
  - intros I. exact (pem_roundtrip_lf p I s E).
Qed.
