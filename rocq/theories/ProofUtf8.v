(** * The PEM functions on characters and on UTF-8 bytes *)
From Coq Require Import ZifyBool ZifyNat ZifyN.
From Verif Require Import Base BaseLemmas ModelPem SpecPem SpecUtf8 ModelUtf8 ProofBase64 ProofPem.
Local Open Scope N_scope.
Ltac Zify.zify_post_hook ::= idtac.

(** ** Decoding one character *)

Lemma cont_land x : x < 64 -> N.land (0x80 + x) 0x3f = x.
Proof.
  intros H. change 0x3f with (N.ones 6). rewrite N.land_ones.
  replace (0x80 + x) with (x + 2 * 2 ^ 6) by lia. rewrite N.mod_add by discriminate. now apply N.mod_small.
Qed.
Lemma lead_land b x k : x < 2 ^ k -> (exists j, b = j * 2 ^ k) -> N.land (b + x) (N.ones k) = x.
Proof.
  intros H (j & ->). rewrite N.land_ones, N.add_comm, N.mod_add by (apply N.pow_nonzero; discriminate).
  now apply N.mod_small.
Qed.

Lemma cont_byte x : x < 64 -> is_cont_byte (0x80 + x) = true.
Proof. intros H. unfold is_cont_byte. lia. Qed.
Lemma lead_byte x : 192 <= x -> is_cont_byte x = false.
Proof. intros H. unfold is_cont_byte. lia. Qed.

Lemma lt_mod a : a mod 2 ^ 6 < 64. Proof. now apply N.mod_lt. Qed.

Lemma two_digits c : c = c / 2 ^ 6 * 2 ^ 6 + c mod 2 ^ 6.
Proof. rewrite N.mul_comm. now apply N.div_mod. Qed.
Lemma three_digits c : c = c / 2 ^ 12 * 2 ^ 12 + (c / 2 ^ 6 mod 2 ^ 6 * 2 ^ 6 + c mod 2 ^ 6).
Proof.
  rewrite (two_digits c) at 1. rewrite (two_digits (c / 2 ^ 6)) at 1.
  rewrite N.div_div by discriminate. change (2 ^ 6 * 2 ^ 6) with (2 ^ 12). lia.
Qed.
Lemma four_digits c : c = c / 2 ^ 18 * 2 ^ 18 + ((c / 2 ^ 12 mod 2 ^ 6 * 2 ^ 6 + c / 2 ^ 6 mod 2 ^ 6) * 2 ^ 6 + c mod 2 ^ 6).
Proof.
  rewrite (three_digits c) at 1. rewrite (two_digits (c / 2 ^ 12)) at 1.
  rewrite N.div_div by discriminate. change (2 ^ 12 * 2 ^ 6) with (2 ^ 18). lia.
Qed.

Inductive utf8_form (c : N) : list N -> Prop :=
| utf8_1 : c < 128 -> utf8_form c [c]
| utf8_2 a b : 2 <= a < 32 -> b < 64 -> c = a * 2 ^ 6 + b -> utf8_form c [0xc0 + a; 0x80 + b]
| utf8_3 a b d : a < 16 -> b < 64 -> d < 64 -> 128 <= c -> c = a * 2 ^ 12 + (b * 2 ^ 6 + d) ->
    utf8_form c [0xe0 + a; 0x80 + b; 0x80 + d]
| utf8_4 a b d e : a < 8 -> b < 64 -> d < 64 -> e < 64 -> 128 <= c -> c = a * 2 ^ 18 + ((b * 2 ^ 6 + d) * 2 ^ 6 + e) ->
    utf8_form c [0xf0 + a; 0x80 + b; 0x80 + d; 0x80 + e].

Lemma utf8_forms c : scalar c -> utf8_form c (utf8 c).
Proof.
  intros H. assert (Hc : c < 0x110000) by (unfold scalar in H; lia). clear H. unfold utf8.
  destruct (N.ltb_spec c 0x80) as [H1|H1]; [now constructor|].
  destruct (N.ltb_spec c 0x800) as [H2|H2].
  - constructor; [|apply lt_mod|apply two_digits]. split; [now apply N.div_le_lower_bound|now apply N.div_lt_upper_bound].
  - destruct (N.ltb_spec c 0x10000) as [H3|H3].
    + constructor; [now apply N.div_lt_upper_bound|apply lt_mod|apply lt_mod|exact H1|apply three_digits].
    + constructor; [|apply lt_mod|apply lt_mod|apply lt_mod|exact H1|apply four_digits].
      apply N.div_lt_upper_bound; [discriminate|]. apply N.lt_trans with 0x110000; [exact Hc|reflexivity].
Qed.

Lemma next_utf8 c r : scalar c -> next_code_point (utf8 c ++ r) = Some (c, r).
Proof.
  intros H. destruct (utf8_forms c H) as [Hc|a b Ha Hb E|a b d Ha Hb Hd _ E|a b d e Ha Hb Hd He _ E]; cbn [app]; unfold next_code_point.
  - destruct (N.ltb_spec c 128); [reflexivity|lia].
  - destruct (N.ltb_spec (0xc0 + a) 128) as [|_]; [lia|]. destruct (N.ltb_spec (0xc0 + a) 0xe0) as [_|]; [|lia].
    rewrite cont_land by exact Hb. change 0x1f with (N.ones 5). rewrite lead_land; [|lia|now exists 6].
    rewrite lor_shift_add by exact Hb. now rewrite E.
  - destruct (N.ltb_spec (0xe0 + a) 128) as [|_]; [lia|]. destruct (N.ltb_spec (0xe0 + a) 0xe0) as [|_]; [lia|].
    destruct (N.ltb_spec (0xe0 + a) 0xf0) as [_|]; [|lia].
    rewrite !cont_land by assumption. change 0x1f with (N.ones 5). rewrite lead_land; [|lia|now exists 7].
    rewrite (lor_shift_add b d 6) by exact Hd. rewrite lor_shift_add by lia. now rewrite E.
  - destruct (N.ltb_spec (0xf0 + a) 128) as [|_]; [lia|]. destruct (N.ltb_spec (0xf0 + a) 0xe0) as [|_]; [lia|].
    destruct (N.ltb_spec (0xf0 + a) 0xf0) as [|_]; [lia|].
    rewrite !cont_land by assumption.
    replace (N.land (N.land (0xf0 + a) 0x1f) 7) with a.
    + rewrite (lor_shift_add b d 6) by exact Hd. rewrite (lor_shift_add _ e 6) by exact He.
      rewrite lor_shift_add by lia. now rewrite E.
    + rewrite <- N.land_assoc. change (N.land 0x1f 7) with (N.ones 3). rewrite lead_land; [reflexivity|lia|now exists 30].
Qed.

Lemma next_utf8_reverse c r : scalar c -> next_code_point_reverse (rev (utf8 c) ++ r) = Some (c, r).
Proof.
  intros H. destruct (utf8_forms c H) as [Hc|a b Ha Hb E|a b d Ha Hb Hd _ E|a b d e Ha Hb Hd He _ E]; cbn [rev app];
    unfold next_code_point_reverse.
  - destruct (N.ltb_spec c 128); [reflexivity|lia].
  - destruct (N.ltb_spec (0x80 + b) 128) as [|_]; [lia|]. rewrite lead_byte by lia. cbn [negb].
    rewrite cont_land by exact Hb. change 0x1f with (N.ones 5). rewrite lead_land; [|lia|now exists 6].
    rewrite lor_shift_add by exact Hb. now rewrite E.
  - destruct (N.ltb_spec (0x80 + d) 128) as [|_]; [lia|]. rewrite cont_byte by exact Hb. rewrite lead_byte by lia. cbn [negb].
    rewrite !cont_land by assumption. change 0xf with (N.ones 4). rewrite lead_land; [|lia|now exists 14].
    rewrite (lor_shift_add a b 6) by exact Hb. rewrite lor_shift_add by exact Hd. rewrite E. f_equal. f_equal.
    change (2 ^ 12) with (2 ^ 6 * 2 ^ 6). lia.
  - destruct (N.ltb_spec (0x80 + e) 128) as [|_]; [lia|]. rewrite !cont_byte by assumption. cbn [negb].
    rewrite !cont_land by assumption. change 7 with (N.ones 3). rewrite lead_land; [|lia|now exists 30].
    rewrite (lor_shift_add a b 6) by exact Hb. rewrite (lor_shift_add _ d 6) by exact Hd. rewrite lor_shift_add by exact He.
    rewrite E. f_equal. f_equal. change (2 ^ 18) with (2 ^ 6 * 2 ^ 6 * 2 ^ 6). lia.
Qed.

(** ** Strings *)

Lemma utf8s_cons c s : utf8s (c :: s) = utf8 c ++ utf8s s. Proof. reflexivity. Qed.
Lemma utf8s_app s t : utf8s (s ++ t) = utf8s s ++ utf8s t.
Proof. unfold utf8s. now rewrite map_app, concat_app. Qed.

Lemma utf8_nonempty c : (1 <= length (utf8 c))%nat.
Proof. unfold utf8. repeat match goal with |- context [if ?b then _ else _] => destruct b end; cbn [length]; lia. Qed.

Lemma utf8s_inj s : forall t, Forall scalar s -> Forall scalar t -> utf8s s = utf8s t -> s = t.
Proof.
  induction s as [|c s IH]; intros [|d t] Hs Ht E; [reflexivity| | |].
  - exfalso. apply (f_equal (@length N)) in E. rewrite utf8s_cons, app_length in E. pose proof (utf8_nonempty d). cbn in E. lia.
  - exfalso. apply (f_equal (@length N)) in E. rewrite utf8s_cons, app_length in E. pose proof (utf8_nonempty c). cbn in E. lia.
  - inversion Hs as [|? ? Hc Hs']; subst. inversion Ht as [|? ? Hd Ht']; subst. rewrite !utf8s_cons in E.
    pose proof (next_utf8 c (utf8s s) Hc) as E1. rewrite E, next_utf8 in E1 by exact Hd. injection E1 as -> E1.
    f_equal. now apply IH.
Qed.

(** The bytes of a character that is not ASCII are not ASCII. *)
Lemma utf8_ascii c : c < 128 -> utf8 c = [c].
Proof. intros H. unfold utf8. destruct (N.ltb_spec c 0x80); [reflexivity|lia]. Qed.
Lemma utf8_high c : 128 <= c -> Forall (fun b => 128 <= b) (utf8 c).
Proof.
  intros H. unfold utf8. destruct (N.ltb_spec c 0x80) as [|_]; [lia|].
  repeat match goal with |- context [if ?b then _ else _] => destruct b end;
    repeat (apply Forall_cons; [eapply N.le_trans; [|apply N.le_add_r]; discriminate|]); apply Forall_nil.
Qed.
Lemma utf8_first c : 128 <= c -> exists b r, utf8 c = b :: r /\ 128 <= b.
Proof.
  intros H. pose proof (utf8_high c H) as F. pose proof (utf8_nonempty c) as L. destruct (utf8 c) as [|b r]; [cbn in L; lia|].
  exists b, r. split; [reflexivity|]. now inversion F.
Qed.
Lemma utf8_last c : 128 <= c -> exists b r, rev (utf8 c) = b :: r /\ 128 <= b.
Proof.
  intros H. pose proof (utf8_high c H) as F. pose proof (utf8_nonempty c) as L. apply Forall_rev in F.
  rewrite <- rev_length in L. destruct (rev (utf8 c)) as [|b r]; [cbn in L; lia|].
  exists b, r. split; [reflexivity|]. now inversion F.
Qed.

Lemma utf8s_ascii s : Forall (fun c => c < 128) s -> utf8s s = s.
Proof.
  induction 1 as [|c s Hc _ IH]; [reflexivity|]. now rewrite utf8s_cons, utf8_ascii, IH by exact Hc.
Qed.
Lemma utf8s_ascii_inv s : Forall (fun b => b < 128) (utf8s s) -> Forall (fun c => c < 128) s.
Proof.
  induction s as [|c s IH]; intros H; [constructor|]. rewrite utf8s_cons in H. apply Forall_app in H as [Hc Hs].
  constructor; [|now apply IH]. destruct (N.lt_ge_cases c 128) as [L|G]; [exact L|].
  destruct (utf8_first c G) as (b & r & E & Hb). rewrite E in Hc. inversion Hc. lia.
Qed.

(** The string read from its end. *)
Lemma rev_utf8s s : rev (utf8s s) = concat (map (fun c => rev (utf8 c)) (rev s)).
Proof.
  induction s as [|c s IH]; [reflexivity|]. rewrite utf8s_cons, rev_app_distr, IH. cbn [rev].
  rewrite map_app, concat_app. cbn [map concat]. now rewrite app_nil_r.
Qed.

(** ** Prefixes and suffixes *)

Lemma strip_prefix_bytes (f : N -> list N) p : (forall c, c < 128 -> f c = [c]) ->
  (forall c, 128 <= c -> exists b r, f c = b :: r /\ 128 <= b) -> Forall (fun c => c < 128) p ->
  forall s, strip_prefix p (concat (map f s)) = option_map (fun r => concat (map f r)) (strip_prefix p s).
Proof.
  intros F1 F2 H. induction H as [|x p Hx _ IH]; intros s; [reflexivity|].
  destruct s as [|c s]; [reflexivity|]. cbn [map concat]. destruct (N.lt_ge_cases c 128) as [L|G].
  - rewrite F1 by exact L. cbn [app strip_prefix]. destruct (x =? c); [apply IH|reflexivity].
  - destruct (F2 c G) as (b & r & E & Hb). rewrite E. cbn [app strip_prefix].
    destruct (N.eqb_spec x b) as [|_]; [lia|]. destruct (N.eqb_spec x c) as [|_]; [lia|]. reflexivity.
Qed.

Lemma strip_prefix_utf8 p s : Forall (fun c => c < 128) p ->
  strip_prefix p (utf8s s) = option_map utf8s (strip_prefix p s).
Proof. intros H. exact (strip_prefix_bytes utf8 p utf8_ascii utf8_first H s). Qed.

Lemma strip_suffix_utf8 p s : Forall (fun c => c < 128) p ->
  strip_suffix p (utf8s s) = option_map utf8s (strip_suffix p s).
Proof.
  intros H. unfold strip_suffix. rewrite rev_utf8s.
  rewrite (strip_prefix_bytes (fun c => rev (utf8 c))).
  - destruct (strip_prefix (rev p) (rev s)) as [r|]; [|reflexivity]. cbn [option_map]. f_equal.
    rewrite <- (rev_involutive r) at 1. rewrite <- rev_utf8s. apply rev_involutive.
  - intros c Hc. now rewrite utf8_ascii.
  - exact utf8_last.
  - now apply Forall_rev.
Qed.

Lemma strip_prefix_scalar p s r : Forall scalar s -> strip_prefix p s = Some r -> Forall scalar r.
Proof. intros H E. apply strip_prefix_iff in E. subst s. now apply Forall_app in H. Qed.
Lemma strip_suffix_scalar p s r : Forall scalar s -> strip_suffix p s = Some r -> Forall scalar r.
Proof. intros H E. apply strip_suffix_iff in E. subst s. now apply Forall_app in H. Qed.

(** ** White space *)

Lemma trim_with_ok next (f : N -> list N) s : (forall c r, scalar c -> next (f c ++ r) = Some (c, r)) -> next [] = None ->
  Forall scalar s -> forall fuel, (length s <= fuel)%nat ->
  trim_with next fuel (concat (map f s)) = concat (map f (trim_start s)).
Proof.
  intros Hn H0. induction 1 as [|c s Hc _ IH]; intros fuel L; destruct fuel as [|fuel]; cbn [map concat trim_with trim_start length] in *.
  - reflexivity.
  - now rewrite H0.
  - lia.
  - rewrite Hn by exact Hc. destruct (is_whitespace c); [apply IH; lia|reflexivity].
Qed.

Lemma utf8s_length s : (length s <= length (utf8s s))%nat.
Proof.
  induction s as [|c s IH]; [reflexivity|]. rewrite utf8s_cons, app_length. pose proof (utf8_nonempty c). cbn [length]. lia.
Qed.

Lemma trim_start_scalar s : Forall scalar s -> Forall scalar (trim_start s).
Proof. induction 1 as [|c s Hc H IH]; [constructor|]. cbn [trim_start]. destruct (is_whitespace c); [exact IH|now constructor]. Qed.
Lemma trim_scalar s : Forall scalar s -> Forall scalar (trim s).
Proof. intros H. unfold trim. now apply Forall_rev, trim_start_scalar, Forall_rev, trim_start_scalar. Qed.

Lemma trim_utf8_ok s : Forall scalar s -> trim_utf8 (utf8s s) = utf8s (trim s).
Proof.
  intros H. unfold trim_utf8. cbv zeta.
  assert (E : trim_with next_code_point (length (utf8s s)) (utf8s s) = utf8s (trim_start s))
    by exact (trim_with_ok next_code_point utf8 s next_utf8 eq_refl H _ (utf8s_length s)).
  rewrite E, rev_utf8s.
  rewrite (trim_with_ok next_code_point_reverse (fun c => rev (utf8 c)) _ next_utf8_reverse eq_refl).
  - unfold trim. rewrite <- (rev_involutive (trim_start (rev (trim_start s)))) at 1. rewrite <- rev_utf8s. apply rev_involutive.
  - now apply Forall_rev, trim_start_scalar.
  - rewrite rev_length. apply utf8s_length.
Qed.

(** ** Lines *)

Lemma split_high bs : Forall (fun b => 128 <= b) bs -> forall cur r,
  split_inclusive cur (bs ++ r) = split_inclusive (rev bs ++ cur) r.
Proof.
  induction 1 as [|b bs Hb _ IH]; intros cur r; [reflexivity|]. cbn [app split_inclusive rev].
  destruct (N.eqb_spec b 10) as [|_]; [lia|]. rewrite IH, <- app_assoc. reflexivity.
Qed.

Lemma split_utf8 s : forall cur,
  split_inclusive (rev (utf8s (rev cur))) (utf8s s) = map utf8s (split_inclusive cur s).
Proof.
  induction s as [|c s IH]; intros cur.
  - cbn [utf8s map concat split_inclusive]. rewrite rev_involutive. destruct cur as [|x cur]; [reflexivity|].
    cbn [map]. destruct (rev (utf8s (rev (x :: cur)))) eqn:E; [|reflexivity].
    exfalso. apply (f_equal (@length N)) in E. pose proof (utf8s_length (rev (x :: cur))) as L.
    rewrite rev_length in E, L. cbn [length] in E, L. lia.
  - assert (X : rev (utf8s (rev (c :: cur))) = rev (utf8 c) ++ rev (utf8s (rev cur))).
    { cbn [rev]. rewrite utf8s_app, rev_app_distr. cbn [utf8s map concat]. now rewrite app_nil_r. }
    rewrite utf8s_cons. cbn [split_inclusive]. destruct (N.lt_ge_cases c 128) as [L|G].
    + rewrite (utf8_ascii c L) in *. cbn [app split_inclusive rev] in *. destruct (c =? 10).
      * cbn [map]. f_equal; [|exact (IH [])]. rewrite rev_involutive, utf8s_app. f_equal.
        rewrite utf8s_cons, (utf8_ascii c L). reflexivity.
      * rewrite <- X. exact (IH (c :: cur)).
    + rewrite split_high by now apply utf8_high. destruct (N.eqb_spec c 10) as [|_]; [lia|]. rewrite <- X. apply IH.
Qed.

Lemma lines_utf8 s : lines (utf8s s) = map utf8s (lines s).
Proof.
  unfold lines. pose proof (split_utf8 s []) as E. cbn [rev utf8s map concat] in E. rewrite E, !map_map. apply map_ext. intros l.
  rewrite strip_suffix_utf8 by (repeat constructor). destruct (strip_suffix [10] l) as [r|]; [|reflexivity]. cbn [option_map].
  rewrite strip_suffix_utf8 by (repeat constructor). now destruct (strip_suffix [13] r).
Qed.

Lemma split_scalar s : forall cur, Forall scalar cur -> Forall scalar s -> Forall (Forall scalar) (split_inclusive cur s).
Proof.
  induction s as [|c s IH]; intros cur Hc Hs; cbn [split_inclusive].
  - destruct cur; [constructor|]. constructor; [|constructor]. now apply Forall_rev.
  - inversion Hs; subst. destruct (c =? 10).
    + constructor; [apply Forall_rev; now constructor|]. now apply IH.
    + apply IH; [now constructor|assumption].
Qed.

Lemma lines_scalar s : Forall scalar s -> Forall (Forall scalar) (lines s).
Proof.
  intros H. unfold lines. apply Forall_map. eapply Forall_impl; [|apply split_scalar; [constructor|exact H]].
  intros l Hl. cbv beta. destruct (strip_suffix [10] l) as [r|] eqn:E; [|exact Hl].
  pose proof (strip_suffix_scalar _ _ _ Hl E) as Hr. destruct (strip_suffix [13] r) as [t|] eqn:E'; [|exact Hr].
  exact (strip_suffix_scalar _ _ _ Hr E').
Qed.

(** ** The line loop *)

Definition label8 := option_map utf8s.
Definition state8 (x : option (list N) * list (list N) * option (list N)) :=
  let '(b, d, e) := x in (label8 b, map utf8s d, label8 e).

Lemma begin_ascii : Forall (fun c => c < 128) begin_prefix. Proof. repeat constructor. Qed.
Lemma end_ascii : Forall (fun c => c < 128) end_prefix. Proof. repeat constructor. Qed.
Lemma dashes_ascii : Forall (fun c => c < 128) dashes. Proof. repeat constructor. Qed.

Lemma pem_lines_utf8_ok ls : Forall (Forall scalar) ls -> forall b d e,
  pem_lines_utf8 (map utf8s ls) (label8 b) (map utf8s d) (label8 e) =
  match pem_lines ls b d e with ROk x => ROk (state8 x) | RErr x => RErr x end.
Proof.
  induction 1 as [|l ls Hl _ IH]; intros b d e; [reflexivity|]. cbn [map pem_lines_utf8 pem_lines]. cbv zeta.
  rewrite trim_utf8_ok by exact Hl. remember (trim l) as t eqn:Et.
  rewrite (strip_prefix_utf8 begin_prefix t begin_ascii), (strip_prefix_utf8 end_prefix t end_ascii).
  destruct (strip_prefix begin_prefix t) as [r|]; cbn [option_map].
  - destruct b as [b|]; cbn [label8 option_map]; [reflexivity|]. rewrite (strip_suffix_utf8 dashes r dashes_ascii).
    destruct (strip_suffix dashes r) as [q|]; cbn [option_map]; [|reflexivity]. exact (IH (Some q) d e).
  - destruct (strip_prefix end_prefix t) as [r|]; cbn [option_map].
    + destruct b as [b|]; cbn [label8 option_map]; [|reflexivity]. destruct e as [e|]; cbn [label8 option_map]; [reflexivity|].
      rewrite (strip_suffix_utf8 dashes r dashes_ascii).
      destruct (strip_suffix dashes r) as [q|]; cbn [option_map]; [|reflexivity]. exact (IH (Some b) d (Some q)).
    + destruct b as [b|]; cbn [label8 option_map].
      * destruct e as [e|]; cbn [label8 option_map]; [exact (IH (Some b) d (Some e))|].
        change [utf8s t] with (map utf8s [t]). rewrite <- map_app. exact (IH (Some b) (d ++ [t]) None).
      * exact (IH None d e).
Qed.

Lemma pem_lines_scalar ls : Forall (Forall scalar) ls -> forall b d e x,
  (forall l, b = Some l -> Forall scalar l) -> (forall l, e = Some l -> Forall scalar l) ->
  pem_lines ls b d e = ROk x ->
  (forall l, fst (fst x) = Some l -> Forall scalar l) /\ (forall l, snd x = Some l -> Forall scalar l).
Proof.
  induction 1 as [|l ls Hl _ IH]; intros b d e x Hb He E; cbn [pem_lines] in E.
  - injection E as <-. now split.
  - apply trim_scalar in Hl. destruct (strip_prefix begin_prefix (trim l)) as [r|] eqn:E1.
    + destruct b as [b|]; [discriminate|]. destruct (strip_suffix dashes r) as [q|] eqn:E2; [|discriminate].
      apply (IH _ _ _ _) in E; [exact E| |exact He]. intros l' [= <-].
      exact (strip_suffix_scalar _ _ _ (strip_prefix_scalar _ _ _ Hl E1) E2).
    + destruct (strip_prefix end_prefix (trim l)) as [r|] eqn:E3.
      * destruct b as [b|]; [|discriminate]. destruct e as [e|]; [discriminate|].
        destruct (strip_suffix dashes r) as [q|] eqn:E2; [|discriminate].
        apply (IH _ _ _ _) in E; [exact E|exact Hb|]. intros l' [= <-].
        exact (strip_suffix_scalar _ _ _ (strip_prefix_scalar _ _ _ Hl E3) E2).
      * destruct b as [b|]; [destruct e as [e|]|]; exact (IH _ _ _ _ Hb He E).
Qed.

Lemma str_eqb_utf8 a b : Forall scalar a -> Forall scalar b -> str_eqb (utf8s a) (utf8s b) = str_eqb a b.
Proof.
  intros Ha Hb. destruct (str_eqb a b) eqn:E.
  - apply str_eqb_iff in E. subst b. now apply str_eqb_iff.
  - destruct (str_eqb (utf8s a) (utf8s b)) eqn:E'; [|reflexivity]. apply str_eqb_iff in E'.
    apply utf8s_inj in E'; [|assumption..]. subst b. assert (T : str_eqb a a = true) by now apply str_eqb_iff. congruence.
Qed.

(** ** Base64 *)

Lemma base64_ascii d : bytes d -> Forall (fun c => c < 128) (base64 d).
Proof.
  intros B. rewrite <- b64_encode_spec by exact B. eapply Forall_impl; [|exact (b64_encode_chars d B)]. cbv beta. intros c H. lia.
Qed.

Lemma b64_decode_utf8 s : b64_decode (utf8s s) = b64_decode s.
Proof.
  destruct (b64_decode s) as [d|] eqn:E.
  - pose proof E as E0. apply b64_decode_iff in E as (B & Es). rewrite utf8s_ascii; [exact E0|]. rewrite Es. now apply base64_ascii.
  - destruct (b64_decode (utf8s s)) as [d|] eqn:E'; [|reflexivity]. pose proof E' as E0. apply b64_decode_iff in E' as (B & Es).
    rewrite <- E, <- E0. f_equal. apply utf8s_ascii, utf8s_ascii_inv. rewrite Es. now apply base64_ascii.
Qed.

Lemma concat_utf8s ls : concat (map utf8s ls) = utf8s (concat ls).
Proof. induction ls as [|l ls IH]; [reflexivity|]. cbn [map concat]. now rewrite IH, utf8s_app. Qed.

Definition pem8 (p : pem) : pem := {| pem_label := utf8s (pem_label p); pem_data := pem_data p |}.

Lemma decode_pem_utf8_ok s : Forall scalar s ->
  decode_pem_utf8 (utf8s s) = match decode_pem s with ROk p => ROk (pem8 p) | RErr e => RErr e end.
Proof.
  intros H. unfold decode_pem_utf8, decode_pem, extract_pem_pieces_utf8, extract_pem_pieces. rewrite lines_utf8.
  pose proof (pem_lines_utf8_ok (lines s) (lines_scalar s H) None [] None) as E. cbn [label8 option_map map] in E. rewrite E. clear E.
  destruct (pem_lines (lines s) None [] None) as [[[b d] e]|x] eqn:E; [|reflexivity]. unfold state8.
  destruct (pem_lines_scalar (lines s) (lines_scalar s H) None [] None _ (fun _ X => ltac:(discriminate X)) (fun _ X => ltac:(discriminate X)) E) as [Sb Se].
  cbn [fst snd] in Sb, Se. destruct b as [b|]; cbn [label8 option_map]; [|reflexivity]. destruct e as [e|]; cbn [label8 option_map]; [|reflexivity].
  rewrite (str_eqb_utf8 e b (Se _ eq_refl) (Sb _ eq_refl)). destruct (str_eqb e b); cbn [negb]; [|reflexivity].
  unfold parse_pem_data. rewrite concat_utf8s, b64_decode_utf8. now destruct (b64_decode (concat d)).
Qed.

(** ** Printing *)
Lemma fmt_loop_ascii s : Forall (fun c => c < 128) s -> forall i line, Forall (fun c => c < 128) line ->
  Forall (fun c => c < 128) (fst (fmt_loop i line s)) /\ Forall (fun c => c < 128) (snd (fmt_loop i line s)).
Proof.
  induction 1 as [|c s Hc _ IH]; intros i line Hl; cbn [fmt_loop]; [split; [constructor|exact Hl]|].
  destruct (_ && _)%bool.
  - destruct (IH (S i) [c]) as [I1 I2]; [now constructor|]. destruct (fmt_loop (S i) [c] s) as [o l]. cbn [fst snd] in *.
    split; [|exact I2]. apply Forall_app. split; [exact Hl|]. constructor; [reflexivity|exact I1].
  - apply IH. apply Forall_app. split; [exact Hl|now constructor].
Qed.

Lemma pem_fmt_utf8 p : bytes (pem_data p) -> utf8s (pem_fmt p) = pem_fmt (pem8 p).
Proof.
  intros B. unfold pem_fmt, pem8. cbn [pem_label pem_data].
  destruct (fmt_loop_ascii (b64_encode (pem_data p))) with (i := 0%nat) (line := @nil N) as [I1 I2];
    [rewrite b64_encode_spec by exact B; now apply base64_ascii|constructor|].
  destruct (fmt_loop 0 [] (b64_encode (pem_data p))) as [o l]. cbn [fst snd] in I1, I2.
  rewrite !utf8s_app, (utf8s_ascii begin_prefix begin_ascii), (utf8s_ascii end_prefix end_ascii), (utf8s_ascii dashes dashes_ascii),
    (utf8s_ascii o I1), (utf8s_ascii l I2), (utf8s_ascii [10]) by (repeat constructor). reflexivity.
Qed.
