(** * Proofs: the work of the ASN.1 parser *)
From Coq Require Import List NArith Arith Lia.
Import ListNotations.
From Verif Require Import Base BaseLemmas ModelPem ModelCalls SpecAsn1 SpecCalls ProofAsn1.
From Coq Require Import ZifyBool ZifyNat ZifyN.

Section Profile.
Context {P : profile}.

(** ** The count is extra *)
Lemma elements_erase parse parse' : (forall b, snd (parse' b) = parse b) ->
  forall fuel lft es, snd (elements_calls parse' fuel lft es) = asn1_elements parse fuel lft es.
Proof using.
  intros H. induction fuel as [|fuel IH]; intros lft es; destruct lft as [|x lft]; try reflexivity.
  cbn [elements_calls asn1_elements]. rewrite <- H. destruct (parse' (x :: lft)) as [n [[[a rest]|e]|p]]; cbn [snd bind]; try reflexivity.
  rewrite <- IH. destruct (elements_calls parse' fuel rest (es ++ [a])). reflexivity.
Qed.

Lemma parse_erase fuel : forall b, snd (parse_calls fuel b) = parse_from_bytes fuel b.
Proof using.
  induction fuel as [|fuel IH]; intros b; [reflexivity|].
  cbn [parse_calls parse_from_bytes]. destruct (asn1_header b) as [[[[tag rest] len]|e]|p]; try reflexivity.
  cbn [bind]. destruct (N.of_nat (length rest) <? len)%N; [reflexivity|]. cbv zeta.
  repeat match goal with |- context [(tag =? ?t)%N] => destruct (tag =? t)%N; [cbn [snd]; reflexivity|] end.
  destruct (tag =? 48)%N; [|reflexivity].
  destruct (slice_to rest (ix len)) as [lft|p]; [|reflexivity]. cbn [bind].
  pose proof (elements_erase _ _ IH (ix len) lft []) as E.
  destruct (elements_calls (parse_calls fuel) (ix len) lft []) as [k r]. cbn [snd] in *. now rewrite E.
Qed.

(** ** The number of calls *)
Lemma slice_from_length {A} (l : list A) a r : slice_from l a = Ok r -> (length r + a = length l)%nat.
Proof using.
  unfold slice_from. destruct (Nat.leb_spec a (length l)); intros E; [|discriminate].
  injection E as <-. rewrite skipn_length. lia.
Qed.

Lemma header_length b tag rest len : asn1_header b = Ok (ROk (tag, rest, len)) -> (length rest + 2 <= length b)%nat.
Proof using.
  unfold asn1_header. destruct (length b <=? 1)%nat; [discriminate|].
  destruct (idx b 0) as [t|]; [|discriminate]. destruct (idx b 1) as [b1|]; [|discriminate]. cbn [bind].
  destruct (negb (N.land b1 128 =? 0)%N).
  - destruct (nsub 16 _) as [k|]; [|discriminate]. cbn [bind].
    destruct (slice b 2 _) as [src|]; [|discriminate]. cbn [bind].
    destruct (copy_range _ _ _ _) as [l|]; [|discriminate]. cbn [bind].
    destruct (slice_from b (2 + ix (N.land b1 (wnot 8 128)))) as [r|] eqn:E; [|discriminate]. cbn [bind].
    intros H. injection H as <- <- <-. apply slice_from_length in E. lia.
  - destruct (slice_from b 2) as [r|] eqn:E; [|discriminate]. cbn [bind].
    intros H. injection H as <- <- <-. apply slice_from_length in E. lia.
Qed.

(** What the calls cost: two bytes each, but for the last one if it fails. *)
Definition paid (b : list N) (x : nat * res (result (asn1 * list N) asn1_error)) : Prop :=
  match x with
  | (n, Ok (ROk (_, rest))) => (2 * n + length rest <= length b)%nat
  | (n, _) => (2 * n <= S (length b))%nat \/ (n = 1 /\ b = [])%nat
  end.

Lemma elements_paid parse : (forall b, paid b (parse b)) ->
  forall fuel lft es, match elements_calls parse fuel lft es with
                      | (n, Ok (ROk _)) => (2 * n <= length lft)%nat
                      | (n, _) => (2 * n <= S (length lft))%nat
                      end.
Proof using.
  intros H. induction fuel as [|fuel IH]; intros lft es; destruct lft as [|x lft]; cbn [elements_calls]; try (cbn; lia).
  specialize (H (x :: lft)). destruct (parse (x :: lft)) as [n [[[a rest]|e]|p]]; cbn [paid] in H.
  - specialize (IH rest (es ++ [a])).
    destruct (elements_calls parse fuel rest (es ++ [a])) as [k [[v|e]|p]]; lia.
  - destruct H as [H|[_ H]]; [exact H|discriminate].
  - destruct H as [H|[_ H]]; [exact H|discriminate].
Qed.

Lemma header_nonempty b x : asn1_header b = Ok (ROk x) -> (2 <= length b)%nat.
Proof using. destruct x as [[t r] l]. intros E. apply header_length in E. lia. Qed.

Lemma one_call b r : (forall x, r <> Ok (ROk x)) -> paid b (1%nat, r).
Proof using.
  intros H. destruct r as [[x|e]|p]; [now destruct (H x)| |]; cbn [paid]; destruct b; [right; auto|left; cbn; lia|right; auto|left; cbn; lia].
Qed.

Lemma parse_paid fuel : forall b, paid b (parse_calls fuel b).
Proof using.
  induction fuel as [|fuel IH]; intros b; [apply one_call; discriminate|].
  cbn [parse_calls]. destruct (asn1_header b) as [[[[tag rest] len]|e]|p] eqn:Hd; try (apply one_call; discriminate).
  destruct (N.of_nat (length rest) <? len)%N; [apply one_call; discriminate|]. cbv zeta.
  apply header_length in Hd.
  assert (Leaf : forall r : res (result asn1 asn1_error),
    paid b (1%nat, let* r := r in match r with RErr e => Ok (RErr e)
                 | ROk a => let* rest := slice_from rest (ix len) in Ok (ROk (a, rest)) end)).
  { intros [[a|e]|p]; cbn [bind]; try (apply one_call; discriminate).
    destruct (slice_from rest (ix len)) as [r|p] eqn:E; cbn [bind]; [|apply one_call; discriminate].
    apply slice_from_length in E. cbn [paid]. lia. }
  repeat match goal with |- context [(tag =? ?t)%N] => destruct (tag =? t)%N; [try apply Leaf|] end; [|apply Leaf].
  destruct (slice_to rest (ix len)) as [lft|p] eqn:E; [|apply (Leaf (Panic p))].
  assert (Ll : (length lft <= ix len /\ length lft <= length rest)%nat).
  { unfold slice_to, slice in E. revert E. repeat match goal with |- context [if ?c then _ else _] => destruct c; try discriminate end.
    intros E. injection E as <-. rewrite ?firstn_length, ?skipn_length. lia. }
  pose proof (elements_paid _ IH (ix len) lft []) as F.
  destruct (elements_calls (parse_calls fuel) (ix len) lft []) as [k [[es|e]|p]]; cbn [bind].
  - destruct (slice_from rest (ix len)) as [r|p] eqn:E2; cbn [bind paid].
    + apply slice_from_length in E2. lia.
    + left. lia.
  - cbn [paid]. left. lia.
  - cbn [paid]. left. lia.
Qed.

Lemma calls_bound b : (try_from_calls b <= length b / 2 + 1)%nat.
Proof using.
  unfold try_from_calls. pose proof (parse_paid (S (length b)) b) as H.
  assert (D : (length b = 2 * (length b / 2) + length b mod 2)%nat) by (apply Nat.div_mod; lia).
  assert (M : (length b mod 2 < 2)%nat) by (apply Nat.mod_upper_bound; lia).
  destruct (parse_calls (S (length b)) b) as [n [[[a rest]|e]|p]]; cbn [fst paid] in *; [lia| |].
  - destruct H as [H|[-> _]]; lia.
  - destruct H as [H|[-> _]]; lia.
Qed.

(** ** On success each value is one call *)
Lemma elements_nodes parse : (forall b n a rest, parse b = (n, Ok (ROk (a, rest))) -> n = nodes a) ->
  forall fuel lft es n v, elements_calls parse fuel lft es = (n, Ok (ROk v)) ->
  (list_sum (map nodes v) = list_sum (map nodes es) + n)%nat.
Proof using.
  intros H. induction fuel as [|fuel IH]; intros lft es n v; destruct lft as [|x lft]; cbn [elements_calls]; intros E.
  - injection E as <- <-. lia.
  - discriminate.
  - injection E as <- <-. lia.
  - destruct (parse (x :: lft)) as [k [[[a rest]|e]|p]] eqn:Pe; try discriminate.
    destruct (elements_calls parse fuel rest (es ++ [a])) as [j r] eqn:Ee. injection E as <- ->.
    apply IH in Ee. apply H in Pe. rewrite map_app, list_sum_app in Ee. cbn [map list_sum fold_right] in Ee. lia.
Qed.

Lemma parse_nodes fuel : forall b n a rest, parse_calls fuel b = (n, Ok (ROk (a, rest))) -> n = nodes a.
Proof using.
  induction fuel as [|fuel IH]; intros b n a rest; [discriminate|].
  cbn [parse_calls]. destruct (asn1_header b) as [[[[tag rst] len]|e]|p]; try discriminate.
  destruct (N.of_nat (length rst) <? len)%N; [discriminate|]. cbv zeta.
  assert (Leaf : forall k (r : res (result asn1 asn1_error)),
    (forall v, r = Ok (ROk v) -> S k = nodes v) ->
    (S k, let* r := r in match r with RErr e => Ok (RErr e)
                 | ROk a => let* rest := slice_from rst (ix len) in Ok (ROk (a, rest)) end)
    = (n, Ok (ROk (a, rest))) -> n = nodes a).
  { intros k [[v|e]|p] Hv; cbn [bind]; try discriminate.
    destruct (slice_from rst (ix len)); cbn [bind]; [|discriminate].
    intros E. injection E as <- <- _. now apply Hv. }
  assert (B : forall (m : res (list N)) (f : list N -> asn1), (forall x, nodes (f x) = 1%nat) ->
    forall v, (let* x := m in Ok (@ROk _ asn1_error (f x))) = Ok (ROk v) -> 1%nat = nodes v).
  { intros [x|p] f Hf v; cbn [bind]; [|discriminate]. intros E. injection E as <-. now rewrite Hf. }
  destruct (tag =? 2)%N. { apply Leaf. apply B. reflexivity. }
  destruct (tag =? 4)%N. { apply Leaf. apply B. reflexivity. }
  destruct (tag =? 3)%N.
  { apply Leaf. intros v. destruct (slice rst 1 (ix len)); cbn [bind]; [|discriminate].
    destruct (idx rst 0); cbn [bind]; [|discriminate]. intros E. injection E as <-. reflexivity. }
  destruct (tag =? 5)%N. { apply Leaf. intros v E. injection E as <-. reflexivity. }
  destruct (tag =? 6)%N. { apply Leaf. apply B. reflexivity. }
  destruct (tag =? 48)%N; [|apply Leaf; discriminate].
  destruct (slice_to rst (ix len)) as [lft|p]; [|apply Leaf; discriminate].
  destruct (elements_calls (parse_calls fuel) (ix len) lft []) as [k [[es|e]|p]] eqn:Ee; cbn [bind]; try discriminate.
  intros E. destruct (slice_from rst (ix len)); cbn [bind] in E; [|discriminate].
  injection E as <- <- _. apply elements_nodes in Ee; [|exact IH].
  cbn [nodes]. rewrite Ee. reflexivity.
Qed.

Lemma calls_nodes b v : asn1_try_from b = Ok (ROk v) -> try_from_calls b = nodes v.
Proof using.
  unfold asn1_try_from, try_from_calls. rewrite <- parse_erase.
  destruct (parse_calls (S (length b)) b) as [n [[[a rest]|e]|p]] eqn:E; cbn [snd fst bind]; try discriminate.
  destruct rest; [|discriminate]. intros H. injection H as <-. exact (parse_nodes _ _ _ _ _ E).
Qed.
End Profile.

(** ** What is held *)
Lemma lax_held :
  (forall a e, lax a e -> (held a + 2 * nodes a <= length e)%nat) /\
  (forall es c, lax_all es c -> (list_sum (map held es) + 2 * list_sum (map nodes es) <= length c)%nat).
Proof.
  unfold lax, lax_all. apply encodes_mutind; intros;
    repeat match goal with H : lax_len _ _ |- _ => apply lax_len_pos in H end;
    cbn [held nodes map length]; unfold list_sum in *; cbn [fold_right]; rewrite ?app_length; cbn [length]; try lia.
Qed.

Lemma try_from_held b v : bytes b -> asn1_try_from b = Ok (ROk v) -> (held v + 2 * nodes v <= length b)%nat.
Proof. intros B E. apply lax_held. apply try_from_iff; [exact B|exact E]. Qed.
