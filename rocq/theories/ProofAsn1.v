(** * The ASN.1 parser and its grammar *)
From Coq Require Import ZifyBool ZifyNat ZifyN.
From Verif Require Import Base BaseLemmas SpecEndian ProofEndian ModelPem SpecAsn1.
Ltac Zify.zify_post_hook ::= Z.div_mod_to_equations.

Scheme encodes_ind2 := Minimality for encodes Sort Prop
  with encodes_all_ind2 := Minimality for encodes_all Sort Prop.
Combined Scheme encodes_mutind from encodes_ind2, encodes_all_ind2.

Fixpoint asn1_nested_ind (P : asn1 -> Prop)
  (HI : forall c, P (Integer c)) (HO : forall c, P (OctetString c))
  (HB : forall c u, P (BitString c u)) (HN : P Null) (HJ : forall c, P (ObjectIdentifier c))
  (HS : forall es, Forall P es -> P (Sequence es)) (a : asn1) {struct a} : P a :=
  match a with
  | Integer c => HI c
  | OctetString c => HO c
  | BitString c u => HB c u
  | Null => HN
  | ObjectIdentifier c => HJ c
  | Sequence es => HS es
      ((fix go l : Forall P l :=
          match l with
          | [] => Forall_nil P
          | x :: l' => Forall_cons x (asn1_nested_ind P HI HO HB HN HJ HS x) (go l')
          end) es)
  end.

(** ** Header *)

Inductive header_view (bs : list N) : res (result (N * list N * N) asn1_error) -> Prop :=
| hv_short : (length bs <= 1)%nat -> header_view bs (Ok (RErr TagNoLength))
| hv_ok t l n rest : bs = t :: l ++ rest -> lax_len l n ->
    header_view bs (Ok (ROk (t, rest, n)))
| hv_digits t k r : bs = t :: 128 + k :: r -> 16 < k < 128 ->
    header_view bs (Panic POverflow)
| hv_truncated t k r : bs = t :: 128 + k :: r -> k <= 16 -> size r < k ->
    header_view bs (Panic PIndex).

Lemma byte_high b : b < 256 ->
  (N.land b 128 =? 0) = (b <? 128) /\ (128 <= b -> N.land b (wnot 8 128) = b - 128).
Proof.
  intros H. assert (E : forallb (fun b => Bool.eqb (N.land b 128 =? 0) (b <? 128) &&
      ((b <? 128) || (N.land b (wnot 8 128) =? b - 128))) (map N.of_nat (seq 0 256)) = true)
    by (vm_compute; reflexivity).
  rewrite forallb_forall in E. specialize (E b).
  rewrite in_map_iff in E. assert (Hin : exists x, N.of_nat x = b /\ In x (seq 0 256)).
  { exists (N.to_nat b). split; [lia|]. apply in_seq. lia. }
  apply E in Hin. apply andb_prop in Hin as (H1 & H2). apply Bool.eqb_prop in H1. split; auto.
  intros Hb. apply orb_prop in H2 as [H2|H2]; lia.
Qed.

Lemma from_be_app0 k l : from_be (repeat 0 k ++ l) = from_be l.
Proof.
  unfold from_be. rewrite rev_app_distr, from_le_app.
  assert (E : forall n, from_le (rev (repeat 0 n)) = 0).
  { intros n. induction n; cbn [repeat rev]; auto. rewrite from_le_app, IHn. cbn [from_le]. lia. }
  rewrite E. lia.
Qed.

Lemma header_ok bs : bytes bs -> header_view bs (asn1_header bs).
Proof.
  intros Hb. unfold asn1_header. destruct (Nat.leb_spec (length bs) 1) as [Hl|Hl].
  { now constructor. }
  destruct bs as [|t [|b r]]; cbn [length] in Hl; try lia.
  change (idx (t :: b :: r) 0) with (Ok t). change (idx (t :: b :: r) 1) with (Ok b).
  cbn [bind]. inversion Hb as [|? ? Ht Hb']; subst. inversion Hb' as [|? ? Hbb Hr]; subst.
  destruct (byte_high b Hbb) as (E1 & E2). rewrite E1.
  destruct (N.ltb_spec b 128) as [Hs|Hs]; cbn [negb].
  - rewrite slice_from_ok by (cbn [length]; lia). cbn [bind skipn].
    apply (hv_ok _ t [b] b r); [reflexivity|]. now constructor.
  - rewrite (E2 Hs). unfold ix. set (k := N.to_nat (b - 128)).
    assert (Eb : b = 128 + N.of_nat k) by lia. unfold byte in Hbb.
    destruct (Nat.leb_spec k 16) as [Hk|Hk].
    + rewrite nsub_ok by lia. cbn [bind].
      destruct (Nat.leb_spec k (length r)) as [Hkr|Hkr].
      * rewrite slice_ok by (cbn [length]; lia). cbn [bind].
        replace (2 + k - 2)%nat with k by lia. cbn [skipn].
        rewrite copy_range_ok by (rewrite ?to_be_length, ?firstn_length; lia). cbn [bind].
        rewrite (skipn_all2 (to_be 16 0)), app_nil_r by (rewrite to_be_length; lia).
        rewrite slice_from_ok by (cbn [length]; lia). cbn [bind].
        cbn [Nat.add skipn].
        replace (from_be _) with (be_num (firstn k r)).
        { apply (hv_ok _ t (128 + size (firstn k r) :: firstn k r)).
          - cbn [app]. rewrite firstn_skipn. unfold size. rewrite firstn_length.
            do 2 f_equal. lia.
          - constructor; [now apply Forall_firstn|]. rewrite firstn_length. lia. }
        rewrite <- from_be_be_num. symmetry.
        change (to_be 16 0) with (repeat 0 16).
        rewrite firstn_repeat.
        apply from_be_app0.
      * rewrite slice_panic by (cbn [length]; lia). cbn [bind].
        apply (hv_truncated _ t (N.of_nat k) r); [now rewrite Eb| lia | unfold size; lia].
    + rewrite nsub_panic by lia. cbn [bind].
      apply (hv_digits _ t (N.of_nat k) r); [now rewrite Eb|lia].
Qed.

Lemma app_inv_length {A} (a b c d : list A) : length a = length c -> a ++ b = c ++ d ->
  a = c /\ b = d.
Proof.
  revert c. induction a; intros [|y c] Hl E; cbn [length app] in *; try lia; auto.
  injection E as -> E. destruct (IHa c) as [-> ->]; auto.
Qed.

Lemma cons_inv {A} (x y : A) l m : x :: l = y :: m -> x = y /\ l = m.
Proof. intros H. now injection H. Qed.

Lemma lax_len_unique l1 n1 r1 l2 n2 r2 : lax_len l1 n1 -> lax_len l2 n2 ->
  l1 ++ r1 = l2 ++ r2 -> l1 = l2 /\ n1 = n2 /\ r1 = r2.
Proof.
  intros H1 H2 E. destruct H1 as [n1 H1|ds1 B1 H1]; destruct H2 as [n2 H2|ds2 B2 H2];
    cbn [app] in E; apply cons_inv in E as (E1 & E2).
  - now subst.
  - lia.
  - lia.
  - assert (length ds1 = length ds2) by (unfold size in E1; lia).
    apply app_inv_length in E2 as [-> ->]; auto.
Qed.

Lemma lax_len_pos l n : lax_len l n -> (1 <= length l)%nat.
Proof. intros []; cbn [length]; lia. Qed.

Lemma lax_len_bytes l n : lax_len l n -> bytes l.
Proof.
  intros [m H|ds B H]; (constructor; [unfold byte, size; lia|]); auto.
Qed.

(** The header of a well-formed prefix. *)
Lemma header_good t l n rest : byte t -> lax_len l n ->
  asn1_header (t :: l ++ rest) = Ok (ROk (t, rest, n)).
Proof.
  intros Ht Hl.
  assert (E : asn1_header (t :: l ++ rest) = asn1_header (t :: l ++ rest)) by reflexivity.
  unfold asn1_header. pose proof (lax_len_pos _ _ Hl).
  destruct (Nat.leb_spec (length (t :: l ++ rest)) 1) as [Hs|Hs].
  { cbn [length] in Hs. rewrite app_length in Hs. lia. }
  destruct Hl as [n Hn|ds B Hd]; cbn [app].
  - change (idx (t :: n :: rest) 0) with (Ok t). change (idx (t :: n :: rest) 1) with (Ok n).
    cbn [bind]. destruct (byte_high n) as (E1 & E2); [lia|]. rewrite E1.
    destruct (N.ltb_spec n 128); [|lia]. cbn [negb].
    rewrite slice_from_ok by (cbn [length]; lia). reflexivity.
  - set (b := 128 + size ds).
    change (idx (t :: b :: ds ++ rest) 0) with (Ok t).
    change (idx (t :: b :: ds ++ rest) 1) with (Ok b).
    cbn [bind]. destruct (byte_high b) as (E1 & E2); [unfold b, size; lia|]. rewrite E1.
    destruct (N.ltb_spec b 128); [unfold b in *; lia|]. cbn [negb]. rewrite E2 by lia.
    unfold ix. replace (N.to_nat (b - 128)) with (length ds) by (unfold b, size; lia).
    rewrite nsub_ok by lia. cbn [bind].
    rewrite slice_ok by (cbn [length]; rewrite app_length; lia). cbn [bind].
    rewrite copy_range_ok
      by (rewrite ?to_be_length, ?firstn_length, ?skipn_length; cbn [length]; rewrite ?app_length; lia).
    cbn [bind]. rewrite (skipn_all2 (to_be 16 0)), app_nil_r by (rewrite to_be_length; lia).
    rewrite slice_from_ok by (cbn [length]; rewrite app_length; lia). cbn [bind].
    replace (2 + length ds - 2)%nat with (length ds) by lia. cbn [Nat.add skipn].
    rewrite firstn_app_exact, skipn_app_exact by reflexivity.
    change (to_be 16 0) with (repeat 0 16). rewrite firstn_repeat, from_be_app0, from_be_be_num.
    reflexivity.
Qed.

(** ** Completeness *)

Lemma ix_size {A} (l : list A) : ix (size l) = length l.
Proof. unfold ix, size. lia. Qed.

Lemma size_app {A} (a b : list A) : size (a ++ b) = size a + size b.
Proof. unfold size. rewrite app_length. lia. Qed.

Lemma parse_S fuel bs : parse_from_bytes (S fuel) bs =
    let* h := asn1_header bs in
    match h with
    | RErr e => Ok (RErr e)
    | ROk (tag, rest, len) =>
      if N.of_nat (length rest) <? len then
        Ok (RErr (TooLittleData tag len (length rest)))
      else
        let ln := ix len in
        let* r :=
          if tag =? 0x02 then let* b := slice_to rest ln in Ok (ROk (Integer b))
          else if tag =? 0x04 then let* b := slice_to rest ln in Ok (ROk (OctetString b))
          else if tag =? 0x03 then
            let* b := slice rest 1 ln in
            let* u := idx rest 0 in
            Ok (ROk (BitString b u))
          else if tag =? 0x05 then Ok (ROk Null)
          else if tag =? 0x06 then
            let* b := slice_to rest ln in Ok (ROk (ObjectIdentifier b))
          else if tag =? 0x30 then
            let* lft := slice_to rest ln in
            let* es := asn1_elements (parse_from_bytes fuel) ln lft [] in
            Ok (match es with RErr e => RErr e | ROk es => ROk (Sequence es) end)
          else Ok (RErr (UnknownTag tag)) in
        match r with
        | RErr e => Ok (RErr e)
        | ROk a => let* rest := slice_from rest ln in Ok (ROk (a, rest))
        end
    end.
Proof. reflexivity. Qed.

Lemma encodes_nonempty L C a c : encodes L C a c -> c <> [].
Proof. now intros []. Qed.

Lemma parse_complete :
  (forall a e, lax a e -> forall fuel rest, (length e < fuel)%nat ->
     parse_from_bytes fuel (e ++ rest) = Ok (ROk (a, rest))) /\
  (forall es c, lax_all es c -> forall fuel fe acc, (length c < fuel)%nat ->
     (length c <= fe)%nat ->
     asn1_elements (parse_from_bytes fuel) fe c acc = Ok (ROk (acc ++ es))).
Proof.
  unfold lax, lax_all. apply encodes_mutind.
  1-6: intros.
  1-6: destruct fuel as [|fuel]; [lia|]; rewrite parse_S; cbn [app]; rewrite <- app_assoc;
    (erewrite header_good; [|reflexivity|eassumption]); cbn [bind];
    (match goal with |- context [?a <? ?b] => destruct (N.ltb_spec a b) as [Hbad|_] end;
     [exfalso; revert Hbad; unfold size; cbn [app length]; rewrite ?app_length; cbn [length]; lia|]);
    cbv zeta; rewrite ix_size.
  1,3,4,5: cbn [N.eqb Pos.eqb]; rewrite ?slice_to_ok by (rewrite app_length; lia); cbn [bind];
    rewrite slice_from_ok by (rewrite app_length; lia); cbn [bind];
    rewrite ?firstn_app_exact, skipn_app_exact by reflexivity; reflexivity.
  - cbn [N.eqb Pos.eqb app]. rewrite slice_ok by (cbn [length]; rewrite app_length; lia).
    rewrite slice_from_ok by (cbn [length]; rewrite app_length; lia).
    unfold idx. cbn [nth_error length skipn bind].
    replace (S (length c) - 1)%nat with (length c) by lia.
    rewrite firstn_app_exact, skipn_app_exact by reflexivity. reflexivity.
  - cbn [N.eqb Pos.eqb]. rewrite slice_to_ok by (rewrite app_length; lia). cbn [bind].
    rewrite firstn_app_exact by reflexivity. rewrite H1.
    + cbn [bind app]. rewrite slice_from_ok by (rewrite app_length; lia). cbn [bind].
      rewrite skipn_app_exact by reflexivity. reflexivity.
    + cbn [length] in H2. rewrite app_length in H2. lia.
    + lia.
  - intros. destruct fe; cbn [asn1_elements]; now rewrite app_nil_r.
  - intros a c es cs Ha IHa Hes IHes fuel fe acc Hf Hfe.
    pose proof (encodes_nonempty _ _ _ _ Ha) as Hne.
    rewrite app_length in Hf, Hfe.
    destruct c as [|x c]; [congruence|]. destruct fe as [|fe]; [cbn [length] in Hfe; lia|].
    cbn [asn1_elements app]. change (x :: c ++ cs) with ((x :: c) ++ cs).
    rewrite IHa by lia. cbn [bind]. rewrite IHes by (cbn [length] in *; lia).
    now rewrite <- app_assoc.
Qed.

(** ** Soundness *)

Lemma bytes_app a b : bytes (a ++ b) <-> bytes a /\ bytes b.
Proof. apply Forall_app. Qed.

Lemma parse_sound fuel :
  (forall bs a rest, bytes bs -> parse_from_bytes fuel bs = Ok (ROk (a, rest)) ->
     exists e, bs = e ++ rest /\ lax a e).
Proof.
  induction fuel as [|fuel IH]; intros bs a rest Hb H; [discriminate|].
  assert (IHe : forall fe c acc es, bytes c ->
    asn1_elements (parse_from_bytes fuel) fe c acc = Ok (ROk es) ->
    exists es', es = acc ++ es' /\ lax_all es' c).
  { induction fe as [|fe IHf]; intros c acc es Hc He; destruct c as [|x c];
      cbn [asn1_elements] in He; try discriminate.
    1,2: injection He as <-; exists []; split; [now rewrite app_nil_r|constructor].
    apply bind_ok_inv in He as (r & Hr & He). destruct r as [[a1 r1]|]; [|discriminate].
    apply IH in Hr as (e1 & E1 & L1); auto. rewrite E1 in Hc |- *.
    apply bytes_app in Hc as (_ & Hc).
    apply IHf in He as (es' & -> & L2); auto. exists (a1 :: es').
    split; [now rewrite <- app_assoc|]. now constructor. }
  rewrite parse_S in H. pose proof (header_ok bs Hb) as V. revert H.
  destruct V as [| t l n r -> Hl| |]; cbn [bind]; try discriminate. intros H.
  inversion Hb as [|? ? Ht Hb']; subst. apply bytes_app in Hb' as (_ & Hr).
  destruct (N.ltb_spec (N.of_nat (length r)) n) as [|Hn]; [discriminate|].
  cbv zeta in H. unfold ix in H. set (ln := N.to_nat n) in *.
  assert (En : n = size (firstn ln r)) by (unfold size; rewrite firstn_length; lia).
  apply bind_ok_inv in H as (x & Hx & H). destruct x as [a'|]; [|discriminate].
  rewrite slice_from_ok in H by lia. cbn [bind] in H. injection H as -> <-.
  exists (t :: l ++ firstn ln r). split; [cbn [app]; now rewrite <- app_assoc, firstn_skipn|].
  rewrite slice_to_ok in Hx by lia. cbn [bind] in Hx. rewrite En in Hl.
  destruct (N.eqb_spec t 2) as [->|_]; [injection Hx as <-; now constructor|].
  destruct (N.eqb_spec t 4) as [->|_]; [injection Hx as <-; now constructor|].
  destruct (N.eqb_spec t 3) as [->|_].
  { apply bind_ok_inv in Hx as (b & Hbb & Hx). apply bind_ok_inv in Hx as (u & Hu & Hx).
    injection Hx as <-. destruct (Nat.leb_spec 1 ln) as [H1|H1].
    - destruct r as [|y r]; [cbn [length] in Hn; lia|]. rewrite slice_ok in Hbb by (cbn [length] in *; lia).
      apply Ok_inj in Hbb. cbn [skipn] in Hbb. injection Hu as <-.
      destruct ln as [|ln']; [lia|]. cbn [firstn]. replace (S ln' - 1)%nat with ln' in Hbb by lia.
      subst b. now constructor.
    - rewrite slice_panic in Hbb by lia. discriminate. }
  destruct (N.eqb_spec t 5) as [->|_]; [injection Hx as <-; now constructor|].
  destruct (N.eqb_spec t 6) as [->|_]; [injection Hx as <-; now constructor|].
  destruct (N.eqb_spec t 48) as [->|_]; [|discriminate].
  apply bind_ok_inv in Hx as (es & Hes & Hx). destruct es as [es|]; [|discriminate].
  injection Hx as <-. apply IHe in Hes as (es' & -> & L); [|now apply Forall_firstn].
  now constructor.
Qed.

Lemma try_from_iff bs v : bytes bs ->
  asn1_try_from bs = Ok (ROk v) <-> lax v bs.
Proof.
  intros Hb. unfold asn1_try_from. split.
  - intros H. apply bind_ok_inv in H as (r & Hr & H). destruct r as [[a l]|]; [|discriminate].
    destruct l; [|discriminate]. injection H as ->.
    apply parse_sound in Hr as (e & -> & L); auto. now rewrite app_nil_r.
  - intros H. rewrite <- (app_nil_r bs) at 2. rewrite (proj1 parse_complete v) by auto. reflexivity.
Qed.

Lemma try_from_complete bs v : lax v bs -> asn1_try_from bs = Ok (ROk v).
Proof.
  intros H. unfold asn1_try_from. rewrite <- (app_nil_r bs) at 2.
  rewrite (proj1 parse_complete v) by auto. reflexivity.
Qed.

(** ** Panics and errors *)

(** The loop of a SEQUENCE stops with what happens to the element after some
    well-formed ones. *)
Lemma elements_stop fuel es c d r : lax_all es c -> d <> [] -> (length (c ++ d) < fuel)%nat ->
  (parse_from_bytes fuel d = Panic r \/ exists e, parse_from_bytes fuel d = Ok (RErr e)) ->
  forall fe acc, (length (c ++ d) <= fe)%nat ->
  asn1_elements (parse_from_bytes fuel) fe (c ++ d) acc =
  match parse_from_bytes fuel d with
  | Ok (RErr e) => Ok (RErr (InSequence e))
  | Panic p => Panic p
  | _ => Panic PFuel
  end.
Proof.
  intros Hc Hdne Hcf Hd. unfold lax_all in Hc. induction Hc as [|a e es cs Ha Hes IHs];
    intros fe acc Hfe.
  - cbn [app] in *. destruct d as [|x d]; [congruence|].
    destruct fe as [|fe]; [cbn [length] in Hfe; lia|]. cbn [asn1_elements].
    destruct Hd as [->|(e & ->)]; reflexivity.
  - pose proof (encodes_nonempty _ _ _ _ Ha) as Hne.
    destruct e as [|x e]; [congruence|].
    rewrite <- app_assoc in *. rewrite app_length in Hfe, Hcf. cbn [length] in Hfe, Hcf.
    destruct fe as [|fe]; [lia|]. cbn [asn1_elements app].
    change (x :: e ++ cs ++ d) with ((x :: e) ++ cs ++ d).
    rewrite (proj1 parse_complete a) by (auto; cbn [length]; lia). cbn [bind].
    apply IHs; lia.
Qed.

Lemma parse_sequence_stop fuel l es c d r p : lax_len l (size (c ++ d)) -> lax_all es c -> d <> [] ->
  (length (48%N :: l ++ (c ++ d) ++ r) < S fuel)%nat ->
  (parse_from_bytes fuel d = Panic p \/ exists e, parse_from_bytes fuel d = Ok (RErr e)) ->
  parse_from_bytes (S fuel) (48 :: l ++ (c ++ d) ++ r) =
  match parse_from_bytes fuel d with
  | Ok (RErr e) => Ok (RErr (InSequence e))
  | Panic p => Panic p
  | _ => Panic PFuel
  end.
Proof.
  intros Hl Hc Hdne Hf Hd. rewrite parse_S.
  rewrite (header_good 48 l (size (c ++ d))) by (auto; reflexivity). cbn [bind].
  destruct (N.ltb_spec (N.of_nat (length ((c ++ d) ++ r))) (size (c ++ d))) as [Hbad|_].
  { unfold size in Hbad. rewrite (app_length (c ++ d) r) in Hbad. lia. }
  cbv zeta. rewrite ix_size. cbn [N.eqb Pos.eqb].
  rewrite slice_to_ok by (rewrite (app_length (c ++ d) r); lia). cbn [bind].
  rewrite firstn_app_exact by reflexivity.
  cbn [length] in Hf. rewrite !app_length in Hf. pose proof (lax_len_pos _ _ Hl) as Hlp.
  rewrite (elements_stop fuel es c d p) by (auto; rewrite app_length; lia).
  destruct Hd as [->|(e & ->)]; reflexivity.
Qed.

Lemma parse_crash :
  forall p bs, crash p bs -> bytes bs -> forall fuel, (length bs < fuel)%nat ->
  parse_from_bytes fuel bs = Panic p.
Proof.
  intros p bs H. induction H as [t k r Hk|t k r Hk Hr|l r Hl|p l es c d r Hl Hc Hd IH];
    intros Hb fuel Hf; (destruct fuel as [|fuel]; [lia|]).
  - rewrite parse_S. pose proof (header_ok _ Hb) as V.
    destruct V as [| t' l n r' E Hl | | t' k' r' E Hk' Hr']; cbn [bind]; auto.
    + cbn [length] in *. lia.
    + exfalso. apply cons_inv in E as (_ & E).
      destruct Hl; cbn [app] in E; apply cons_inv in E as (E & _); unfold size in E; lia.
    + exfalso. apply cons_inv in E as (_ & E). apply cons_inv in E as (E & _). lia.
  - rewrite parse_S. pose proof (header_ok _ Hb) as V.
    destruct V as [| t' l n r' E Hl | t' k' r' E Hk' |]; cbn [bind]; auto.
    + cbn [length] in *. lia.
    + exfalso. apply cons_inv in E as (_ & E).
      destruct Hl; cbn [app] in E; apply cons_inv in E as (E & E2); [lia|]. subst r.
      rewrite size_app in Hr. lia.
    + exfalso. apply cons_inv in E as (_ & E). apply cons_inv in E as (E & _). lia.
  - rewrite parse_S. rewrite (header_good 3 l 0) by (auto; reflexivity). cbn [bind].
    destruct (N.ltb_spec (N.of_nat (length r)) 0); [lia|]. cbv zeta.
    cbn [N.eqb Pos.eqb]. rewrite slice_panic by (unfold ix; lia). reflexivity.
  - assert (Hdne : d <> []) by (intros ->; inversion Hd).
    inversion Hb as [|? ? _ Hb']; subst. apply bytes_app in Hb' as (_ & Hb').
    apply bytes_app in Hb' as (Hb' & _). apply bytes_app in Hb' as (_ & Hbd).
    assert (E : parse_from_bytes fuel d = Panic p).
    { apply IH; auto. cbn [length] in Hf. rewrite !app_length in Hf. lia. }
    rewrite (parse_sequence_stop fuel l es c d r p), E by auto. reflexivity.
Qed.

Lemma parse_fault :
  forall e bs, fault e bs -> bytes bs -> forall fuel, (length bs < fuel)%nat ->
  parse_from_bytes fuel bs = Ok (RErr e).
Proof.
  intros e bs H. induction H as [bs Hs|t l n r Hl Hn|t l n r Hl Hn Ht|e l es c d r Hl Hc Hdne Hd IH];
    intros Hb fuel Hf; (destruct fuel as [|fuel]; [lia|]).
  - rewrite parse_S. unfold asn1_header. now rewrite (proj2 (Nat.leb_le _ _) Hs).
  - rewrite parse_S. inversion Hb; subst. rewrite (header_good t l n) by auto. cbn [bind].
    destruct (N.ltb_spec (N.of_nat (length r)) n) as [_|]; [reflexivity|]. unfold size in Hn. lia.
  - rewrite parse_S. inversion Hb; subst. rewrite (header_good t l n) by auto. cbn [bind].
    destruct (N.ltb_spec (N.of_nat (length r)) n) as [|_]; [unfold size in Hn; lia|]. cbv zeta.
    cbn [In] in Ht.
    rewrite !(proj2 (N.eqb_neq _ _)) by (intros ->; apply Ht; auto 10). reflexivity.
  - inversion Hb as [|? ? _ Hb']; subst. apply bytes_app in Hb' as (_ & Hb').
    apply bytes_app in Hb' as (Hb' & _). apply bytes_app in Hb' as (_ & Hbd).
    assert (E : parse_from_bytes fuel d = Ok (RErr e)).
    { apply IH; auto. cbn [length] in Hf. rewrite !app_length in Hf. lia. }
    rewrite (parse_sequence_stop fuel l es c d r PFuel), E by eauto. reflexivity.
Qed.

(** What the result of the parser says about its input. *)
Definition outcome (bs : list N) (r : res (result (asn1 * list N) asn1_error)) : Prop :=
  match r with
  | Ok (ROk (a, rest)) => exists e, bs = e ++ rest /\ lax a e
  | Ok (RErr e) => fault e bs
  | Panic p => crash p bs
  end.

Lemma parse_outcome fuel : forall bs, bytes bs -> (length bs < fuel)%nat ->
  outcome bs (parse_from_bytes fuel bs).
Proof.
  induction fuel as [|fuel IH]; intros bs Hb Hf; [lia|].
  destruct (parse_from_bytes (S fuel) bs) as [[[a rest]|e]|p] eqn:E; cbn [outcome].
  { eapply parse_sound; eauto. }
  all: assert (IHe : forall fe c acc, bytes c -> (length c < fuel)%nat -> (length c <= fe)%nat ->
    match asn1_elements (parse_from_bytes fuel) fe c acc with
    | Ok (ROk _) => True
    | Ok (RErr e) => exists e' es c1 d, e = InSequence e' /\ c = c1 ++ d /\ lax_all es c1 /\ d <> [] /\ fault e' d
    | Panic p => exists es c1 d, c = c1 ++ d /\ lax_all es c1 /\ crash p d
    end).
  1,3: (induction fe as [|fe IHf]; intros c acc Hc Hl Hfe; destruct c as [|x c];
      cbn [asn1_elements]; auto; cbn [length] in Hfe; try lia;
    pose proof (IH (x :: c) Hc Hl) as V;
    destruct (parse_from_bytes fuel (x :: c)) as [[[a1 r1]|e1]|p1]; cbn [bind outcome] in *;
    [destruct V as (e0 & E1 & L1);
     pose proof (encodes_nonempty _ _ _ _ L1) as Hne; rewrite E1 in Hc |- *;
     assert (Hlen : length (x :: c) = length (e0 ++ r1)) by (now rewrite E1);
     rewrite app_length in Hlen; (destruct e0 as [|z e0]; [congruence|]); cbn [length] in Hlen, Hl;
     apply bytes_app in Hc as (_ & Hc);
     specialize (IHf r1 (acc ++ [a1]) Hc ltac:(lia) ltac:(lia));
     destruct (asn1_elements (parse_from_bytes fuel) fe r1 (acc ++ [a1])) as [[?|e2]|p2]; auto;
     [destruct IHf as (e' & es' & c1 & d & -> & -> & L2 & D & F);
      exists e', (a1 :: es'), ((z :: e0) ++ c1), d; rewrite <- app_assoc; repeat split; auto; now constructor
     |destruct IHf as (es' & c1 & d & -> & L2 & C);
      exists (a1 :: es'), ((z :: e0) ++ c1), d; rewrite <- app_assoc; repeat split; auto; now constructor]
    |exists e1, [], [], (x :: c); repeat split; auto; [constructor|discriminate]
    |exists [], [], (x :: c); repeat split; auto; constructor]).
  all: rewrite parse_S in E; pose proof (header_ok bs Hb) as V; revert E;
    destruct V as [Hs| t l n rr -> Hl| t k rr -> Hk | t k rr -> Hk Hr]; cbn [bind]; intros H; try discriminate.
  all: try (injection H as <-; now constructor).
  all: inversion Hb as [|? ? Ht Hb']; subst; apply bytes_app in Hb' as (_ & Hr).
  - destruct (N.ltb_spec (N.of_nat (length rr)) n) as [Hn|Hn].
    { injection H as <-. now constructor. }
    cbv zeta in H. unfold ix in H. set (ln := N.to_nat n) in *.
    rewrite slice_to_ok, slice_from_ok in H by lia. cbn [bind] in H.
    destruct (N.eqb_spec t 2) as [->|T2]; [discriminate|].
    destruct (N.eqb_spec t 4) as [->|T4]; [discriminate|].
    destruct (N.eqb_spec t 3) as [->|T3].
    { destruct (Nat.leb_spec 1 ln) as [H1|H1].
      - destruct rr as [|y rr]; [cbn [length] in Hn; lia|].
        rewrite slice_ok in H by (cbn [length] in *; lia). discriminate.
      - rewrite slice_panic in H by lia. discriminate. }
    destruct (N.eqb_spec t 5) as [->|T5]; [discriminate|].
    destruct (N.eqb_spec t 6) as [->|T6]; [discriminate|].
    destruct (N.eqb_spec t 48) as [->|T7].
    2:{ cbn [bind] in H. injection H as <-. apply (fault_tag t l n); auto.
        cbn [In]. intros [X|[X|[X|[X|[X|[X|[]]]]]]]; congruence. }
    assert (V : (length (firstn ln rr) < fuel)%nat).
    { cbn [length] in Hf. rewrite app_length in Hf. rewrite firstn_length. lia. }
    specialize (IHe ln (firstn ln rr) [] (Forall_firstn _ _ _ Hr) V ltac:(rewrite firstn_length; lia)).
    destruct (asn1_elements (parse_from_bytes fuel) ln (firstn ln rr) []) as [[es|e1]|p1];
      try discriminate. cbn [bind] in H. injection H as <-.
    destruct IHe as (e' & es & c1 & d & -> & E & L & D & C).
    rewrite <- (firstn_skipn ln rr), E. apply (fault_sequence e' l es c1 d); auto.
    rewrite <- E. unfold size. rewrite firstn_length.
    now replace (N.of_nat (Nat.min ln (length rr))) with n by lia.
  - destruct (N.ltb_spec (N.of_nat (length rr)) n) as [Hn|Hn]; [discriminate|].
    cbv zeta in H. unfold ix in H. set (ln := N.to_nat n) in *.
    rewrite slice_to_ok, slice_from_ok in H by lia. cbn [bind] in H.
    destruct (N.eqb_spec t 2) as [->|T2]; [discriminate|].
    destruct (N.eqb_spec t 4) as [->|T4]; [discriminate|].
    destruct (N.eqb_spec t 3) as [->|T3].
    { destruct (Nat.leb_spec 1 ln) as [H1|H1].
      - destruct rr as [|y rr]; [cbn [length] in Hn; lia|].
        rewrite slice_ok in H by (cbn [length] in *; lia). discriminate.
      - rewrite slice_panic in H by lia. cbn [bind] in H. injection H as <-.
        constructor. now replace 0 with n by lia. }
    destruct (N.eqb_spec t 5) as [->|T5]; [discriminate|].
    destruct (N.eqb_spec t 6) as [->|T6]; [discriminate|].
    destruct (N.eqb_spec t 48) as [->|T7]; [|discriminate].
    assert (V : (length (firstn ln rr) < fuel)%nat).
    { cbn [length] in Hf. rewrite app_length in Hf. rewrite firstn_length. lia. }
    specialize (IHe ln (firstn ln rr) [] (Forall_firstn _ _ _ Hr) V ltac:(rewrite firstn_length; lia)).
    destruct (asn1_elements (parse_from_bytes fuel) ln (firstn ln rr) []) as [[es|e1]|p1];
      try discriminate. cbn [bind] in H. injection H as <-.
    destruct IHe as (es & c1 & d & E & L & C).
    rewrite <- (firstn_skipn ln rr), E. apply (crash_sequence p1 l es c1 d); auto.
    rewrite <- E. unfold size. rewrite firstn_length.
    now replace (N.of_nat (Nat.min ln (length rr))) with n by lia.
Qed.

Lemma try_from_panics bs p : bytes bs -> asn1_try_from bs = Panic p <-> crash p bs.
Proof.
  intros Hb. unfold asn1_try_from. split.
  - intros H. pose proof (parse_outcome (S (length bs)) bs Hb (Nat.lt_succ_diag_r _)) as V.
    destruct (parse_from_bytes (S (length bs)) bs) as [[[a [|]]|e]|q]; cbn [bind outcome] in *; try discriminate.
    now injection H as ->.
  - intros H. rewrite (parse_crash p bs H Hb) by lia. reflexivity.
Qed.

Lemma try_from_errors bs e : bytes bs -> asn1_try_from bs = Ok (RErr e) <-> rejected e bs.
Proof.
  intros Hb. unfold asn1_try_from, rejected. split.
  - intros H. pose proof (parse_outcome (S (length bs)) bs Hb (Nat.lt_succ_diag_r _)) as V.
    destruct (parse_from_bytes (S (length bs)) bs) as [[[a [|x l]]|e']|q]; cbn [bind outcome] in *; try discriminate.
    + injection H as <-. right. split; auto. destruct V as (b & -> & L). exists a, b, (x :: l).
      repeat split; auto. discriminate.
    + injection H as ->. now left.
  - intros [H|(-> & v & a & r & -> & Hr & L)].
    + rewrite (parse_fault e bs H Hb) by lia. reflexivity.
    + rewrite (proj1 parse_complete v) by (auto; rewrite app_length; lia). cbn [bind].
      destruct r; [congruence|reflexivity].
Qed.

Lemma crash_unique bs p q : bytes bs -> crash p bs -> crash q bs -> p = q.
Proof.
  intros Hb Hp Hq. apply try_from_panics in Hp, Hq; auto. rewrite Hp in Hq. now injection Hq.
Qed.

(** ** Declared lengths *)

Lemma too_little t l n rest : byte t -> lax_len l n -> size rest < n ->
  asn1_try_from (t :: l ++ rest) = Ok (RErr (TooLittleData t n (length rest))).
Proof.
  intros Ht Hl Hn. unfold asn1_try_from. rewrite parse_S, (header_good t l n) by auto. cbn [bind].
  destruct (N.ltb_spec (N.of_nat (length rest)) n) as [_|]; [reflexivity|].
  unfold size in Hn. lia.
Qed.

(** ** BER and DER *)

Lemma ber_len_lax l n : ber_len l n -> n < 2 ^ 64 -> (length l <= 17)%nat -> lax_len l n.
Proof.
  intros [m H|ds B H] Hn Hl; [now constructor|].
  rewrite <- (N.mod_small (be_num ds) (2 ^ 64)) by auto. constructor; auto. cbn [length] in Hl. lia.
Qed.

Lemma digits_bound n : 0 < n -> n < 256 ^ N.of_nat (digits n).
Proof.
  intros H. unfold digits. pose proof (N.log2_spec n H) as (_ & H2).
  change 256 with (2 ^ 8). rewrite <- N.pow_mul_r.
  eapply N.lt_le_trans; [exact H2|]. apply N.pow_le_mono_r; lia.
Qed.

Lemma digits_min n : 0 < n -> 256 ^ N.of_nat (digits n - 1) <= n.
Proof.
  intros H. unfold digits. pose proof (N.log2_spec n H) as (H1 & _).
  change 256 with (2 ^ 8). rewrite <- N.pow_mul_r.
  eapply N.le_trans; [|exact H1]. apply N.pow_le_mono_r; lia.
Qed.

Lemma be_bytes_length k n : length (be_bytes k n) = k.
Proof. rewrite <- to_be_be_bytes. apply to_be_length. Qed.

Lemma be_num_be_bytes k n : n < 256 ^ N.of_nat k -> be_num (be_bytes k n) = n.
Proof.
  intros H. rewrite <- to_be_be_bytes, <- from_be_be_num, from_be_to_be. now apply N.mod_small.
Qed.

Lemma digits_le n k : n < 256 ^ N.of_nat k -> (1 <= k)%nat -> (digits n <= k)%nat.
Proof.
  intros H Hk. destruct (N.eq_dec n 0) as [->|Hn]; [unfold digits; cbn; lia|].
  pose proof (digits_min n) as Hm. destruct (Nat.leb_spec (digits n) k); auto.
  assert (256 ^ N.of_nat k <= 256 ^ N.of_nat (digits n - 1)) by (apply N.pow_le_mono_r; lia).
  lia.
Qed.

Lemma der_len_lax n : n < 2 ^ 64 -> lax_len (der_len n) n.
Proof.
  intros H. unfold der_len. destruct (N.ltb_spec n 128); [now constructor|].
  pose proof (digits_le n 8) as Hd.
  assert (digits n <= 8)%nat.
  { apply Hd; [|lia]. change (256 ^ N.of_nat 8) with (2 ^ 64). exact H. }
  replace (lax_len _ n) with
    (lax_len (128 + size (be_bytes (digits n) n) :: be_bytes (digits n) n)
             (be_num (be_bytes (digits n) n) mod 2 ^ 64)).
  { constructor; [rewrite <- to_be_be_bytes; apply to_be_bytes|]. rewrite be_bytes_length. lia. }
  rewrite be_num_be_bytes by (apply digits_bound; lia). rewrite N.mod_small by auto.
  unfold size. now rewrite be_bytes_length.
Qed.

Lemma size_tlv t c : size c < size (tlv t c).
Proof. unfold tlv, size. cbn [length]. rewrite app_length. lia. Qed.

Lemma der_lax a : size (der a) < 2 ^ 64 -> lax a (der a).
Proof.
  induction a as [c|c|c u| |c|es IH] using asn1_nested_ind; cbn [der]; intros H.
  1-5: pose proof (size_tlv 2 c) as Ht || idtac; unfold tlv in *; constructor; auto;
    apply der_len_lax; eapply N.lt_trans; [|exact H];
    match goal with |- size ?c < _ => apply (size_tlv _ c) end.
  assert (Hs : size (concat (map der es)) < 2 ^ 64)
    by (eapply N.lt_trans; [apply size_tlv|exact H]).
  unfold tlv. constructor; [now apply der_len_lax|]. clear H.
  induction IH as [|a es Ha Hes IHs]; cbn [map concat] in *; [constructor|].
  rewrite size_app in Hs. constructor; [apply Ha; lia|apply IHs; lia].
Qed.

Lemma der_roundtrip a : size (der a) < 2 ^ 64 -> asn1_try_from (der a) = Ok (ROk a).
Proof. intros H. apply try_from_complete, der_lax, H. Qed.

Lemma ber_lax :
  (forall a e, encodes (fun l n => ber_len l n /\ (length l <= 17)%nat) ber_content a e ->
     size e < 2 ^ 64 -> lax a e) /\
  (forall es e, encodes_all (fun l n => ber_len l n /\ (length l <= 17)%nat) ber_content es e ->
     size e < 2 ^ 64 -> lax_all es e).
Proof.
  unfold lax, lax_all. apply encodes_mutind.
  1-6: intros; constructor; auto.
  1-7: match goal with H : ber_len _ _ /\ _ |- lax_len _ _ => destruct H; apply ber_len_lax; auto
       | H : _ -> _ |- _ => apply H end;
    match goal with H : size (_ :: _) < _ |- _ => revert H end;
    unfold size; cbn [length]; rewrite app_length; cbn [length]; lia.
  - constructor.
  - intros a c es cs Ha IHa Hes IHes Hs. rewrite size_app in Hs. constructor; [apply IHa|apply IHes]; lia.
Qed.

Lemma be_num_lt ds : bytes ds -> be_num ds < 256 ^ N.of_nat (length ds).
Proof. intros H. rewrite <- from_be_be_num. now apply from_be_lt. Qed.

Lemma der_len_ber n : n < 256 ^ 126 -> ber_len (der_len n) n.
Proof.
  intros H. unfold der_len. destruct (N.ltb_spec n 128) as [|Hn]; [now constructor|].
  pose proof (digits_le n 126) as Hd.
  assert (digits n <= 126)%nat by (apply Hd; [exact H|lia]).
  replace (ber_len _ n) with
    (ber_len (128 + size (be_bytes (digits n) n) :: be_bytes (digits n) n)
             (be_num (be_bytes (digits n) n))).
  { constructor; [rewrite <- to_be_be_bytes; apply to_be_bytes|]. rewrite be_bytes_length.
    unfold digits in *. lia. }
  rewrite be_num_be_bytes by (apply digits_bound; lia). unfold size. now rewrite be_bytes_length.
Qed.

Lemma der_len_shortest l n : ber_len l n ->
  (length (der_len n) <= length l)%nat /\ (length (der_len n) = length l -> der_len n = l).
Proof.
  intros H. unfold der_len. destruct H as [n H|ds B H].
  - destruct (N.ltb_spec n 128); [|lia]. cbn [length]. auto.
  - destruct (N.ltb_spec (be_num ds) 128) as [Hs|Hs]; cbn [length].
    { split; lia. }
    rewrite be_bytes_length. split.
    + apply le_n_S, digits_le; [now apply be_num_lt|lia].
    + intros E. injection E as E. rewrite E. unfold size. f_equal.
      rewrite <- to_be_be_bytes, <- from_be_be_num. now apply to_be_from_be.
Qed.

(** The DER encoding is a BER encoding if all contents are. *)
Inductive good_contents : asn1 -> Prop :=
| gc_integer c : ber_content 2 c -> good_contents (Integer c)
| gc_bit_string c u : ber_content 3 (u :: c) -> good_contents (BitString c u)
| gc_octet_string c : ber_content 4 c -> good_contents (OctetString c)
| gc_null : good_contents Null
| gc_oid c : ber_content 6 c -> good_contents (ObjectIdentifier c)
| gc_sequence es : Forall good_contents es -> good_contents (Sequence es).

Lemma der_ber a : good_contents a -> size (der a) < 2 ^ 64 -> ber a (der a).
Proof.
  assert (W : forall n, n < 2 ^ 64 -> ber_len (der_len n) n).
  { intros n Hn. apply der_len_ber. eapply N.lt_le_trans; [exact Hn|]. now vm_compute. }
  induction a as [c|c|c u| |c|es IH] using asn1_nested_ind; cbn [der]; intros G H;
    inversion G; subst.
  1-5: unfold tlv in *; constructor; auto;
    try (apply W; eapply N.lt_trans; [|exact H];
         match goal with |- size ?c < _ => apply (size_tlv _ c) end).
  { split; [constructor|]. repeat split; intros; try discriminate; auto. }
  assert (Hs : size (concat (map der es)) < 2 ^ 64)
    by (eapply N.lt_trans; [apply size_tlv|exact H]).
  unfold tlv. constructor; [now apply W|]. clear H G.
  induction IH as [|a es Ha Hes IHs]; cbn [map concat] in *; [constructor|].
  match goal with H : Forall good_contents _ |- _ => inversion H; subst end.
  rewrite size_app in Hs. constructor; [apply Ha; auto; lia|apply IHs; auto; lia].
Qed.

(** ** Repeated length digits: a valid BER encoding that panics *)

Definition long_null : list N := 5 :: 128 + 17 :: repeat 0 17.

Lemma long_null_ber : ber Null long_null.
Proof.
  unfold long_null, ber.
  change (5 :: 128 + 17 :: repeat 0 17) with (5 :: (128 + size (repeat 0 17) :: repeat 0 17) ++ []).
  constructor.
  - change (size []) with (be_num (repeat 0 17)). constructor; [|cbn; lia].
    apply Forall_repeat. reflexivity.
  - split; [constructor|]. repeat split; intros; try discriminate; auto.
Qed.

(** ** Deep nesting *)

Fixpoint nest (k : nat) : asn1 := match k with O => Null | S k => Sequence [nest k] end.

(** ** Statements for the property file *)

Lemma parse_iff fuel bs a rest : bytes bs -> (length bs < fuel)%nat ->
  parse_from_bytes fuel bs = Ok (ROk (a, rest)) <-> exists e, bs = e ++ rest /\ lax a e.
Proof.
  intros Hb Hf. split; [now apply parse_sound|]. intros (e & -> & L).
  apply (proj1 parse_complete); auto. rewrite app_length in Hf. lia.
Qed.

Lemma lax_unambiguous bs v w : bytes bs -> lax v bs -> lax w bs -> v = w.
Proof.
  intros _ Hv Hw. apply try_from_complete in Hv, Hw. rewrite Hv in Hw. now injection Hw.
Qed.

Lemma ber_accepted v bs :
  encodes (fun l n => ber_len l n /\ (length l <= 17)%nat) ber_content v bs ->
  size bs < 2 ^ 64 -> asn1_try_from bs = Ok (ROk v).
Proof. intros H Hs. apply try_from_complete, (proj1 ber_lax); auto. Qed.

Lemma der_injective a b : size (der a) < 2 ^ 64 -> der a = der b -> a = b.
Proof.
  intros Ha E. assert (Hb : size (der b) < 2 ^ 64) by (rewrite <- E; exact Ha).
  apply der_roundtrip in Ha, Hb. rewrite E, Hb in Ha. now injection Ha.
Qed.

Lemma der_prefix a rest fuel : size (der a) < 2 ^ 64 -> (length (der a) < fuel)%nat ->
  parse_from_bytes fuel (der a ++ rest) = Ok (ROk (a, rest)).
Proof. intros H Hf. apply (proj1 parse_complete); auto. now apply der_lax. Qed.

Lemma try_from_otherwise bs : bytes bs -> (forall p, ~ crash p bs) ->
  (exists v, asn1_try_from bs = Ok (ROk v) /\ lax v bs) \/
  (exists e, asn1_try_from bs = Ok (RErr e) /\ forall v, ~ lax v bs).
Proof.
  intros Hb Hc. destruct (asn1_try_from bs) as [[v|e]|r] eqn:E.
  - left. exists v. split; auto. now apply try_from_iff.
  - right. exists e. split; auto. intros v L. apply try_from_complete in L. congruence.
  - exfalso. apply (Hc r), try_from_panics; auto.
Qed.

Lemma panic_example : exists bs, bytes bs /\ exists r, asn1_try_from bs = Panic r.
Proof.
  exists [3; 0]. split; [repeat constructor|]. exists PIndex. vm_compute. reflexivity.
Qed.

Lemma too_little_long t ds rest : byte t -> bytes ds -> (length ds <= 16)%nat ->
  be_num ds < 2 ^ 64 -> size rest < be_num ds ->
  asn1_try_from (t :: (128 + size ds :: ds) ++ rest) =
  Ok (RErr (TooLittleData t (be_num ds) (length rest))).
Proof.
  intros Ht Hd Hl Hn Hr. apply too_little; auto.
  rewrite <- (N.mod_small (be_num ds) (2 ^ 64)) by auto. now constructor.
Qed.

Lemma too_little_short t n rest : byte t -> n < 128 -> size rest < n ->
  asn1_try_from (t :: n :: rest) = Ok (RErr (TooLittleData t n (length rest))).
Proof.
  intros Ht Hn Hr. change (t :: n :: rest) with (t :: [n] ++ rest).
  apply too_little; auto. now constructor.
Qed.

Lemma length_truncated t ds rest : byte t -> bytes ds -> (length ds <= 16)%nat ->
  asn1_header (t :: (128 + size ds :: ds) ++ rest) = Ok (ROk (t, rest, be_num ds mod 2 ^ 64)).
Proof. intros. apply header_good; auto. now constructor. Qed.

Lemma truncation_example : exists ds rest v, bytes ds /\ bytes rest /\
  size rest < be_num ds /\
  asn1_try_from (4 :: (128 + size ds :: ds) ++ rest) = Ok (ROk v).
Proof.
  exists [1; 0; 0; 0; 0; 0; 0; 0; 0], [], (OctetString []).
  split; [repeat constructor|]. split; [constructor|]. split; vm_compute; reflexivity.
Qed.
