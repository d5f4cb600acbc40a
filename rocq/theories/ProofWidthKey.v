(** * Proofs for C131: key files on targets with pointers of another size *)
From Coq Require Import ZifyBool ZifyNat ZifyN.
From Verif Require Import Base BaseLemmas ModelBig ModelPem ModelRsa ModelKey ModelWidth ModelWidthKey
  SpecEndian SpecAsn1 SpecCalls SpecKey SpecReencode SpecWidth SpecWidthKey
  ProofEndian ProofAsn1 ProofPem ProofKey ProofCalls ProofReencode ProofWidth.
Local Open Scope N_scope.
Local Open Scope list_scope.

Lemma private_64 P p : @private_key_try_from_w P 64 p = @private_key_try_from P p.
Proof. reflexivity. Qed.
Lemma public_64 P p : @public_key_try_from_w P 64 p = @public_key_try_from P p.
Proof. reflexivity. Qed.

Lemma element_held a es : In a es -> (held a <= held (Sequence es))%nat.
Proof.
  intros H. cbn [held]. induction es as [|e es IH]; [destruct H|]. cbn [map list_sum fold_right].
  change (fold_right Nat.add 0%nat (map held es)) with (list_sum (map held es)).
  destruct H as [->|H]; [lia|]. specialize (IH H). lia.
Qed.

Lemma idx_in {A} (l : list A) i x : idx l i = Ok x -> In x l.
Proof.
  unfold idx. destruct (nth_error l i) as [y|] eqn:E; [|discriminate]. intros [= ->].
  exact (nth_error_In l i E).
Qed.

Section Same.
Context (w : N) (Hw : 10 <= w <= 64) (bs : list N) (B : bytes bs) (L : N.of_nat (length bs) < 2 ^ w).

(** What is inside a value is bytes, and no longer than the input. *)
Lemma inside es i a : asn1_try_from bs = Ok (ROk (Sequence es)) -> idx es i = Ok a ->
  asn1_value a /\ N.of_nat (held a) < 2 ^ w.
Proof using Hw B L.
  intros E I. apply idx_in in I. split.
  - apply try_from_iff in E; [|exact B]. pose proof (lax_value _ _ E B) as V. inversion V; subst.
    match goal with H : Forall asn1_value _ |- _ => rewrite Forall_forall in H; now apply H end.
  - pose proof (try_from_held bs _ B E) as H. pose proof (element_held a es I). lia.
Qed.


Lemma private_info_same asn : asn1_try_from bs = Ok (ROk asn) ->
  (forall e, private_key_info_from_asn1 asn = Ok (RErr e) -> key_length_beyond w e = false) ->
  private_key_info_from_asn1_w w asn = private_key_info_from_asn1 asn.
Proof using Hw B L.
  intros E H. destruct asn as [| | | | |es]; [reflexivity..|].
  unfold private_key_info_from_asn1_w, private_key_info_from_asn1 in *.
  destruct (negb _); [reflexivity|]. destruct (idx es 0) as [s0|]; cbn [bind] in *; [|reflexivity].
  destruct (negb _); [reflexivity|]. destruct (idx es 1) as [s1|]; cbn [bind] in *; [|reflexivity].
  destruct (algorithm_from_asn1 s1) as [algo|]; [|reflexivity]. destruct (negb _); [reflexivity|].
  destruct (idx es 2) as [s2|] eqn:I; cbn [bind] in *; [|reflexivity].
  destruct s2 as [|c| | | |]; [reflexivity| |reflexivity..].
  destruct (inside es 2 _ E I) as [V Lc]. cbn [held] in Lc. inversion V as [| |? Bc| | |]; subst.
  rewrite (asn1_same w c Hw Bc Lc); [reflexivity|].
  intros e Ee. rewrite Ee in H. cbn [bind] in H. exact (H _ eq_refl).
Qed.

Lemma public_info_same asn : asn1_try_from bs = Ok (ROk asn) ->
  (forall e, subject_public_key_info_from_asn1 asn = Ok (RErr e) -> key_length_beyond w e = false) ->
  subject_public_key_info_from_asn1_w w asn = subject_public_key_info_from_asn1 asn.
Proof using Hw B L.
  intros E H. destruct asn as [| | | | |es]; [reflexivity..|].
  unfold subject_public_key_info_from_asn1_w, subject_public_key_info_from_asn1 in *.
  destruct (negb _); [reflexivity|]. destruct (idx es 0) as [s0|]; cbn [bind] in *; [|reflexivity].
  destruct (algorithm_from_asn1 s0) as [algo|]; [|reflexivity]. destruct (negb _); [reflexivity|].
  destruct (idx es 1) as [s1|] eqn:I; cbn [bind] in *; [|reflexivity].
  destruct s1 as [| |c u| | |]; [reflexivity|reflexivity| |reflexivity..]. destruct (negb _); [reflexivity|].
  destruct (inside es 1 _ E I) as [V Lc]. cbn [held] in Lc. inversion V as [|? ? Bc| | | |]; subst.
  rewrite (asn1_same w c Hw Bc); [reflexivity|lia|].
  intros e Ee. rewrite Ee in H. cbn [bind] in H. exact (H _ eq_refl).
Qed.
End Same.

Lemma private_same w p : 10 <= w <= 64 -> bytes (pem_data p) -> N.of_nat (length (pem_data p)) < 2 ^ w ->
  (forall e, private_key_try_from p = Ok (RErr e) -> key_length_beyond w e = false) ->
  private_key_try_from_w w p = private_key_try_from p.
Proof.
  intros Hw B L H. unfold private_key_try_from_w, private_key_try_from in *.
  destruct (negb _); [reflexivity|].
  assert (E : asn1_try_from_w w (pem_data p) = asn1_try_from (pem_data p)).
  { apply (asn1_same w _ Hw B L). intros e Ee. rewrite Ee in H. cbn [bind] in H. exact (H _ eq_refl). }
  rewrite E. destruct (asn1_try_from (pem_data p)) as [[asn|e]|] eqn:Ea; cbn [bind] in *; [|reflexivity|reflexivity].
  rewrite (private_info_same w Hw (pem_data p) B L asn Ea); [reflexivity|].
  intros e Ee. rewrite Ee in H. cbn [bind] in H. exact (H _ eq_refl).
Qed.

Lemma public_same w p : 10 <= w <= 64 -> bytes (pem_data p) -> N.of_nat (length (pem_data p)) < 2 ^ w ->
  (forall e, public_key_try_from p = Ok (RErr e) -> key_length_beyond w e = false) ->
  public_key_try_from_w w p = public_key_try_from p.
Proof.
  intros Hw B L H. unfold public_key_try_from_w, public_key_try_from in *.
  destruct (negb _); [reflexivity|].
  assert (E : asn1_try_from_w w (pem_data p) = asn1_try_from (pem_data p)).
  { apply (asn1_same w _ Hw B L). intros e Ee. rewrite Ee in H. cbn [bind] in H. exact (H _ eq_refl). }
  rewrite E. destruct (asn1_try_from (pem_data p)) as [[asn|e]|] eqn:Ea; cbn [bind] in *; [|reflexivity|reflexivity].
  rewrite (public_info_same w Hw (pem_data p) B L asn Ea); [reflexivity|].
  intros e Ee. rewrite Ee in H. cbn [bind] in H. exact (H _ eq_refl).
Qed.

(** ** Files that only one of two targets accepts *)

Lemma beyond_bytes w t c : byte t -> bytes c -> bytes (beyond w t c).
Proof.
  intros Ht Bc. unfold beyond. constructor; [exact Ht|]. constructor; [unfold byte; lia|].
  apply Forall_app. split; [apply be_bytes_bytes|exact Bc].
Qed.

Lemma parse_header w fuel bs bs' : asn1_header_w w bs = asn1_header_w w bs' ->
  parse_from_bytes_w w fuel bs = parse_from_bytes_w w fuel bs'.
Proof. intros E. destruct fuel as [|fuel]; [reflexivity|]. cbn [parse_from_bytes_w]. now rewrite E. Qed.

Lemma wrapped w t c k : 10 <= w <= 64 -> byte t -> bytes c -> size c < 2 ^ w -> size c + k * 2 ^ w < 2 ^ 128 ->
  asn1_header_w w (t :: 144 :: be_bytes 16 (size c + k * 2 ^ w) ++ c) = Ok (ROk (t, c, size c)).
Proof.
  intros [Hw Hw'] Ht Bc Lc Hk.
  assert (Es : size (be_bytes 16 (size c + k * 2 ^ w)) = 16) by (unfold size; now rewrite be_bytes_length).
  pose proof (wrapped_length w Hw Hw' t (be_bytes 16 (size c + k * 2 ^ w)) c k) as H. rewrite Es in H.
  apply H; [exact Ht|apply be_bytes_bytes|now rewrite be_bytes_length|exact Bc| |exact Lc].
  rewrite be_num_be_bytes by exact Hk. reflexivity.
Qed.

Lemma one_target w bs v : 10 <= w < 64 -> bytes bs -> size bs + 17 < 2 ^ w ->
  asn1_try_from bs = Ok (ROk v) ->
  exists t l c, bs = t :: l ++ c /\ bytes (beyond w t c) /\ size (beyond w t c) < 2 ^ w /\
    asn1_try_from_w w (beyond w t c) = Ok (ROk v) /\
    asn1_try_from (beyond w t c) = Ok (RErr (TooLittleData t (size c + 2 ^ w) (length c))).
Proof.
  intros [Hw Hw'] B L E. assert (W : 10 <= w <= 64) by lia. assert (W' : w <= 64) by lia.
  destruct (many_encodings bs v B E) as (t & l & c & Eq & M & _).
  exists t, l, c. split; [exact Eq|].
  assert (Ht : byte t /\ bytes c).
  { rewrite Eq in B. inversion B as [|? ? Ht Bl]; subst. apply Forall_app in Bl as (_ & Bc). now split. }
  destruct Ht as [Ht Bc].
  assert (Lc : size c + 18 < 2 ^ w).
  { rewrite Eq in L. unfold size in L |- *. cbn [length] in L. rewrite app_length in L. lia. }
  assert (Lw : 2 ^ w * 2 <= 2 ^ 64).
  { replace (2 ^ 64) with (2 ^ 63 * 2) by reflexivity. apply N.mul_le_mono_r. apply N.pow_le_mono_r; lia. }
  assert (Big : 2 ^ 64 < 2 ^ 128) by reflexivity.
  assert (S0 : forall n, N.of_nat (length (t :: 144 :: be_bytes 16 n ++ c)) = size c + 18).
  { intros n. cbn [length]. rewrite app_length, be_bytes_length. unfold size. lia. }
  split; [now apply beyond_bytes|]. split; [unfold size at 1, beyond; rewrite S0; exact Lc|]. split.
  - assert (E0 : asn1_try_from_w w (with_length t c 0) = Ok (ROk v)).
    { specialize (M 0 eq_refl). rewrite <- M. apply (asn1_same w); [exact W| | |].
      - apply with_length_bytes with l. now rewrite <- Eq.
      - unfold with_length. rewrite S0. lia.
      - intros e Ee. rewrite M in Ee. discriminate. }
    rewrite <- E0. unfold asn1_try_from_w.
    replace (length (beyond w t c)) with (length (with_length t c 0)) by (apply Nat2N.inj; unfold beyond, with_length; now rewrite !S0).
    rewrite (parse_header w _ (beyond w t c) (with_length t c 0)); [reflexivity|].
    unfold beyond, with_length. rewrite N.mul_0_r.
    replace (size c + 0) with (size c + 0 * 2 ^ w) by lia. replace (size c + 2 ^ w) with (size c + 1 * 2 ^ w) by lia.
    rewrite !wrapped; try assumption; try reflexivity; lia.
  - unfold asn1_try_from. rewrite parse_S.
    assert (Hh : asn1_header (beyond w t c) = Ok (ROk (t, c, size c + 2 ^ w))).
    { pose proof (length_truncated t (be_bytes 16 (size c + 2 ^ w)) c Ht (be_bytes_bytes _ _)) as H.
      assert (Es : size (be_bytes 16 (size c + 2 ^ w)) = 16) by (unfold size; now rewrite be_bytes_length).
      rewrite Es, be_bytes_length in H. specialize (H (le_n _)).
      rewrite be_num_be_bytes in H by (change (256 ^ N.of_nat 16) with (2 ^ 128); lia).
      rewrite (N.mod_small (size c + 2 ^ w)) in H by lia. exact H. }
    rewrite Hh. cbn [bind]. replace (N.of_nat (length c) <? size c + 2 ^ w) with true; [reflexivity|].
    symmetry. apply N.ltb_lt. unfold size. assert (0 < 2 ^ w) by (apply N.neq_0_lt_0, N.pow_nonzero; discriminate). lia.
Qed.

Lemma private_accepted p k : private_key_try_from p = Ok (ROk k) ->
  pem_label p = private_label /\ exists v, asn1_try_from (pem_data p) = Ok (ROk v).
Proof.
  unfold private_key_try_from. intros H. destruct (str_eqb (pem_label p) private_label) eqn:El; cbn [negb] in H; [|discriminate].
  apply str_eqb_iff in El. split; [exact El|]. apply bind_ok_inv in H as (r & Hr & H). destruct r as [asn|]; [|discriminate].
  now exists asn.
Qed.

Lemma public_accepted p k : public_key_try_from p = Ok (ROk k) ->
  pem_label p = public_label /\ exists v, asn1_try_from (pem_data p) = Ok (ROk v).
Proof.
  unfold public_key_try_from. intros H. destruct (str_eqb (pem_label p) public_label) eqn:El; cbn [negb] in H; [|discriminate].
  apply str_eqb_iff in El. split; [exact El|]. apply bind_ok_inv in H as (r & Hr & H). destruct r as [asn|]; [|discriminate].
  now exists asn.
Qed.

Lemma private_one_target w p k : 10 <= w < 64 -> bytes (pem_data p) -> size (pem_data p) + 17 < 2 ^ w ->
  private_key_try_from p = Ok (ROk k) ->
  exists t l c, pem_data p = t :: l ++ c /\
    let p' := {| pem_label := pem_label p; pem_data := beyond w t c |} in
    private_key_try_from_w w p' = Ok (ROk k) /\
    private_key_try_from p' = Ok (RErr (KParse (TooLittleData t (size c + 2 ^ w) (length c)))).
Proof.
  intros Hw B L E. destruct (private_accepted p k E) as (El & v & Ev).
  destruct (one_target w _ v Hw B L Ev) as (t & l & c & Eq & Bb & Lb & E1 & E2).
  exists t, l, c. split; [exact Eq|]. cbv zeta. split.
  - assert (Es : private_key_try_from_w w p = Ok (ROk k)).
    { rewrite <- E. apply private_same; [lia|exact B| |intros e Ee; rewrite E in Ee; discriminate]. unfold size in L. lia. }
    rewrite <- Es. unfold private_key_try_from_w. cbn [pem_label pem_data]. rewrite E1.
    assert (Ew : asn1_try_from_w w (pem_data p) = Ok (ROk v)).
    { rewrite <- Ev. apply asn1_same; [lia|exact B| |intros e Ee; rewrite Ev in Ee; discriminate]. unfold size in L. lia. }
    rewrite Ew. reflexivity.
  - unfold private_key_try_from. cbn [pem_label pem_data]. rewrite El, (proj2 (str_eqb_iff _ _) eq_refl). cbn [negb].
    rewrite E2. reflexivity.
Qed.

Lemma public_one_target w p k : 10 <= w < 64 -> bytes (pem_data p) -> size (pem_data p) + 17 < 2 ^ w ->
  public_key_try_from p = Ok (ROk k) ->
  exists t l c, pem_data p = t :: l ++ c /\
    let p' := {| pem_label := pem_label p; pem_data := beyond w t c |} in
    public_key_try_from_w w p' = Ok (ROk k) /\
    public_key_try_from p' = Ok (RErr (KParse (TooLittleData t (size c + 2 ^ w) (length c)))).
Proof.
  intros Hw B L E. destruct (public_accepted p k E) as (El & v & Ev).
  destruct (one_target w _ v Hw B L Ev) as (t & l & c & Eq & Bb & Lb & E1 & E2).
  exists t, l, c. split; [exact Eq|]. cbv zeta. split.
  - assert (Es : public_key_try_from_w w p = Ok (ROk k)).
    { rewrite <- E. apply public_same; [lia|exact B| |intros e Ee; rewrite E in Ee; discriminate]. unfold size in L. lia. }
    rewrite <- Es. unfold public_key_try_from_w. cbn [pem_label pem_data]. rewrite E1.
    assert (Ew : asn1_try_from_w w (pem_data p) = Ok (ROk v)).
    { rewrite <- Ev. apply asn1_same; [lia|exact B| |intros e Ee; rewrite Ev in Ee; discriminate]. unfold size in L. lia. }
    rewrite Ew. reflexivity.
  - unfold public_key_try_from. cbn [pem_label pem_data]. rewrite El, (proj2 (str_eqb_iff _ _) eq_refl). cbn [negb].
    rewrite E2. reflexivity.
Qed.

(** ** Any two targets *)

Section Inside.
Context (w : N) (Hw : 10 <= w) (Hw' : w <= 64).

Lemma elements_inside fuel :
  (forall bs a r, bytes bs -> parse_from_bytes_w w fuel bs = Ok (ROk (a, r)) ->
     asn1_value a /\ bytes r /\ (held a + length r <= length bs)%nat) ->
  forall fe l acc es, bytes l -> asn1_elements (parse_from_bytes_w w fuel) fe l acc = Ok (ROk es) ->
  exists es', es = acc ++ es' /\ Forall asn1_value es' /\ (list_sum (map held es') <= length l)%nat.
Proof using Type.
  intros IH. induction fe as [|fe IHf]; intros [|x l] acc es B E; cbn [asn1_elements] in E.
  - injection E as <-. exists []. rewrite app_nil_r. now repeat split.
  - discriminate.
  - injection E as <-. exists []. rewrite app_nil_r. now repeat split.
  - apply bind_ok_inv in E as (r & Er & E). destruct r as [[a r]|]; [|discriminate].
    destruct (IH _ _ _ B Er) as (Va & Br & L). destruct (IHf _ _ _ Br E) as (es' & -> & V & L').
    exists (a :: es'). split; [now rewrite <- app_assoc|]. split; [now constructor|].
    cbn [map list_sum fold_right]. change (fold_right Nat.add 0%nat (map held es')) with (list_sum (map held es')).
    clear - L L'. lia.
Qed.

Lemma parse_inside fuel : forall bs a r, bytes bs -> parse_from_bytes_w w fuel bs = Ok (ROk (a, r)) ->
  asn1_value a /\ bytes r /\ (held a + length r <= length bs)%nat.
Proof using Hw Hw'.
  induction fuel as [|fuel IH]; intros bs a r B E; [discriminate|]. cbn [parse_from_bytes_w] in E.
  rewrite header_w in E by assumption.
  destruct (asn1_header bs) as [[[[t q] n]|e]|] eqn:Eh; cbn [bind] in E; [|discriminate..].
  destruct (header_rest _ _ _ _ B Eh) as [Bq Lq]. set (m := n mod 2 ^ w) in *. clearbody m.
  destruct (N.ltb_spec (N.of_nat (length q)) m) as [C|C]; [discriminate|]. cbv zeta in E.
  assert (K : (ix m <= length q)%nat) by (unfold ix; clear - C; lia).
  assert (Bf : bytes (firstn (ix m) q)) by now apply Forall_firstn.
  assert (Bs : bytes (skipn (ix m) q)) by now apply Forall_skipn.
  assert (Lf : length (firstn (ix m) q) = ix m) by now rewrite firstn_length_le.
  assert (Ls : length (skipn (ix m) q) = (length q - ix m)%nat) by apply skipn_length.
  apply bind_ok_inv in E as (v & Ev & E). destruct v as [v|]; [|discriminate].
  rewrite slice_from_ok in E by exact K. cbn [bind] in E. injection E as <- <-.
  enough (asn1_value v /\ (held v <= ix m)%nat) as [V L].
  { split; [exact V|]. split; [exact Bs|]. clear - L Ls Lq K. lia. }
  destruct (t =? 2).
  { rewrite slice_to_ok in Ev by exact K. injection Ev as <-. split; [now constructor|]. cbn [held]. clear - Lf. lia. }
  destruct (t =? 4).
  { rewrite slice_to_ok in Ev by exact K. injection Ev as <-. split; [now constructor|]. cbn [held]. clear - Lf. lia. }
  destruct (t =? 3).
  { unfold slice in Ev. destruct ((1 <=? ix m)%nat && (ix m <=? length q)%nat)%bool eqn:Ec; [|discriminate].
    apply andb_prop in Ec as [Ec _]. apply Nat.leb_le in Ec. cbn [bind] in Ev.
    apply bind_ok_inv in Ev as (u & Eu & Ev). injection Ev as <-. apply idx_in in Eu. split.
    - constructor; [apply Forall_firstn; destruct q; [constructor|now inversion Bq]|]. now apply (proj1 (Forall_forall _ _) Bq).
    - cbn [held]. rewrite firstn_length. clear - Ec. lia. }
  destruct (t =? 5).
  { injection Ev as <-. split; [constructor|]. cbn [held]. clear. lia. }
  destruct (t =? 6).
  { rewrite slice_to_ok in Ev by exact K. injection Ev as <-. split; [now constructor|]. cbn [held]. clear - Lf. lia. }
  destruct (t =? 48); [|discriminate].
  rewrite slice_to_ok in Ev by exact K. cbn [bind] in Ev. apply bind_ok_inv in Ev as (es & Es & Ev).
  destruct es as [es|]; [|discriminate]. injection Ev as <-.
  destruct (elements_inside fuel IH _ _ _ _ Bf Es) as (es' & -> & V & L). split; [now constructor|].
  cbn [held app]. clear - L Lf. lia.
Qed.

Lemma try_from_inside bs v : bytes bs -> asn1_try_from_w w bs = Ok (ROk v) ->
  asn1_value v /\ (held v <= length bs)%nat.
Proof using Hw Hw'.
  intros B E. unfold asn1_try_from_w in E. apply bind_ok_inv in E as (r & Er & E).
  destruct r as [[a [|x r]]|]; try discriminate. injection E as <-.
  destruct (parse_inside _ _ _ _ B Er) as (V & _ & L). split; [exact V|]. clear - L. lia.
Qed.
End Inside.

Section Two.
Context (w w' : N) (Hw : 10 <= w) (Hww : w <= w') (Hw' : w' <= 64).

Lemma width_le : w <= 64.
Proof using Hww Hw'. clear - Hww Hw'. lia. Qed.
Lemma width_ge : 10 <= w'.
Proof using Hw Hww. clear - Hw Hww. lia. Qed.

Lemma elements_two fuel :
  (forall bs x, bytes bs -> N.of_nat (length bs) < 2 ^ w ->
     parse_from_bytes_w w' fuel bs = Ok (ROk x) -> parse_from_bytes_w w fuel bs = Ok (ROk x)) ->
  forall fe l acc es, bytes l -> N.of_nat (length l) < 2 ^ w ->
  asn1_elements (parse_from_bytes_w w' fuel) fe l acc = Ok (ROk es) ->
  asn1_elements (parse_from_bytes_w w fuel) fe l acc = Ok (ROk es).
Proof using Hw Hww Hw'.
  intros IH. induction fe as [|fe IHf]; intros [|x l] acc es B L E; cbn [asn1_elements] in E |- *; try exact E.
  apply bind_ok_inv in E as (r & Er & E). destruct r as [[a r]|]; [|discriminate].
  rewrite (IH _ _ B L Er). cbn [bind]. destruct (parse_inside w' width_ge Hw' _ _ _ _ B Er) as (_ & Br & Lr).
  apply IHf; [exact Br| |exact E]. clear - L Lr. lia.
Qed.

Lemma parse_two fuel : forall bs x, bytes bs -> N.of_nat (length bs) < 2 ^ w ->
  parse_from_bytes_w w' fuel bs = Ok (ROk x) -> parse_from_bytes_w w fuel bs = Ok (ROk x).
Proof using Hw Hww Hw'.
  induction fuel as [|fuel IH]; intros bs x B L E; [discriminate|]. cbn [parse_from_bytes_w] in E |- *.
  rewrite (header_w w Hw width_le bs B). rewrite (header_w w' width_ge Hw' bs B) in E.
  destruct (asn1_header bs) as [[[[t q] n]|e]|] eqn:Eh; cbn [bind] in E |- *; [|discriminate..].
  destruct (header_rest _ _ _ _ B Eh) as [Bq Lq].
  assert (n mod 2 ^ w = (n mod 2 ^ w') mod 2 ^ w) as ->.
  { replace w' with (w + (w' - w)) by (clear - Hww; lia). rewrite N.pow_add_r.
    assert (forall k, 2 ^ k <> 0) as Z by (intros k; apply N.pow_nonzero; discriminate).
    rewrite N.mod_mul_r by apply Z. rewrite (N.mul_comm (2 ^ w)), N.mod_add by apply Z. symmetry. apply N.mod_mod, Z. }
  set (m := n mod 2 ^ w') in *. clearbody m.
  destruct (N.ltb_spec (N.of_nat (length q)) m) as [C|C]; [discriminate|].
  rewrite (N.mod_small m) by (clear - C L Lq; lia).
  replace (N.of_nat (length q) <? m) with false by (symmetry; apply N.ltb_ge; exact C).
  cbv zeta in E |- *.
  destruct (t =? 2); [exact E|]. destruct (t =? 4); [exact E|]. destruct (t =? 3); [exact E|].
  destruct (t =? 5); [exact E|]. destruct (t =? 6); [exact E|]. destruct (t =? 48); [|exact E].
  assert (K : (ix m <= length q)%nat) by (unfold ix; clear - C; lia).
  rewrite slice_to_ok in E |- * by exact K. cbn [bind] in E |- *.
  apply bind_ok_inv in E as (v & Ev & E). destruct v as [v|]; [|discriminate].
  apply bind_ok_inv in Ev as (es & Es & Ev). destruct es as [es|]; [|discriminate]. injection Ev as <-.
  rewrite (elements_two fuel IH _ _ _ _ (Forall_firstn _ _ _ Bq) ltac:(rewrite firstn_length; clear - L Lq; lia) Es).
  cbn [bind]. exact E.
Qed.

Lemma try_from_two bs v : bytes bs -> N.of_nat (length bs) < 2 ^ w ->
  asn1_try_from_w w' bs = Ok (ROk v) -> asn1_try_from_w w bs = Ok (ROk v).
Proof using Hw Hww Hw'.
  intros B L E. unfold asn1_try_from_w in E |- *. apply bind_ok_inv in E as (r & Er & E).
  destruct r as [x|]; [|discriminate]. rewrite (parse_two _ _ _ B L Er). exact E.
Qed.

Lemma private_two p k : bytes (pem_data p) -> N.of_nat (length (pem_data p)) < 2 ^ w ->
  private_key_try_from_w w' p = Ok (ROk k) -> private_key_try_from_w w p = Ok (ROk k).
Proof using Hw Hww Hw'.
  intros B L E. unfold private_key_try_from_w in E |- *. destruct (negb _); [discriminate|].
  apply bind_ok_inv in E as (r & Er & E). destruct r as [asn|]; [|discriminate].
  rewrite (try_from_two _ _ B L Er). cbn [bind].
  destruct (try_from_inside w' width_ge Hw' _ _ B Er) as [V Lv].
  apply bind_ok_inv in E as (r & Ei & E). destruct r as [kk|]; [|discriminate].
  enough (private_key_info_from_asn1_w w asn = Ok (ROk kk)) as -> by exact E. clear E.
  destruct asn as [| | | | |es]; [discriminate..|]. unfold private_key_info_from_asn1_w in Ei |- *.
  destruct (negb _); [discriminate|]. destruct (idx es 0) as [s0|]; cbn [bind] in *; [|discriminate].
  destruct (negb _); [discriminate|]. destruct (idx es 1) as [s1|]; cbn [bind] in *; [|discriminate].
  destruct (algorithm_from_asn1 s1) as [algo|]; [|discriminate]. destruct (negb _); [discriminate|].
  destruct (idx es 2) as [s2|] eqn:I; cbn [bind] in *; [|discriminate].
  destruct s2 as [|c| | | |]; [discriminate| |discriminate..].
  apply idx_in in I. pose proof (element_held _ _ I) as Lc. cbn [held] in Lc.
  inversion V as [| | | | |? Ve]; subst. pose proof (proj1 (Forall_forall _ _) Ve _ I) as Vc.
  inversion Vc as [| |? Bc| | |]; subst.
  apply bind_ok_inv in Ei as (r & Er2 & Ei). destruct r as [a2|]; [|discriminate].
  rewrite (try_from_two c a2 Bc) by (exact Er2 || (cbn [held] in Lv; clear - L Lv Lc; lia)). cbn [bind]. exact Ei.
Qed.

Lemma public_two p k : bytes (pem_data p) -> N.of_nat (length (pem_data p)) < 2 ^ w ->
  public_key_try_from_w w' p = Ok (ROk k) -> public_key_try_from_w w p = Ok (ROk k).
Proof using Hw Hww Hw'.
  intros B L E. unfold public_key_try_from_w in E |- *. destruct (negb _); [discriminate|].
  apply bind_ok_inv in E as (r & Er & E). destruct r as [asn|]; [|discriminate].
  rewrite (try_from_two _ _ B L Er). cbn [bind].
  destruct (try_from_inside w' width_ge Hw' _ _ B Er) as [V Lv].
  apply bind_ok_inv in E as (r & Ei & E). destruct r as [kk|]; [|discriminate].
  enough (subject_public_key_info_from_asn1_w w asn = Ok (ROk kk)) as -> by exact E. clear E.
  destruct asn as [| | | | |es]; [discriminate..|]. unfold subject_public_key_info_from_asn1_w in Ei |- *.
  destruct (negb _); [discriminate|]. destruct (idx es 0) as [s0|]; cbn [bind] in *; [|discriminate].
  destruct (algorithm_from_asn1 s0) as [algo|]; [|discriminate]. destruct (negb _); [discriminate|].
  destruct (idx es 1) as [s1|] eqn:I; cbn [bind] in *; [|discriminate].
  destruct s1 as [| |c u| | |]; [discriminate..| |discriminate|discriminate|discriminate]. destruct (negb _); [discriminate|].
  apply idx_in in I. pose proof (element_held _ _ I) as Lc. cbn [held] in Lc.
  inversion V as [| | | | |? Ve]; subst. pose proof (proj1 (Forall_forall _ _) Ve _ I) as Vc.
  inversion Vc as [|? ? Bc| | | |]; subst.
  apply bind_ok_inv in Ei as (r & Er2 & Ei). destruct r as [a2|]; [|discriminate].
  rewrite (try_from_two c a2 Bc) by (exact Er2 || (cbn [held] in Lv; clear - L Lv Lc; lia)). cbn [bind]. exact Ei.
Qed.
End Two.

Lemma private_smaller w w' p k : 10 <= w -> w <= w' -> w' <= 64 -> bytes (pem_data p) -> size (pem_data p) < 2 ^ w ->
  private_key_try_from_w w' p = Ok (ROk k) -> private_key_try_from_w w p = Ok (ROk k).
Proof. intros H1 H2 H3. exact (private_two w w' H1 H2 H3 p k). Qed.

Lemma public_smaller w w' p k : 10 <= w -> w <= w' -> w' <= 64 -> bytes (pem_data p) -> size (pem_data p) < 2 ^ w ->
  public_key_try_from_w w' p = Ok (ROk k) -> public_key_try_from_w w p = Ok (ROk k).
Proof. intros H1 H2 H3. exact (public_two w w' H1 H2 H3 p k). Qed.

(** No file is read as one key on one target and as another on another. *)
Lemma private_agree w w' p k k' : 10 <= w <= 64 -> 10 <= w' <= 64 -> bytes (pem_data p) ->
  size (pem_data p) < 2 ^ w -> size (pem_data p) < 2 ^ w' ->
  private_key_try_from_w w p = Ok (ROk k) -> private_key_try_from_w w' p = Ok (ROk k') -> k = k'.
Proof.
  intros [H1 H2] [H1' H2'] B L L' E E'. destruct (N.le_ge_cases w w') as [C|C].
  - apply (private_smaller w w' p k' H1 C H2' B L) in E'. congruence.
  - apply (private_smaller w' w p k H1' C H2 B L') in E. congruence.
Qed.

Lemma public_agree w w' p k k' : 10 <= w <= 64 -> 10 <= w' <= 64 -> bytes (pem_data p) ->
  size (pem_data p) < 2 ^ w -> size (pem_data p) < 2 ^ w' ->
  public_key_try_from_w w p = Ok (ROk k) -> public_key_try_from_w w' p = Ok (ROk k') -> k = k'.
Proof.
  intros [H1 H2] [H1' H2'] B L L' E E'. destruct (N.le_ge_cases w w') as [C|C].
  - apply (public_smaller w w' p k' H1 C H2' B L) in E'. congruence.
  - apply (public_smaller w' w p k H1' C H2 B L') in E. congruence.
Qed.
