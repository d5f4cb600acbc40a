(** * Every ASN.1 value has many accepted encodings *)
From Coq Require Import ZifyBool ZifyNat ZifyN.
From Verif Require Import Base BaseLemmas ModelPem ModelBig ModelRsa ModelKey SpecEndian SpecAsn1 SpecKey SpecReencode
  ProofAsn1 ProofKey.
Local Open Scope N_scope.
Local Open Scope list_scope.

Lemma long_length (c : list N) j : size c < 2 ^ 64 -> j < 2 ^ 64 ->
  lax_len (144 :: be_bytes 16 (size c + 2 ^ 64 * j)) (size c).
Proof.
  intros Hc Hj. pose proof (lax_long (be_bytes 16 (size c + 2 ^ 64 * j)) (be_bytes_bytes _ _)) as H.
  rewrite be_bytes_length in H. specialize (H (le_n _)).
  rewrite be_num_be_bytes in H.
  - replace ((size c + 2 ^ 64 * j) mod 2 ^ 64) with (size c) in H.
    + unfold size in H at 1. rewrite be_bytes_length in H. exact H.
    + rewrite N.mul_comm, N.mod_add by discriminate. symmetry. now apply N.mod_small.
  - change (256 ^ N.of_nat 16) with (2 ^ 64 * 2 ^ 64). nia.
Qed.

Lemma lax_len_bound l n : lax_len l n -> n < 2 ^ 64.
Proof. intros [m H|ds _ _]; [|now apply N.mod_lt]. apply N.lt_trans with 128; [exact H|reflexivity]. Qed.

Lemma lax_other v bs : lax v bs -> exists t l c, bs = t :: l ++ c /\ size c < 2 ^ 64 /\
  forall l', lax_len l' (size c) -> lax v (t :: l' ++ c).
Proof.
  intros H. destruct H as [l c Hl Hc|l u c Hl Hc|l c Hl Hc|l c Hl Hc|l c Hl Hc|l es c Hl Hc].
  - exists 2, l, c. split; [reflexivity|]. split; [exact (lax_len_bound _ _ Hl)|]. intros l' H'. now apply enc_integer.
  - exists 3, l, (u :: c). split; [reflexivity|]. split; [exact (lax_len_bound _ _ Hl)|]. intros l' H'. now apply enc_bit_string.
  - exists 4, l, c. split; [reflexivity|]. split; [exact (lax_len_bound _ _ Hl)|]. intros l' H'. now apply enc_octet_string.
  - exists 5, l, c. split; [reflexivity|]. split; [exact (lax_len_bound _ _ Hl)|]. intros l' H'. now apply enc_null.
  - exists 6, l, c. split; [reflexivity|]. split; [exact (lax_len_bound _ _ Hl)|]. intros l' H'. now apply enc_object_identifier.
  - exists 0x30, l, c. split; [reflexivity|]. split; [exact (lax_len_bound _ _ Hl)|]. intros l' H'. now apply enc_sequence.
Qed.

Lemma with_length_inj t c i j : size c < 2 ^ 64 -> i < 2 ^ 64 -> j < 2 ^ 64 -> with_length t c i = with_length t c j -> i = j.
Proof.
  intros Hc Hi Hj H. unfold with_length in H. apply (f_equal (@tl N)) in H. apply (f_equal (@tl N)) in H. cbn [tl] in H. apply app_inv_tail in H.
  apply (f_equal be_num) in H. rewrite !be_num_be_bytes in H by (change (256 ^ N.of_nat 16) with (2 ^ 64 * 2 ^ 64); nia). nia.
Qed.

Lemma with_length_bytes t l c j : bytes (t :: l ++ c) -> bytes (with_length t c j).
Proof.
  intros B. inversion B as [|? ? Ht Bl]; subst. apply Forall_app in Bl as (_ & Bc). unfold with_length.
  constructor; [exact Ht|]. constructor; [unfold byte; lia|]. apply Forall_app. split; [apply be_bytes_bytes|exact Bc].
Qed.

Lemma many_encodings bs v : bytes bs -> asn1_try_from bs = Ok (ROk v) ->
  exists t l c, bs = t :: l ++ c /\
    (forall j, j < 2 ^ 64 -> asn1_try_from (with_length t c j) = Ok (ROk v)) /\
    (forall i j, i < 2 ^ 64 -> j < 2 ^ 64 -> with_length t c i = with_length t c j -> i = j).
Proof.
  intros B E. apply try_from_iff in E; [|exact B]. destruct (lax_other v bs E) as (t & l & c & -> & Hc & H).
  exists t, l, c. split; [reflexivity|]. split.
  - intros j Hj. apply try_from_iff; [now apply with_length_bytes with l|]. unfold with_length.
    exact (H _ (long_length c j Hc Hj)).
  - intros i j Hi Hj. now apply with_length_inj.
Qed.

(** ** Key files *)

Lemma many_private p k : bytes (pem_data p) -> private_key_try_from p = Ok (ROk k) ->
  exists f : N -> list N,
    (forall j, j < 2 ^ 64 -> private_key_try_from {| pem_label := pem_label p; pem_data := f j |} = Ok (ROk k)) /\
    (forall i j, i < 2 ^ 64 -> j < 2 ^ 64 -> f i = f j -> i = j).
Proof.
  intros B E. apply private_import_iff in E as (El & key & v & n & e & d & p' & q & dp & dq & qi & H & X); [|exact B].
  destruct (lax_other _ _ H) as (t & l & c & Eq & Hc & G). exists (with_length t c). split.
  - intros j Hj. apply private_import_iff; cbn [pem_data pem_label].
    + apply with_length_bytes with l. now rewrite <- Eq.
    + split; [exact El|]. exists key, v, n, e, d, p', q, dp, dq, qi. split; [|exact X].
      exact (G _ (long_length c j Hc Hj)).
  - intros i j Hi Hj. now apply with_length_inj.
Qed.

Lemma many_public p k : bytes (pem_data p) -> public_key_try_from p = Ok (ROk k) ->
  exists f : N -> list N,
    (forall j, j < 2 ^ 64 -> public_key_try_from {| pem_label := pem_label p; pem_data := f j |} = Ok (ROk k)) /\
    (forall i j, i < 2 ^ 64 -> j < 2 ^ 64 -> f i = f j -> i = j).
Proof.
  intros B E. apply public_import_iff in E as (El & key & n & e & H & X); [|exact B].
  destruct (lax_other _ _ H) as (t & l & c & Eq & Hc & G). exists (with_length t c). split.
  - intros j Hj. apply public_import_iff; cbn [pem_data pem_label].
    + apply with_length_bytes with l. now rewrite <- Eq.
    + split; [exact El|]. exists key, n, e. split; [|exact X]. exact (G _ (long_length c j Hc Hj)).
  - intros i j Hi Hj. now apply with_length_inj.
Qed.
