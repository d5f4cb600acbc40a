(** * Termination: messages with [RsaPadding]; a hash function without output *)
From Coq Require Import ZifyBool ZifyNat ZifyN.
From Verif Require Import Base BaseLemmas SpecBig ProofBig3 ProofTerm ProofTerm2.
From Verif Require Import ModelBlock ModelAes ModelRc ModelSha ModelBig ModelRsa ModelOracle.
Ltac Zify.zify_post_hook ::= idtac.

Lemma post_copy_bytes l a b s : bytes l -> bytes s -> post bytes (copy_range l a b s).
Proof.
  intros Hl Hs. unfold copy_range. destruct (_ && _)%bool; cbn [post]; [|discriminate].
  destruct (_ =? _)%nat; cbn [post]; [|discriminate].
  apply Forall_app. split; [now apply Forall_firstn|]. apply Forall_app.
  split; [exact Hs|now apply Forall_skipn].
Qed.
Lemma to_be_bytes k x : bytes (to_be k x).
Proof. apply Forall_rev, to_le_bytes. Qed.

Section Profile.
Context {P : profile}.

Lemma sha256_bytes m : post bytes (sha256 m).
Proof.
  unfold sha256, sha2_padding, sha_chunk_loop, hash256_from_words, u32s_to_bytes.
  apply fine_bind; [apply fine_chunks_exact|intros [cs r]].
  apply fine_bind; [apply fine_sha1_padding|intros [l x]].
  apply fine_bind.
  { apply fine_bind; [|intros h; apply fine_bind; [apply fine_sha2_process_chunk|intros h'];
      destruct x; [apply fine_sha2_process_chunk|exact I]].
    apply fine_forM. intros c h. apply fine_bind; [apply fine_to_array|intros c'; apply fine_sha2_process_chunk]. }
  intros h. apply post_forM; [apply bytes_zeros|]. intros [i w] s B.
  apply post_copy_bytes; [exact B|apply to_be_bytes].
Qed.

Lemma post_xor_slices a b : bytes a -> bytes b -> post bytes (xor_slices a b).
Proof.
  intros Ha Hb. unfold xor_slices. destruct (_ =? _)%nat; cbn [post]; [|discriminate].
  generalize (range 0 (length a)). intros l. induction l as [|i l IH]; cbn [mapM]; [constructor|].
  eapply post_bind with (Q := byte).
  - eapply post_bind with (Q := byte).
    { unfold idx. destruct (nth_error a i) eqn:E; cbn [post]; [|discriminate].
      exact (proj1 (Forall_forall _ _) Ha _ (nth_error_In _ _ E)). }
    intros x Hx. eapply post_bind with (Q := byte).
    { unfold idx. destruct (nth_error b i) eqn:E; cbn [post]; [|discriminate].
      exact (proj1 (Forall_forall _ _) Hb _ (nth_error_In _ _ E)). }
    intros y Hy. cbn [post]. now apply lxor_byte.
  - intros z Hz. eapply post_bind; [exact IH|]. intros zs Hzs. cbn [post]. now constructor.
Qed.

Lemma post_mgf1 s n : post bytes (mgf1 sha256 s n).
Proof.
  unfold mgf1. cbv zeta. eapply post_bind with (Q := bytes); [|intros o Ho; cbn [post]; now apply Forall_firstn].
  set (k := length s). generalize (s ++ [0; 0; 0; 0]). intros hc.
  assert (G : forall fuel hc o c, bytes o -> (n <= fuel + length o)%nat ->
    post bytes (mgf1_loop fuel sha256 k hc o c n)).
  { clear hc. induction fuel as [|fuel IH]; intros hc o c Ho L; cbn [mgf1_loop];
      (destruct (Nat.ltb_spec (length o) n) as [Hn|_]; [|exact Ho]); [lia|].
    apply fine_bind; [apply fine_copy_range|]. intros hc'.
    eapply post_bind with (Q := fun h => bytes h /\ length h = 32%nat).
    - pose proof (sha256_bytes hc') as S1. pose proof (post_sha256 hc') as S2.
      destruct (sha256 hc'); [split; assumption|exact S1].
    - intros h [Bh Lh]. cbv zeta. apply fine_bind; [apply fine_cadd|]. intros c'. apply IH.
      + apply Forall_app. now split.
      + rewrite app_length, Lh. lia. }
  apply G; [constructor|]. cbn [length]. lia.
Qed.

Lemma post_rsa_encode l m n : bytes m -> post bytes (ps_encode rsa_padding l m n).
Proof.
  intros Hm. cbn [rsa_padding ps_encode]. unfold oaep_encode.
  eapply post_bind; [apply sha256_bytes|]. intros lh Hlh. cbv zeta.
  destruct (_ <? _)%nat; cbn [post]; [discriminate|].
  apply fine_bind; [apply fine_nsub|]. intros ps. apply fine_bind; [apply fine_nsub|]. intros k.
  apply fine_bind; [apply fine_nsub|]. intros k1. apply fine_bind; [apply fine_nsub|]. intros k2.
  apply fine_bind; [apply fine_nsub|]. intros k3.
  assert (Hseed : bytes (repeat 42 32)) by (apply Forall_repeat; unfold byte; lia).
  eapply post_bind; [apply post_mgf1|]. intros dm Hdm.
  eapply post_bind; [apply post_xor_slices; [|exact Hdm]|].
  { apply Forall_app. split; [exact Hlh|]. apply Forall_app. split; [apply bytes_zeros|].
    constructor; [unfold byte; lia|exact Hm]. }
  intros mdb Hmdb. eapply post_bind; [apply post_mgf1|]. intros sm Hsm.
  eapply post_bind; [apply post_xor_slices; [exact Hseed|exact Hsm]|]. intros ms Hms. cbn [post].
  apply Forall_app. split; [apply (bytes_zeros 1)|]. apply Forall_app. now split.
Qed.

Lemma fine_rsa_decode l m n : fine (ps_decode rsa_padding l m n).
Proof. apply fine_oaep_decode, sha256_nonempty. Qed.

(** ** A hash function without output *)
Lemma no_output_step fuel k hc c n : (0 < n)%nat -> length hc = (k + 4)%nat -> c < 2 ^ 32 ->
  exists hc', length hc' = (k + 4)%nat /\
  mgf1_loop (S fuel) (fun _ => Ok []) k hc [] c n =
    (let* c := cadd 32 c 1 in mgf1_loop fuel (fun _ => Ok []) k hc' [] c n).
Proof.
  intros Hn L Hc. cbn [mgf1_loop length]. destruct (Nat.ltb_spec 0 n); [|lia].
  unfold copy_range at 1. rewrite L.
  replace ((k <=? k + 4)%nat && (k + 4 <=? k + 4)%nat)%bool with true by lia.
  replace (length (to_be 4 c) =? k + 4 - k)%nat with true
    by (unfold to_be; rewrite rev_length; cbn [to_le length]; lia).
  cbn [bind app]. eexists. split; [|reflexivity].
  rewrite !app_length, firstn_length, skipn_length, L. unfold to_be. rewrite rev_length. cbn [to_le length]. lia.
Qed.
End Profile.

Lemma no_output_release fuel k : forall hc c n, (0 < n)%nat -> length hc = (k + 4)%nat -> c < 2 ^ 32 ->
  @mgf1_loop release fuel (fun _ => Ok []) k hc [] c n = Panic PFuel.
Proof.
  induction fuel as [|fuel IH]; intros hc c n Hn L Hc.
  - cbn [mgf1_loop length]. destruct (Nat.ltb_spec 0 n); [reflexivity|lia].
  - destruct (@no_output_step release fuel k hc c n Hn L Hc) as (hc' & L' & ->).
    unfold cadd. destruct (N.ltb_spec (c + 1) (2 ^ 32)); cbn [bind overflow_checks release].
    + apply IH; auto.
    + apply IH; auto. apply N.mod_lt. discriminate.
Qed.

Lemma no_output_debug fuel k : forall hc c n, (0 < n)%nat -> length hc = (k + 4)%nat -> c < 2 ^ 32 ->
  2 ^ 32 <= c + N.of_nat fuel ->
  @mgf1_loop debug fuel (fun _ => Ok []) k hc [] c n = Panic POverflow.
Proof.
  induction fuel as [|fuel IH]; intros hc c n Hn L Hc F; [lia|].
  destruct (@no_output_step debug fuel k hc c n Hn L Hc) as (hc' & L' & ->).
  unfold cadd. destruct (N.ltb_spec (c + 1) (2 ^ 32)) as [H|H]; cbn [bind overflow_checks debug]; [|reflexivity].
  apply IH; auto. rewrite Nat2N.inj_succ in F. lia.
Qed.

(** ** More fuel does not change a result *)
Definition extends {A} (m m' : res A) : Prop := m = Panic PFuel \/ m' = m.
Lemma ext_refl {A} (m : res A) : extends m m.
Proof. now right. Qed.
Lemma ext_bind {A B} (m m' : res A) (f g : A -> res B) :
  extends m m' -> (forall a, extends (f a) (g a)) -> extends (bind m f) (bind m' g).
Proof. intros [->| ->] H; [now left|]. destruct m; cbn [bind]; [apply H|now right]. Qed.
Lemma ext_use {A} (m m' : res A) : extends m m' -> m <> Panic PFuel -> m' = m.
Proof. intros [H|H] N; congruence. Qed.

Ltac ext_step :=
  match goal with
  | |- extends ?x ?y => constr_eq x y; apply ext_refl
  | |- extends (bind _ _) (bind _ _) => apply ext_bind; [|intros ?]
  | |- extends (if ?c then _ else _) (if ?c then _ else _) => destruct c
  | |- extends (match ?x with _ => _ end) (match ?x with _ => _ end) => destruct x
  | |- extends _ _ => solve [auto]
  end.
Ltac ext := repeat (cbv beta zeta; ext_step).

From Verif Require Import ModelPem.
Section More.
Context {P : profile}.
Lemma ext_mul_mod_loop k capf fuel : forall r a b m,
  extends (mul_mod_loop fuel capf r a b m) (mul_mod_loop (fuel + k) capf r a b m).
Proof.
  induction fuel as [|fuel IH]; intros r a b m; cbn [Nat.add mul_mod_loop]; [|ext].
  destruct k; [apply ext_refl|]. cbn [mul_mod_loop]. ext. now left.
Qed.
Lemma ext_inverse_loop k fuel : forall r nr t nt,
  extends (inverse_loop fuel r nr t nt) (inverse_loop (fuel + k) r nr t nt).
Proof.
  induction fuel as [|fuel IH]; intros r nr t nt; cbn [Nat.add inverse_loop]; [|ext].
  destruct k; [apply ext_refl|]. cbn [inverse_loop]. ext. now left.
Qed.
Lemma ext_mgf1_loop h k fuel : forall l hc o c n,
  extends (mgf1_loop fuel h l hc o c n) (mgf1_loop (fuel + k) h l hc o c n).
Proof.
  induction fuel as [|fuel IH]; intros l hc o c n; cbn [Nat.add mgf1_loop]; [|ext].
  destruct k; [apply ext_refl|]. cbn [mgf1_loop]. ext. now left.
Qed.
Lemma ext_elements f g k fuel : (forall b, extends (f b) (g b)) -> forall l es,
  extends (asn1_elements f fuel l es) (asn1_elements g (fuel + k) l es).
Proof.
  intros H. induction fuel as [|fuel IH]; intros l es; cbn [Nat.add asn1_elements]; [|ext].
  destruct k; [destruct l; cbn [asn1_elements]; apply ext_refl|]. cbn [asn1_elements]. ext. now left.
Qed.
Lemma ext_parse k fuel : forall bs, extends (parse_from_bytes fuel bs) (parse_from_bytes (fuel + k) bs).
Proof.
  induction fuel as [|fuel IH]; intros bs; cbn [Nat.add parse_from_bytes]; [now left|]. ext.
  rewrite <- (Nat.add_0_r (ix n)) at 2. now apply ext_elements.
Qed.
End More.
