(** * Debug and release builds agree unless the debug build reports an overflow *)
From Coq Require Import ZifyBool ZifyNat ZifyN.
From Verif Require Import Base BaseLemmas SpecRelease.
From Verif Require Import ModelPad ModelBlock ModelAes ModelRc ModelMd ModelSha ModelBig ModelRsa
  ModelPem ModelKey.
Ltac Zify.zify_post_hook ::= Z.div_mod_to_equations.

Lemma agr_refl {A} (x : res A) : agrees x x.
Proof. now right. Qed.

Lemma agr_ok {A} (d r : res A) v : agrees d r -> d = Ok v -> r = Ok v.
Proof. intros [H|H] E; congruence. Qed.

Lemma agr_panic {A} (d r : res A) p : agrees d r -> p <> POverflow -> d = Panic p -> r = Panic p.
Proof. intros [H|H] Hp E; congruence. Qed.

Lemma agr_bind {A B} (d r : res A) (f g : A -> res B) :
  agrees d r -> (forall a, agrees (f a) (g a)) -> agrees (bind d f) (bind r g).
Proof.
  intros [->| ->] H; [now left|]. destruct d as [a|p]; cbn [bind]; [apply H|apply agr_refl].
Qed.

Lemma agr_forM {A S} (l : list A) (f g : A -> S -> res S) s :
  (forall a s, agrees (f a s) (g a s)) -> agrees (forM l f s) (forM l g s).
Proof.
  intros H. revert s. induction l as [|a l IH]; intros s; cbn [forM]; [apply agr_refl|].
  apply agr_bind; auto.
Qed.

Lemma agr_mapM {A B} (f g : A -> res B) l :
  (forall a, agrees (f a) (g a)) -> agrees (mapM f l) (mapM g l).
Proof.
  intros H. induction l as [|a l IH]; cbn [mapM]; [apply agr_refl|].
  apply agr_bind; [apply H|]. intros b. apply agr_bind; [exact IH|]. intros. apply agr_refl.
Qed.

Lemma agr_cadd w a b : agrees (@cadd debug w a b) (@cadd release w a b).
Proof. unfold cadd. destruct (a + b <? 2 ^ w); [apply agr_refl|now left]. Qed.
Lemma agr_csub w a b : agrees (@csub debug w a b) (@csub release w a b).
Proof. unfold csub. destruct (b <=? a); [apply agr_refl|now left]. Qed.
Lemma agr_cmul w a b : agrees (@cmul debug w a b) (@cmul release w a b).
Proof. unfold cmul. destruct (a * b <? 2 ^ w); [apply agr_refl|now left]. Qed.
Lemma agr_nsub a b : agrees (@nsub debug a b) (@nsub release a b).
Proof. unfold nsub. destruct (b <=? a)%nat; [apply agr_refl|now left]. Qed.
Lemma agr_ci128 z : agrees (@ci128 debug z) (@ci128 release z).
Proof. unfold ci128. destruct (_ && _)%bool; [apply agr_refl|now left]. Qed.

Create HintDb agr.
#[export] Hint Resolve agr_cadd agr_csub agr_cmul agr_nsub agr_ci128 : agr.

Ltac agr_step :=
  match goal with
  | |- agrees ?x ?y => constr_eq x y; apply agr_refl
  | |- agrees (bind _ _) (bind _ _) => apply agr_bind; [|intros ?]
  | |- agrees (forM _ _ _) (forM _ _ _) => apply agr_forM; intros ? ?
  | |- agrees (mapM _ _) (mapM _ _) => apply agr_mapM; intros ?
  | |- agrees (if ?c then _ else _) (if ?c then _ else _) => destruct c
  | |- agrees (match ?x with _ => _ end) (match ?x with _ => _ end) => destruct x
  | |- agrees _ _ => solve [auto with agr nocore]
  end.
Ltac agr := repeat (cbv zeta; agr_step).

(** ** src/pad.rs *)
Lemma agr_pkcs_unpad n b : agrees (@pkcs_unpad debug n b) (@pkcs_unpad release n b).
Proof. unfold pkcs_unpad. agr. Qed.

(** ** src/aes *)
Lemma agr_expand_key_using_words n rcon key k :
  agrees (@expand_key_using_words debug n rcon key k) (@expand_key_using_words release n rcon key k).
Proof. unfold expand_key_using_words. agr. Qed.
#[export] Hint Resolve agr_expand_key_using_words : agr.
Lemma agr_expand_key n key k : agrees (@expand_key debug n key k) (@expand_key release n key k).
Proof. unfold expand_key. agr. Qed.
#[export] Hint Resolve agr_expand_key : agr.
Lemma agr_aes_make n key : agrees (@aes_make debug n key) (@aes_make release n key).
Proof. unfold aes_make, with_128_bit_key, with_192_bit_key, with_256_bit_key. agr. Qed.

(** ** src/rc *)
Lemma agr_rc2_from_key key t1 : agrees (@rc2_from_key debug key t1) (@rc2_from_key release key t1).
Proof. unfold rc2_from_key, rc2_expand_key. agr. Qed.
Lemma agr_rc5_expand_key key r : agrees (@rc5_expand_key debug key r) (@rc5_expand_key release key r).
Proof. unfold rc5_expand_key. agr. Qed.
#[export] Hint Resolve agr_rc5_expand_key : agr.
Lemma agr_rc5_new key r : agrees (@rc5_new debug key r) (@rc5_new release key r).
Proof. unfold rc5_new. agr. Qed.

(** ** src/md *)
Lemma agr_md2_hash m : agrees (@md2_hash debug m) (@md2_hash release m).
Proof. unfold md2_hash, md2_finish. agr. Qed.

Lemma agr_process_block p p' h :
  (forall x a b c d, agrees (p x a b c d) (p' x a b c d)) ->
  agrees (md_process_block p h) (md_process_block p' h).
Proof. intros H. unfold md_process_block. agr; apply H. Qed.

Section Md.
Context (p p' : md_process).
Context (H : forall x a b c d, agrees (p x a b c d) (p' x a b c d)).
Lemma agr_md_consume h b : agrees (@md_consume debug p h b) (@md_consume release p' h b).
Proof. unfold md_consume. agr. now apply agr_process_block. Qed.
#[local] Hint Resolve agr_md_consume : agr.
Lemma agr_md_finish h : agrees (@md_finish debug p h) (@md_finish release p' h).
Proof. unfold md_finish. agr. Qed.
#[local] Hint Resolve agr_md_finish : agr.
Lemma agr_md_hash m : agrees (@md_hash debug p m) (@md_hash release p' m).
Proof. unfold md_hash. agr. Qed.
End Md.

Lemma agr_md4_hash m : agrees (@md4_hash debug m) (@md4_hash release m).
Proof. unfold md4_hash. apply agr_md_hash. intros. apply agr_refl. Qed.

Lemma agr_md5_ff x a b c d k : agrees (@md5_ff debug x a b c d k) (@md5_ff release x a b c d k).
Proof. unfold md5_ff. agr. Qed.
Lemma agr_md5_gg x a b c d k : agrees (@md5_gg debug x a b c d k) (@md5_gg release x a b c d k).
Proof. unfold md5_gg. agr. Qed.
Lemma agr_md5_hh x a b c d k : agrees (@md5_hh debug x a b c d k) (@md5_hh release x a b c d k).
Proof. unfold md5_hh. agr. Qed.
Lemma agr_md5_ii x a b c d k : agrees (@md5_ii debug x a b c d k) (@md5_ii release x a b c d k).
Proof. unfold md5_ii. agr. Qed.
#[export] Hint Resolve agr_md5_ff agr_md5_gg agr_md5_hh agr_md5_ii : agr.
Lemma agr_md5_hash m : agrees (@md5_hash debug m) (@md5_hash release m).
Proof. unfold md5_hash. apply agr_md_hash. intros. unfold md5_process. agr. Qed.

(** ** src/sha *)
Lemma agr_sha1_padding s n : agrees (@sha1_padding debug s n) (@sha1_padding release s n).
Proof. unfold sha1_padding. agr. Qed.
Lemma agr_sha2_padding s n : agrees (@sha2_padding debug s n) (@sha2_padding release s n).
Proof. apply agr_sha1_padding. Qed.
Lemma agr_sha2_padding_big s n : agrees (@sha2_padding_big debug s n) (@sha2_padding_big release s n).
Proof. unfold sha2_padding_big. agr. Qed.
#[export] Hint Resolve agr_sha1_padding agr_sha2_padding agr_sha2_padding_big : agr.
Lemma agr_sha1 m : agrees (@sha1 debug m) (@sha1 release m).
Proof. unfold sha1. agr. Qed.
Lemma agr_sha224 m : agrees (@sha224 debug m) (@sha224 release m).
Proof. unfold sha224. agr. Qed.
Lemma agr_sha256 m : agrees (@sha256 debug m) (@sha256 release m).
Proof. unfold sha256. agr. Qed.
Lemma agr_sha384 m : agrees (@sha384 debug m) (@sha384 release m).
Proof. unfold sha384. agr. Qed.
Lemma agr_sha512 m : agrees (@sha512 debug m) (@sha512 release m).
Proof. unfold sha512. agr. Qed.

(** ** src/big/uint.rs *)
Lemma agr_bits_used a : agrees (@bits_used debug a) (@bits_used release a).
Proof. unfold bits_used. agr. Qed.
#[export] Hint Resolve agr_bits_used : agr.
Lemma agr_is_set a i : agrees (@is_set debug a i) (@is_set release a i).
Proof. unfold is_set. agr. Qed.
#[export] Hint Resolve agr_is_set : agr.
Lemma agr_add_u8_loop c bs : agrees (@add_u8_loop debug c bs) (@add_u8_loop release c bs).
Proof. revert c. induction bs as [|b bs IH]; intros c; cbn [add_u8_loop]; agr. Qed.
#[export] Hint Resolve agr_add_u8_loop : agr.
Lemma agr_add_assign_u8 a k : agrees (@add_assign_u8 debug a k) (@add_assign_u8 release a k).
Proof. unfold add_assign_u8. agr. Qed.
Lemma agr_add_assign a b : agrees (@add_assign debug a b) (@add_assign release a b).
Proof. unfold add_assign. agr. Qed.
#[export] Hint Resolve agr_add_assign_u8 agr_add_assign : agr.
Lemma agr_cmp_loop a b l : agrees (@cmp_loop debug a b l) (@cmp_loop release a b l).
Proof. induction l as [|i l IH]; cbn [cmp_loop]; agr. Qed.
#[export] Hint Resolve agr_cmp_loop : agr.
Lemma agr_big_cmp a b : agrees (@big_cmp debug a b) (@big_cmp release a b).
Proof. unfold big_cmp. agr. Qed.
#[export] Hint Resolve agr_big_cmp : agr.
Lemma agr_big_le a b : agrees (@big_le debug a b) (@big_le release a b).
Proof. unfold big_le. agr. Qed.
Lemma agr_big_lt a b : agrees (@big_lt debug a b) (@big_lt release a b).
Proof. unfold big_lt. agr. Qed.
#[export] Hint Resolve agr_big_le agr_big_lt : agr.
Lemma agr_sub_assign capf a b : agrees (@sub_assign debug capf a b) (@sub_assign release capf a b).
Proof. unfold sub_assign, sub_assign_cap. agr. Qed.
#[export] Hint Resolve agr_sub_assign : agr.
Lemma agr_rem_assign capf a b : agrees (@rem_assign debug capf a b) (@rem_assign release capf a b).
Proof. unfold rem_assign. agr. Qed.
#[export] Hint Resolve agr_rem_assign : agr.

(** ** src/rsa *)
Section Hash.
Context (h h' : list N -> res (list N)).
Context (H : forall m, agrees (h m) (h' m)).
Lemma agr_mgf1_loop fuel k hc o c n :
  agrees (@mgf1_loop debug fuel h k hc o c n) (@mgf1_loop release fuel h' k hc o c n).
Proof.
  revert hc o c. induction fuel as [|fuel IH]; intros hc o c; cbn [mgf1_loop]; agr.
Qed.
#[local] Hint Resolve agr_mgf1_loop : agr.
Lemma agr_mgf1 s n : agrees (@mgf1 debug h s n) (@mgf1 release h' s n).
Proof. unfold mgf1. agr. Qed.
#[local] Hint Resolve agr_mgf1 H : agr.
Lemma agr_oaep_encode hn l m n : agrees (@oaep_encode debug hn h l m n) (@oaep_encode release hn h' l m n).
Proof. unfold oaep_encode. agr. Qed.
Lemma agr_oaep_decode hn l m n : agrees (@oaep_decode debug hn h l m n) (@oaep_decode release hn h' l m n).
Proof. unfold oaep_decode. agr. Qed.
End Hash.

Lemma agr_rsa_encode l m n : agrees (ps_encode (@rsa_padding debug) l m n) (ps_encode (@rsa_padding release) l m n).
Proof. apply agr_oaep_encode, agr_sha256. Qed.
Lemma agr_rsa_decode l m n : agrees (ps_decode (@rsa_padding debug) l m n) (ps_decode (@rsa_padding release) l m n).
Proof. apply agr_oaep_decode, agr_sha256. Qed.

Lemma agr_lcm a b : agrees (@lcm debug a b) (@lcm release a b).
Proof. unfold lcm. agr. Qed.
Lemma agr_inverse_loop fuel r nr t nt :
  agrees (@inverse_loop debug fuel r nr t nt) (@inverse_loop release fuel r nr t nt).
Proof.
  revert r nr t nt. induction fuel as [|fuel IH]; intros r nr t nt; cbn [inverse_loop]; agr.
Qed.
#[export] Hint Resolve agr_lcm agr_inverse_loop : agr.
Lemma agr_inverse a n : agrees (@inverse debug a n) (@inverse release a n).
Proof. unfold inverse. agr. Qed.
#[export] Hint Resolve agr_inverse : agr.
Lemma agr_create_keys p q e : agrees (@create_keys debug p q e) (@create_keys release p q e).
Proof. unfold create_keys. agr. Qed.
Lemma agr_mul_mod_loop fuel capf r a b m :
  agrees (@mul_mod_loop debug fuel capf r a b m) (@mul_mod_loop release fuel capf r a b m).
Proof.
  revert r a b. induction fuel as [|fuel IH]; intros r a b; cbn [mul_mod_loop]; agr.
Qed.
#[export] Hint Resolve agr_mul_mod_loop : agr.
Lemma agr_mul_mod capf a b m : agrees (@mul_mod debug capf a b m) (@mul_mod release capf a b m).
Proof. unfold mul_mod. agr. Qed.
#[export] Hint Resolve agr_mul_mod : agr.
Lemma agr_pow_mod capf a p m : agrees (@pow_mod debug capf a p m) (@pow_mod release capf a p m).
Proof. unfold pow_mod. agr. Qed.
Lemma agr_rsa_encrypt capf k m : agrees (@rsa_encrypt debug capf k m) (@rsa_encrypt release capf k m).
Proof. apply agr_pow_mod. Qed.
Lemma agr_rsa_decrypt capf k m : agrees (@rsa_decrypt debug capf k m) (@rsa_decrypt release capf k m).
Proof. apply agr_pow_mod. Qed.
#[export] Hint Resolve agr_rsa_encrypt agr_rsa_decrypt : agr.
Lemma agr_encrypt_message {E} capf k m (ps ps' : padding_scheme E) :
  (forall l m n, agrees (ps_encode ps l m n) (ps_encode ps' l m n)) ->
  agrees (@encrypt_message debug E capf k m ps) (@encrypt_message release E capf k m ps').
Proof. intros H. unfold encrypt_message. agr. Qed.
Lemma agr_decrypt_message {E} capf k m (ps ps' : padding_scheme E) :
  (forall l m n, agrees (ps_decode ps l m n) (ps_decode ps' l m n)) ->
  agrees (@decrypt_message debug E capf k m ps) (@decrypt_message release E capf k m ps').
Proof. intros H. unfold decrypt_message. agr. Qed.

(** ** src/pem and the key import *)
Lemma agr_asn1_header b : agrees (@asn1_header debug b) (@asn1_header release b).
Proof. unfold asn1_header. agr. Qed.
Lemma agr_asn1_elements f g fuel l es : (forall b, agrees (f b) (g b)) ->
  agrees (asn1_elements f fuel l es) (asn1_elements g fuel l es).
Proof.
  intros H. revert l es. induction fuel as [|fuel IH]; intros l es; cbn [asn1_elements]; agr.
Qed.
#[export] Hint Resolve agr_asn1_header : agr.
Lemma agr_parse_from_bytes fuel b :
  agrees (@parse_from_bytes debug fuel b) (@parse_from_bytes release fuel b).
Proof.
  revert b. induction fuel as [|fuel IH]; intros b; cbn [parse_from_bytes]; agr.
  now apply agr_asn1_elements.
Qed.
#[export] Hint Resolve agr_parse_from_bytes : agr.
Lemma agr_asn1_try_from b : agrees (@asn1_try_from debug b) (@asn1_try_from release b).
Proof. unfold asn1_try_from. agr. Qed.
#[export] Hint Resolve agr_asn1_try_from : agr.
Lemma agr_private_key_try_from p : agrees (@private_key_try_from debug p) (@private_key_try_from release p).
Proof. unfold private_key_try_from, private_key_info_from_asn1. agr. Qed.
Lemma agr_public_key_try_from p : agrees (@public_key_try_from debug p) (@public_key_try_from release p).
Proof. unfold public_key_try_from, subject_public_key_info_from_asn1. agr. Qed.

Lemma agr_aes_from_u64s n v : agrees (@aes_from_u64s debug n v) (@aes_from_u64s release n v).
Proof.
  unfold aes_from_u64s, aes_from_key128, aes_from_key192, aes_from_key256, with_128_bit_key,
    with_192_bit_key, with_256_bit_key. agr.
Qed.
