(** * No loop of the model runs out of fuel, in debug and release builds *)
From Coq Require Import ZifyBool ZifyNat ZifyN.
From Verif Require Import Base BaseLemmas SpecBig ProofBig ProofBig2 ProofBig3 ProofInverse.
From Verif Require Import ModelPad ModelBlock ModelAes ModelRc ModelMd ModelSha ModelBig ModelRsa
  ModelPem ModelKey.

(** What holds of the value, if there is one; and if there is none, the reason is not
    the fuel. *)
Definition post {A} (Q : A -> Prop) (m : res A) : Prop :=
  match m with Ok a => Q a | Panic r => r <> PFuel end.
Definition fine {A} (m : res A) : Prop := post (fun _ => True) m.

Lemma fine_ends {A} (m : res A) : fine m -> m <> Panic PFuel.
Proof. destruct m; cbn; congruence. Qed.

Lemma post_fine {A} (Q : A -> Prop) m : post Q m -> fine m.
Proof. destruct m; cbn; auto. Qed.

Lemma post_weaken {A} (Q R : A -> Prop) m : (forall a, Q a -> R a) -> post Q m -> post R m.
Proof. intros H. destruct m; cbn; auto. Qed.

Lemma post_bind {A B} (Q : A -> Prop) (R : B -> Prop) m f :
  post Q m -> (forall a, Q a -> post R (f a)) -> post R (bind m f).
Proof. intros H K. destruct m; cbn [bind post] in *; auto. Qed.

Lemma fine_bind {A B} (R : B -> Prop) (m : res A) f :
  fine m -> (forall a, post R (f a)) -> post R (bind m f).
Proof. intros H K. eapply post_bind; [exact H|auto]. Qed.

Lemma post_forM {A S} (Q : S -> Prop) (l : list A) f s :
  Q s -> (forall a s, Q s -> post Q (f a s)) -> post Q (forM l f s).
Proof.
  intros Hs Hf. revert s Hs. induction l as [|a l IH]; intros s Hs; cbn [forM]; [exact Hs|].
  eapply post_bind; [apply Hf; auto|auto].
Qed.

Lemma fine_forM {A S} (l : list A) (f : A -> S -> res S) s :
  (forall a s, fine (f a s)) -> fine (forM l f s).
Proof. intros H. apply post_forM; auto. intros a s' _. apply H. Qed.

Lemma fine_mapM {A B} (f : A -> res B) l : (forall a, fine (f a)) -> fine (mapM f l).
Proof.
  intros H. induction l as [|a l IH]; cbn [mapM]; [exact I|].
  apply fine_bind; [apply H|]. intros b. apply fine_bind; [exact IH|]. intros; exact I.
Qed.

Section Leaves.
Context {P : profile}.
Lemma fine_cadd w a b : fine (cadd w a b).
Proof. unfold cadd. destruct (_ <? _); [exact I|]. destruct overflow_checks; cbn; [discriminate|exact I]. Qed.
Lemma fine_csub w a b : fine (csub w a b).
Proof. unfold csub. destruct (_ <=? _); [exact I|]. destruct overflow_checks; cbn; [discriminate|exact I]. Qed.
Lemma fine_cmul w a b : fine (cmul w a b).
Proof. unfold cmul. destruct (_ <? _); [exact I|]. destruct overflow_checks; cbn; [discriminate|exact I]. Qed.
Lemma fine_nsub a b : fine (nsub a b).
Proof. unfold nsub. destruct (_ <=? _)%nat; [exact I|]. destruct overflow_checks; cbn; [discriminate|exact I]. Qed.
Lemma fine_ci128 z : fine (ci128 z).
Proof. unfold ci128. destruct (_ && _)%bool; [exact I|]. destruct overflow_checks; cbn; [discriminate|exact I]. Qed.
End Leaves.

Lemma fine_unwrap {A} (o : option A) : fine (unwrap o).
Proof. destruct o; cbn; [exact I|discriminate]. Qed.
Lemma fine_runwrap {A E} (o : result A E) : fine (runwrap o).
Proof. destruct o; cbn; [exact I|discriminate]. Qed.
Lemma fine_idx {A} (l : list A) i : fine (idx l i).
Proof. unfold idx. destruct nth_error; cbn; [exact I|discriminate]. Qed.
Lemma fine_upd {A} (l : list A) i v : fine (upd l i v).
Proof. unfold upd. destruct (_ <? _)%nat; cbn; [exact I|discriminate]. Qed.
Lemma fine_slice {A} (l : list A) a b : fine (slice l a b).
Proof. unfold slice. destruct (_ && _)%bool; cbn; [exact I|discriminate]. Qed.
Lemma fine_slice_to {A} (l : list A) b : fine (slice_to l b).
Proof. unfold slice_to. destruct (_ <=? _)%nat; cbn; [exact I|discriminate]. Qed.
Lemma fine_slice_from {A} (l : list A) b : fine (slice_from l b).
Proof. unfold slice_from. destruct (_ <=? _)%nat; cbn; [exact I|discriminate]. Qed.
Lemma fine_copy_range {A} (l : list A) a b s : fine (copy_range l a b s).
Proof. unfold copy_range. destruct (_ && _)%bool; [destruct (_ =? _)%nat|]; cbn; try exact I; discriminate. Qed.
Lemma fine_fill_range {A} (l : list A) a b v : fine (fill_range l a b v).
Proof. unfold fill_range. destruct (_ && _)%bool; cbn; [exact I|discriminate]. Qed.
Lemma fine_to_array {A} n (l : list A) : fine (to_array n l).
Proof. unfold to_array. destruct (_ =? _)%nat; cbn; [exact I|discriminate]. Qed.
Lemma fine_chunks_exact {A} n (l : list A) : fine (chunks_exact n l).
Proof. unfold chunks_exact. destruct n; cbn; [discriminate|exact I]. Qed.

Create HintDb fine.
#[export] Hint Resolve fine_cadd fine_csub fine_cmul fine_nsub fine_ci128 fine_unwrap fine_runwrap
  fine_idx fine_upd fine_slice fine_slice_to fine_slice_from fine_copy_range fine_fill_range
  fine_to_array fine_chunks_exact : fine.

Ltac fine_step :=
  match goal with
  | |- fine (Ok _) => exact I
  | |- post _ (Ok _) => exact I
  | |- fine (Panic _) => cbn; discriminate
  | |- post _ (Panic _) => cbn; discriminate
  | |- fine (bind _ _) => apply fine_bind; [|intros ?]
  | |- fine (forM _ _ _) => apply fine_forM; intros ? ?
  | |- fine (mapM _ _) => apply fine_mapM; intros ?
  | |- fine (if ?c then _ else _) => destruct c
  | |- fine (match ?x with _ => _ end) => destruct x
  | |- fine ((match ?x with _ => _ end) _) => destruct x
  | |- fine _ => solve [auto with fine nocore]
  end.
Ltac fold_fine :=
  repeat match goal with |- post (fun _ => True) ?m => change (fine m) end.
Ltac fine := repeat (cbv beta zeta; fold_fine; fine_step).

Lemma fine_swap {A} (l : list A) i j : fine (swap l i j).
Proof. unfold swap. fine. Qed.
Lemma fine_chunks {A} n (l : list A) : fine (chunks n l).
Proof. unfold chunks. fine. Qed.
#[export] Hint Resolve fine_swap fine_chunks : fine.

Section Profile.
Context {P : profile}.

(** ** Ciphers, paddings and hashes: only loops over lists *)
Lemma fine_bit_pad n b : fine (bit_pad n b).
Proof. unfold bit_pad. fine. Qed.
Lemma fine_bit_unpad n b : fine (bit_unpad n b).
Proof. unfold bit_unpad. fine. Qed.
Lemma fine_pkcs_pad n b : fine (pkcs_pad n b).
Proof. unfold pkcs_pad. fine. Qed.
Lemma fine_pkcs_unpad n b : fine (pkcs_unpad n b).
Proof. unfold pkcs_unpad. fine. Qed.

Lemma fine_word_xor a b : fine (word_xor a b).
Proof. unfold word_xor. fine. Qed.
Lemma fine_expander_rcon : fine expander_rcon.
Proof. unfold expander_rcon, calculate_round_constants. fine. Qed.
Lemma fine_rotate_word a : fine (rotate_word a).
Proof. unfold rotate_word. fine. Qed.
Lemma fine_substitute_word a : fine (substitute_word a).
Proof. unfold substitute_word. fine. Qed.
Hint Resolve fine_word_xor fine_expander_rcon fine_rotate_word fine_substitute_word : fine.
Lemma fine_expand_key nw key k : fine (expand_key nw key k).
Proof. unfold expand_key, expand_key_using_words. fine. Qed.
Hint Resolve fine_expand_key : fine.
Lemma fine_aes_make nk key : fine (aes_make nk key).
Proof. unfold aes_make, with_128_bit_key, with_192_bit_key, with_256_bit_key. fine. Qed.
Lemma fine_aes_from_u64s nk v : fine (aes_from_u64s nk v).
Proof.
  unfold aes_from_u64s, aes_from_key128, aes_from_key192, aes_from_key256, with_128_bit_key,
    with_192_bit_key, with_256_bit_key, copy_u64s. fine.
Qed.
Lemma fine_add_key k s : fine (add_key k s).
Proof. unfold add_key. fine. Qed.
Lemma fine_substitute_forward s : fine (substitute_forward s).
Proof. unfold substitute_forward. fine. Qed.
Lemma fine_substitute_backward s : fine (substitute_backward s).
Proof. unfold substitute_backward. fine. Qed.
Lemma fine_shift_row r s : fine (shift_row_one_step r s).
Proof. unfold shift_row_one_step. fine. Qed.
Hint Resolve fine_add_key fine_substitute_forward fine_substitute_backward fine_shift_row : fine.
Lemma fine_shift_rows_forward s : fine (shift_rows_forward s).
Proof. unfold shift_rows_forward. fine. Qed.
Lemma fine_shift_rows_backward s : fine (shift_rows_backward s).
Proof. unfold shift_rows_backward. fine. Qed.
Lemma fine_mix_columns_forward s : fine (mix_columns_forward s).
Proof. unfold mix_columns_forward, for_columns, mix_column. fine. Qed.
Lemma fine_mix_columns_backward s : fine (mix_columns_backward s).
Proof. unfold mix_columns_backward, for_columns, unmix_column. fine. Qed.
Hint Resolve fine_shift_rows_forward fine_shift_rows_backward fine_mix_columns_forward
  fine_mix_columns_backward : fine.
Lemma fine_aes_encrypt c b : fine (aes_encrypt c b).
Proof. unfold aes_encrypt. fine. Qed.
Lemma fine_aes_decrypt c b : fine (aes_decrypt c b).
Proof. unfold aes_decrypt. fine. Qed.

Lemma fine_rc2_from_key key t : fine (rc2_from_key key t).
Proof. unfold rc2_from_key, rc2_expand_key. fine. Qed.
Lemma fine_rc2_mix k d : fine (rc2_mix k d).
Proof. unfold rc2_mix. fine. Qed.
Lemma fine_rc2_rmix k d : fine (rc2_rmix k d).
Proof. unfold rc2_rmix. fine. Qed.
Lemma fine_rc2_mash k d : fine (rc2_mash k d).
Proof. unfold rc2_mash. fine. Qed.
Lemma fine_rc2_rmash k d : fine (rc2_rmash k d).
Proof. unfold rc2_rmash. fine. Qed.
Hint Resolve fine_rc2_mix fine_rc2_rmix fine_rc2_mash fine_rc2_rmash : fine.
Lemma fine_rc2_encrypt k b : fine (rc2_encrypt k b).
Proof. unfold rc2_encrypt, rc2_load, rc2_store, rc2_encrypt_block. fine. Qed.
Lemma fine_rc2_decrypt k b : fine (rc2_decrypt k b).
Proof. unfold rc2_decrypt, rc2_load, rc2_store, rc2_decrypt_block. fine. Qed.
Lemma fine_rc4_new key : fine (rc4_new key).
Proof. unfold rc4_new. fine. Qed.
Lemma fine_rc4_next_key k : fine (rc4_next_key k).
Proof. unfold rc4_next_key. fine. Qed.
Lemma fine_rc5_new key r : fine (rc5_new key r).
Proof. unfold rc5_new, rc5_expand_key, rc5_key_words. fine. Qed.
Lemma fine_rc5_encrypt c b : fine (rc5_encrypt c b).
Proof. unfold rc5_encrypt, rc5_load, rc5_store, rc5_encrypt_32. fine. Qed.
Lemma fine_rc5_decrypt c b : fine (rc5_decrypt c b).
Proof. unfold rc5_decrypt, rc5_load, rc5_store, rc5_decrypt_32. fine. Qed.

Lemma fine_sc_encrypt {K} (next : key_iter K) : (forall k, fine (next k)) ->
  forall d k, fine (sc_encrypt next k d).
Proof. intros H. induction d as [|x d IH]; intros k; cbn [sc_encrypt]; fine. Qed.
Lemma fine_rc4_encrypt k d : fine (rc4_encrypt k d).
Proof.
  unfold rc4_encrypt. apply fine_bind; [|intros [? ?]; exact I]. apply fine_sc_encrypt.
  intros ks. unfold rc4_next. apply fine_bind; [apply fine_rc4_next_key|intros [? ?]; exact I].
Qed.
Lemma fine_rc4_decrypt k d : fine (rc4_decrypt k d).
Proof. apply fine_rc4_encrypt. Qed.

Lemma fine_md2_pass x t : fine (md2_pass x t).
Proof. revert t. induction x as [|v x IH]; intros t; cbn [md2_pass]; fine. Qed.
Hint Resolve fine_md2_pass : fine.
Lemma fine_md2_process_chunk h : fine (md2_process_chunk h).
Proof. unfold md2_process_chunk. fine. Qed.
Hint Resolve fine_md2_process_chunk : fine.
Lemma fine_md2_hash m : fine (md2_hash m).
Proof. unfold md2_hash, md2_finish, md2_consume. fine. Qed.

Section Md.
Context (p : md_process).
Context (H : forall x a b c d, fine (p x a b c d)).
Lemma fine_md_consume h b : fine (md_consume p h b).
Proof using H. unfold md_consume, md_process_block, md_from_slice. fine. Qed.
Hint Resolve fine_md_consume : fine.
Lemma fine_md_hash m : fine (md_hash p m).
Proof using H. unfold md_hash, md_finish. fine. Qed.
End Md.
Lemma fine_md4_ff x a b c d i s : fine (md4_ff x a b c d i s).
Proof. unfold md4_ff. fine. Qed.
Lemma fine_md4_gg x a b c d i s : fine (md4_gg x a b c d i s).
Proof. unfold md4_gg. fine. Qed.
Lemma fine_md4_hh x a b c d i s : fine (md4_hh x a b c d i s).
Proof. unfold md4_hh. fine. Qed.
Lemma fine_md5_ff x a b c d k : fine (md5_ff x a b c d k).
Proof. unfold md5_ff. fine. Qed.
Lemma fine_md5_gg x a b c d k : fine (md5_gg x a b c d k).
Proof. unfold md5_gg. fine. Qed.
Lemma fine_md5_hh x a b c d k : fine (md5_hh x a b c d k).
Proof. unfold md5_hh. fine. Qed.
Lemma fine_md5_ii x a b c d k : fine (md5_ii x a b c d k).
Proof. unfold md5_ii. fine. Qed.
Hint Resolve fine_md4_ff fine_md4_gg fine_md4_hh fine_md5_ff fine_md5_gg fine_md5_hh fine_md5_ii : fine.
Lemma fine_md4_hash m : fine (md4_hash m).
Proof. unfold md4_hash. apply fine_md_hash. intros. unfold md4_process. fine. Qed.
Lemma fine_md5_hash m : fine (md5_hash m).
Proof. unfold md5_hash. apply fine_md_hash. intros. unfold md5_process. fine. Qed.

Lemma fine_sha1_padding s n : fine (sha1_padding s n).
Proof. unfold sha1_padding. fine. Qed.
Lemma fine_sha2_padding_big s n : fine (sha2_padding_big s n).
Proof. unfold sha2_padding_big. fine. Qed.
Lemma fine_sha1_process_chunk h c : fine (sha1_process_chunk h c).
Proof. unfold sha1_process_chunk. fine. Qed.
Lemma fine_sha2_process_chunk h c : fine (sha2_process_chunk h c).
Proof. unfold sha2_process_chunk. fine. Qed.
Lemma fine_sha2_process_big_chunk h c : fine (sha2_process_big_chunk h c).
Proof. unfold sha2_process_big_chunk. fine. Qed.
Hint Resolve fine_sha1_padding fine_sha2_padding_big fine_sha1_process_chunk fine_sha2_process_chunk
  fine_sha2_process_big_chunk : fine.
Lemma fine_sha1 m : fine (sha1 m).
Proof. unfold sha1, sha_chunk_loop, hash160_from_words, u32s_to_bytes. fine. Qed.
Lemma fine_sha224 m : fine (sha224 m).
Proof. unfold sha224, sha2_padding, sha_chunk_loop, hash224_from_words, u32s_to_bytes. fine. Qed.
Lemma fine_sha384 m : fine (sha384 m).
Proof. unfold sha384, sha_chunk_loop, hash384_from_words, u64s_to_bytes. fine. Qed.
Lemma fine_sha512 m : fine (sha512 m).
Proof. unfold sha512, sha_chunk_loop, hash512_from_words, u64s_to_bytes. fine. Qed.
Lemma fine_u32s n m : fine (bytes_to_u32s n m).
Proof. unfold bytes_to_u32s. fine. Qed.
Lemma fine_u64s n m : fine (bytes_to_u64s n m).
Proof. unfold bytes_to_u64s. fine. Qed.
Lemma fine_of_u32s n m : fine (u32s_to_bytes n m).
Proof. unfold u32s_to_bytes. fine. Qed.
Lemma fine_of_u64s n m : fine (u64s_to_bytes n m).
Proof. unfold u64s_to_bytes. fine. Qed.
Lemma fine_from_hex n m : fine (hash_from_hex n m).
Proof. unfold hash_from_hex. fine. Qed.

(** The length of the digest is that of the array it is written to. *)
Lemma post_copy_length {A} (l : list A) a b s n : length l = n ->
  post (fun r => length r = n) (copy_range l a b s).
Proof.
  intros L. unfold copy_range. destruct (_ && _)%bool eqn:E; [|cbn; discriminate].
  destruct (length s =? b - a)%nat eqn:E2; [|cbn; discriminate]. cbn [post].
  rewrite !app_length, firstn_length, skipn_length. lia.
Qed.
Lemma post_sha256 m : post (fun h => length h = 32%nat) (sha256 m).
Proof.
  unfold sha256, sha2_padding, sha_chunk_loop, hash256_from_words, u32s_to_bytes.
  apply fine_bind; [apply fine_chunks_exact|intros [cs r]].
  apply fine_bind; [apply fine_sha1_padding|intros [l x]].
  apply fine_bind; [fine|intros h].
  apply post_forM; [reflexivity|]. intros [i w] s L. now apply post_copy_length.
Qed.
Lemma fine_sha256 m : fine (sha256 m).
Proof. eapply post_fine, post_sha256. Qed.

End Profile.
#[export] Hint Resolve fine_pkcs_pad fine_pkcs_unpad fine_sha256 : fine.

(** ** Block encryption, with any cipher and mode that always return *)
Definition ofine {A} (m : out A) : Prop := fine (snd m).
Lemma ofine_bind {A B} (m : out A) (f : A -> out B) :
  ofine m -> (forall a, ofine (f a)) -> ofine (obind m f).
Proof.
  unfold ofine. destruct m as [e [a|p]]; cbn [obind snd]; intros H K; [|exact H].
  specialize (K a). destruct (f a) as [e' r]. exact K.
Qed.
Lemma ofine_lift {A} (m : res A) : fine m -> ofine (olift m).
Proof. auto. Qed.
Lemma ofine_forO {A S} (l : list A) (f : A -> S -> out S) s :
  (forall a s, ofine (f a s)) -> ofine (forO l f s).
Proof.
  intros H. revert s. induction l as [|a l IH]; intros s; cbn [forO]; [exact I|].
  apply ofine_bind; auto.
Qed.
Ltac ofine :=
  repeat (cbv beta zeta; match goal with
  | |- ofine (obind _ _) => apply ofine_bind; [|intros ?]
  | |- ofine (forO _ _ _) => apply ofine_forO; intros ? ?
  | |- ofine (oret _) => exact I
  | |- ofine (oemit _) => exact I
  | |- ofine (olift _) => apply ofine_lift; fine
  | |- ofine (match ?x with _ => _ end) => destruct x
  end).

Section Block.
Context {P : profile} {S : Type} (n : nat) (cipher : block_cipher) (mode : cipher_mode S).
Lemma fine_be_encrypt st m :
  (forall s b, fine (cm_encrypt_block mode cipher s b)) -> ofine (be_encrypt n cipher mode st m).
Proof. intros H. unfold be_encrypt. ofine. Qed.
Lemma fine_be_decrypt st m :
  (forall s b, fine (cm_decrypt_block mode cipher s b)) -> ofine (be_decrypt n cipher mode st m).
Proof. intros H. unfold be_decrypt. ofine. Qed.
End Block.
Lemma fine_ecb_encrypt cipher s b : fine (bc_encrypt cipher b) ->
  fine (cm_encrypt_block ecb_mode cipher s b).
Proof. intros H. cbn [ecb_mode cm_encrypt_block]. fine. Qed.
Lemma fine_ecb_decrypt cipher s b : fine (bc_decrypt cipher b) ->
  fine (cm_decrypt_block ecb_mode cipher s b).
Proof. intros H. cbn [ecb_mode cm_decrypt_block]. fine. Qed.

Lemma ends_fine {A} (m : res A) : m <> Panic PFuel -> fine m.
Proof. destruct m; cbn; [intros; exact I|congruence]. Qed.
Lemma ends_nonempty (m : res (list N)) : m <> Panic PFuel -> m <> Ok [] -> post (fun h => h <> []) m.
Proof. destruct m; cbn; congruence. Qed.
