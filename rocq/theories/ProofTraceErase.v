(** * Proofs for C125 and C126: without the events, the traced functions are the
    functions of the model *)
From Verif Require Import Base BaseLemmas ModelBlock ModelSha ModelMd ModelRc ModelTrace.

Lemma er_bind {A B} (m : tr A) (m' : res A) (f : A -> tr B) (f' : A -> res B) :
  snd m = m' -> (forall a, snd (f a) = f' a) -> snd (tbind m f) = bind m' f'.
Proof.
  intros <- H. destruct m as [e [a|p]]; cbn [tbind bind snd]; [|reflexivity].
  rewrite <- H. now destruct (f a).
Qed.

Lemma er_see {A} e (k : unit -> tr A) : snd (tbind (tsee e) k) = snd (k tt).
Proof. cbn [tbind tsee]. now destruct (k tt). Qed.

Lemma er_if {A} (c : bool) (a b : tr A) a' b' :
  snd a = a' -> snd b = b' -> snd (tif c a b) = if c then a' else b'.
Proof. intros <- <-. unfold tif. rewrite er_see. now destruct c. Qed.

Lemma er_forM {A S} (l : list A) (f : A -> S -> tr S) f' : (forall a s, snd (f a s) = f' a s) ->
  forall s, snd (t_forM l f s) = forM l f' s.
Proof.
  intros H. induction l as [|a l IH]; intros s; cbn [t_forM forM]; [reflexivity|].
  rewrite er_see. apply er_bind; [apply H|]. intros s'. apply IH.
Qed.

Lemma er_mapM {A B} (f : A -> tr B) f' (l : list A) : (forall a, snd (f a) = f' a) ->
  snd (t_mapM f l) = mapM f' l.
Proof.
  intros H. induction l as [|a l IH]; cbn [t_mapM mapM]; [reflexivity|].
  rewrite er_see. apply er_bind; [apply H|]. intros b.
  apply er_bind; [apply IH|]. reflexivity.
Qed.

Ltac er_step := lazymatch goal with
  | |- snd (tbind _ _) = bind _ _ => apply er_bind; [|intro]
  | |- snd (tif _ _ _) = _ => apply er_if
  | |- snd (t_forM _ _ _) = forM _ _ _ => apply er_forM; intros
  | |- snd (t_mapM _ _) = mapM _ _ => apply er_mapM; intros
  | |- snd (let (_, _) := ?p in _) = _ => is_var p; destruct p
  | |- snd ((let (_, _) := ?p in _) _) = _ => is_var p; destruct p
  | |- snd (match ?p with _ => _ end) = _ => destruct p
  | |- _ => first [reflexivity | solve [auto with er]]
  end.
Ltac er := cbv beta zeta; repeat (er_step; cbv beta zeta).

Section Profile.
Context {P : profile}.

Lemma er_u32s_to_bytes b w : snd (t_u32s_to_bytes b w) = u32s_to_bytes b w.
Proof. unfold t_u32s_to_bytes, u32s_to_bytes. er. Qed.
Lemma er_u64s_to_bytes b w : snd (t_u64s_to_bytes b w) = u64s_to_bytes b w.
Proof. unfold t_u64s_to_bytes, u64s_to_bytes. er. Qed.
Hint Resolve er_u32s_to_bytes er_u64s_to_bytes : er.

Lemma er_sha1_padding a b : snd (t_sha1_padding a b) = sha1_padding a b.
Proof. unfold t_sha1_padding, sha1_padding. er. Qed.
Lemma er_sha2_padding_big a b : snd (t_sha2_padding_big a b) = sha2_padding_big a b.
Proof. unfold t_sha2_padding_big, sha2_padding_big. er. Qed.
Hint Resolve er_sha1_padding er_sha2_padding_big : er.

Lemma er_sha1_process_chunk h c : snd (t_sha1_process_chunk h c) = sha1_process_chunk h c.
Proof. unfold t_sha1_process_chunk, sha1_process_chunk. er. Qed.
Lemma er_sha2_process_chunk h c : snd (t_sha2_process_chunk h c) = sha2_process_chunk h c.
Proof. unfold t_sha2_process_chunk, sha2_process_chunk. er. Qed.
Lemma er_sha2_process_big_chunk h c :
  snd (t_sha2_process_big_chunk h c) = sha2_process_big_chunk h c.
Proof. unfold t_sha2_process_big_chunk, sha2_process_big_chunk. er. Qed.

Lemma er_sha_chunk_loop n f f' cs l e h : (forall a b, snd (f a b) = f' a b) ->
  snd (t_sha_chunk_loop n f cs l e h) = sha_chunk_loop n f' cs l e h.
Proof. intros H. unfold t_sha_chunk_loop, sha_chunk_loop. er. Qed.
Hint Resolve er_sha1_process_chunk er_sha2_process_chunk er_sha2_process_big_chunk : er.
Hint Resolve er_sha_chunk_loop : er.

Lemma er_sha1 m : snd (t_sha1 m) = sha1 m.
Proof. unfold t_sha1, sha1, t_hash160_from_words, hash160_from_words. er. Qed.
Lemma er_sha224 m : snd (t_sha224 m) = sha224 m.
Proof. unfold t_sha224, sha224, t_hash224_from_words, hash224_from_words,
  t_sha2_padding, sha2_padding. er. Qed.
Lemma er_sha256 m : snd (t_sha256 m) = sha256 m.
Proof. unfold t_sha256, sha256, t_hash256_from_words, hash256_from_words,
  t_sha2_padding, sha2_padding. er. Qed.
Lemma er_sha384 m : snd (t_sha384 m) = sha384 m.
Proof. unfold t_sha384, sha384, t_hash384_from_words, hash384_from_words. er. Qed.
Lemma er_sha512 m : snd (t_sha512 m) = sha512 m.
Proof. unfold t_sha512, sha512, t_hash512_from_words, hash512_from_words. er. Qed.

Lemma er_md2_pass x : forall t, snd (t_md2_pass x t) = md2_pass x t.
Proof.
  induction x as [|v x IH]; intros t; cbn [t_md2_pass md2_pass]; [reflexivity|].
  rewrite er_see. er.
Qed.
Hint Resolve er_md2_pass : er.
Lemma er_md2_process_chunk h : snd (t_md2_process_chunk h) = md2_process_chunk h.
Proof. unfold t_md2_process_chunk, md2_process_chunk. er. Qed.
Hint Resolve er_md2_process_chunk : er.
Lemma er_md2_consume h b : snd (t_md2_consume h b) = md2_consume h b.
Proof. unfold t_md2_consume, md2_consume. er. Qed.
Hint Resolve er_md2_consume : er.
Lemma er_md2_finish h : snd (t_md2_finish h) = md2_finish h.
Proof. unfold t_md2_finish, md2_finish. er. Qed.
Hint Resolve er_md2_finish : er.
Lemma er_md2_hash m : snd (t_md2_hash m) = md2_hash m.
Proof. unfold t_md2_hash, md2_hash. er. Qed.

Lemma er_md_from_slice c : snd (t_md_from_slice c) = md_from_slice c.
Proof. unfold t_md_from_slice, md_from_slice. er. Qed.
Hint Resolve er_md_from_slice : er.

Section Process.
Context (f : t_md_process) (f' : md_process)
  (H : forall x a b c d, snd (f x a b c d) = f' x a b c d).
Lemma er_md_process_block h : snd (t_md_process_block f h) = md_process_block f' h.
Proof using H. unfold t_md_process_block, md_process_block. er. Qed.
Hint Resolve er_md_process_block : er.
Lemma er_md_consume h b : snd (t_md_consume f h b) = md_consume f' h b.
Proof using H. unfold t_md_consume, md_consume. er. Qed.
Hint Resolve er_md_consume : er.
Lemma er_md_finish h : snd (t_md_finish f h) = md_finish f' h.
Proof using H. unfold t_md_finish, md_finish. er. Qed.
Hint Resolve er_md_finish : er.
Lemma er_md_hash m : snd (t_md_hash f m) = md_hash f' m.
Proof using H. unfold t_md_hash, md_hash. er. Qed.
End Process.

Lemma er_md4_ff x a b c d i s : snd (t_md4_ff x a b c d i s) = md4_ff x a b c d i s.
Proof. unfold t_md4_ff, md4_ff. er. Qed.
Lemma er_md4_gg x a b c d i s : snd (t_md4_gg x a b c d i s) = md4_gg x a b c d i s.
Proof. unfold t_md4_gg, md4_gg. er. Qed.
Lemma er_md4_hh x a b c d i s : snd (t_md4_hh x a b c d i s) = md4_hh x a b c d i s.
Proof. unfold t_md4_hh, md4_hh. er. Qed.
Lemma er_md4_process x a b c d : snd (t_md4_process x a b c d) = md4_process x a b c d.
Proof.
  unfold t_md4_process, md4_process.
  repeat (apply er_bind;
    [first [apply er_md4_ff | apply er_md4_gg | apply er_md4_hh] | intro]).
  reflexivity.
Qed.
Lemma er_md4_hash m : snd (t_md4_hash m) = md4_hash m.
Proof. apply er_md_hash. apply er_md4_process. Qed.

Lemma er_md5_ff x a b c d r : snd (t_md5_ff x a b c d r) = md5_ff x a b c d r.
Proof. unfold t_md5_ff, md5_ff. destruct r as [[k s] i]. er. Qed.
Lemma er_md5_gg x a b c d r : snd (t_md5_gg x a b c d r) = md5_gg x a b c d r.
Proof. unfold t_md5_gg, md5_gg. destruct r as [[k s] i]. er. Qed.
Lemma er_md5_hh x a b c d r : snd (t_md5_hh x a b c d r) = md5_hh x a b c d r.
Proof. unfold t_md5_hh, md5_hh. destruct r as [[k s] i]. er. Qed.
Lemma er_md5_ii x a b c d r : snd (t_md5_ii x a b c d r) = md5_ii x a b c d r.
Proof. unfold t_md5_ii, md5_ii. destruct r as [[k s] i]. er. Qed.
Hint Resolve er_md5_ff er_md5_gg er_md5_hh er_md5_ii : er.
Lemma er_md5_process x a b c d : snd (t_md5_process x a b c d) = md5_process x a b c d.
Proof. unfold t_md5_process, md5_process. er. Qed.
Lemma er_md5_hash m : snd (t_md5_hash m) = md5_hash m.
Proof. apply er_md_hash. apply er_md5_process. Qed.

Lemma er_rc2_expand_key k n : snd (t_rc2_expand_key k n) = rc2_expand_key k n.
Proof. unfold t_rc2_expand_key, rc2_expand_key. er. Qed.
Lemma er_rc2_mix k d : snd (t_rc2_mix k d) = rc2_mix k d.
Proof. unfold t_rc2_mix, rc2_mix. er. Qed.
Lemma er_rc2_rmix k d : snd (t_rc2_rmix k d) = rc2_rmix k d.
Proof. unfold t_rc2_rmix, rc2_rmix. er. Qed.
Lemma er_rc2_mash k d : snd (t_rc2_mash k d) = rc2_mash k d.
Proof. unfold t_rc2_mash, rc2_mash. er. Qed.
Lemma er_rc2_rmash k d : snd (t_rc2_rmash k d) = rc2_rmash k d.
Proof. unfold t_rc2_rmash, rc2_rmash. er. Qed.
Hint Resolve er_rc2_mix er_rc2_rmix er_rc2_mash er_rc2_rmash : er.
Lemma er_rc2_encrypt_block k d : snd (t_rc2_encrypt_block k d) = rc2_encrypt_block k d.
Proof. unfold t_rc2_encrypt_block, rc2_encrypt_block. er. Qed.
Lemma er_rc2_decrypt_block k d : snd (t_rc2_decrypt_block k d) = rc2_decrypt_block k d.
Proof. unfold t_rc2_decrypt_block, rc2_decrypt_block. er. Qed.
Lemma er_rc2_load b : snd (t_rc2_load b) = rc2_load b.
Proof. unfold t_rc2_load, rc2_load. er. Qed.
Lemma er_rc2_store b : snd (t_rc2_store b) = rc2_store b.
Proof. unfold t_rc2_store, rc2_store. er. Qed.
Hint Resolve er_rc2_encrypt_block er_rc2_decrypt_block er_rc2_load er_rc2_store : er.
Lemma er_rc2_encrypt k b : snd (t_rc2_encrypt k b) = rc2_encrypt k b.
Proof. unfold t_rc2_encrypt, rc2_encrypt. er. Qed.
Lemma er_rc2_decrypt k b : snd (t_rc2_decrypt k b) = rc2_decrypt k b.
Proof. unfold t_rc2_decrypt, rc2_decrypt. er. Qed.

Lemma er_rc4_new k : snd (t_rc4_new k) = rc4_new k.
Proof. unfold t_rc4_new, rc4_new. er. Qed.
Lemma er_rc4_next_key s : snd (t_rc4_next_key s) = rc4_next_key s.
Proof. unfold t_rc4_next_key, rc4_next_key. er. Qed.

Lemma er_rc5_key_words k : snd (t_rc5_key_words k) = rc5_key_words k.
Proof. unfold t_rc5_key_words, rc5_key_words. er. Qed.
Hint Resolve er_rc5_key_words : er.
Lemma er_rc5_expand_key k r : snd (t_rc5_expand_key k r) = rc5_expand_key k r.
Proof. unfold t_rc5_expand_key, rc5_expand_key. er. Qed.
Hint Resolve er_rc5_expand_key : er.
Lemma er_rc5_new k r : snd (t_rc5_new k r) = rc5_new k r.
Proof. unfold t_rc5_new, rc5_new. er. Qed.
Lemma er_rc5_encrypt_32 c p : snd (t_rc5_encrypt_32 c p) = rc5_encrypt_32 c p.
Proof. unfold t_rc5_encrypt_32, rc5_encrypt_32. er. Qed.
Lemma er_rc5_decrypt_32 c p : snd (t_rc5_decrypt_32 c p) = rc5_decrypt_32 c p.
Proof. unfold t_rc5_decrypt_32, rc5_decrypt_32. er. Qed.
Lemma er_rc5_load b : snd (t_rc5_load b) = rc5_load b.
Proof. unfold t_rc5_load, rc5_load. er. Qed.
Lemma er_rc5_store b : snd (t_rc5_store b) = rc5_store b.
Proof. unfold t_rc5_store, rc5_store. er. Qed.
Hint Resolve er_rc5_encrypt_32 er_rc5_decrypt_32 er_rc5_load er_rc5_store : er.
Lemma er_rc5_encrypt c b : snd (t_rc5_encrypt c b) = rc5_encrypt c b.
Proof. unfold t_rc5_encrypt, rc5_encrypt. er. Qed.
Lemma er_rc5_decrypt c b : snd (t_rc5_decrypt c b) = rc5_decrypt c b.
Proof. unfold t_rc5_decrypt, rc5_decrypt. er. Qed.
End Profile.
