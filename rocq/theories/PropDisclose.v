(** * C126: what MD2, RC4 and RC2 make visible, src/md/md2.rs, src/rc/rc4.rs, src/rc/rc2.rs *)
From Verif Require Import Base BaseLemmas ModelBlock ModelMd ModelRc ModelTrace
  ProofTraceErase ProofDisclose.
Local Open Scope N_scope.

(** The functions of [ModelTrace] compute what the model computes. *)
Theorem c126_erase_md2 : forall (P : profile) m, snd (t_md2_hash m) = md2_hash m.
Proof. exact @er_md2_hash. Qed.
Print Assumptions c126_erase_md2.
Theorem c126_erase_rc4_new : forall key, snd (t_rc4_new key) = rc4_new key.
Proof. exact er_rc4_new. Qed.
Print Assumptions c126_erase_rc4_new.
Theorem c126_erase_rc4_next_key : forall s, snd (t_rc4_next_key s) = rc4_next_key s.
Proof. exact er_rc4_next_key. Qed.
Print Assumptions c126_erase_rc4_next_key.
Theorem c126_erase_rc2_expand_key : forall (P : profile) key n,
  snd (t_rc2_expand_key key n) = rc2_expand_key key n.
Proof. exact @er_rc2_expand_key. Qed.
Print Assumptions c126_erase_rc2_expand_key.
Theorem c126_erase_rc2_encrypt : forall k b, snd (t_rc2_encrypt k b) = rc2_encrypt k b.
Proof. exact er_rc2_encrypt. Qed.
Print Assumptions c126_erase_rc2_encrypt.
Theorem c126_erase_rc2_decrypt : forall k b, snd (t_rc2_decrypt k b) = rc2_decrypt k b.
Proof. exact er_rc2_decrypt. Qed.
Print Assumptions c126_erase_rc2_decrypt.

(** The events of MD2 determine the message, of any length. *)
Theorem c126_md2 : forall (P : profile) m m', bytes m -> bytes m' ->
  fst (t_md2_hash m) = fst (t_md2_hash m') -> m = m'.
Proof. exact @md2_disclosed. Qed.
Print Assumptions c126_md2.

(** The events of the key set-up of RC4 determine the key, up to the 256 bytes
    that it reads. *)
Theorem c126_rc4 : forall key key', key <> [] -> key' <> [] -> bytes key -> bytes key' ->
  (length key <= 256)%nat -> (length key' <= 256)%nat ->
  fst (t_rc4_new key) = fst (t_rc4_new key') -> key = key'.
Proof. exact rc4_disclosed. Qed.
Print Assumptions c126_rc4.

(** The events of the key expansion of RC2 determine the key. *)
Theorem c126_rc2 : forall (P : profile) key key' n n', bytes key -> bytes key' ->
  (2 <= length key <= 64)%nat -> (2 <= length key' <= 64)%nat ->
  fst (t_rc2_expand_key key n) = fst (t_rc2_expand_key key' n') -> key = key'.
Proof. exact @rc2_disclosed. Qed.
Print Assumptions c126_rc2.

(** The bounds on the length cannot be widened: two keys of one byte and two keys
    of 65 bytes with the same events. *)
Theorem c126_rc2_one_byte_refuted : exists key key' n, bytes key /\ bytes key' /\
  length key = 1%nat /\ length key' = 1%nat /\ key <> key' /\
  fst (t_rc2_expand_key key n) = fst (t_rc2_expand_key key' n).
Proof.
  exists [1], [129], 8. do 2 (split; [repeat constructor|]). do 2 (split; [reflexivity|]).
  split; [discriminate|]. vm_compute. reflexivity.
Qed.
Print Assumptions c126_rc2_one_byte_refuted.
Theorem c126_rc2_longer_refuted : exists key key' n, bytes key /\ bytes key' /\
  length key = 65%nat /\ length key' = 65%nat /\ key <> key' /\
  fst (t_rc2_expand_key key n) = fst (t_rc2_expand_key key' n).
Proof.
  exists (repeat 7 63 ++ [1; 7]), (repeat 7 63 ++ [2; 7]), 1024.
  do 2 (split; [repeat constructor|]). do 2 (split; [reflexivity|]).
  split; [vm_compute; discriminate|]. vm_compute. reflexivity.
Qed.
Print Assumptions c126_rc2_longer_refuted.

(** The events of RC2 on a block are not the same for all blocks. *)
Theorem c126_rc2_block_refuted : exists key n k b b', rc2_expand_key key n = Ok k /\
  bytes b /\ bytes b' /\ length b = 8%nat /\ length b' = 8%nat /\
  fst (t_rc2_encrypt k b) <> fst (t_rc2_encrypt k b').
Proof.
  exists [1; 2; 3], 24. eexists. exists [0; 0; 0; 0; 0; 0; 0; 0], [1; 0; 0; 0; 0; 0; 0; 0].
  split; [vm_compute; reflexivity|]. do 2 (split; [repeat constructor|]).
  do 2 (split; [reflexivity|]). intros H. vm_compute in H. discriminate H.
Qed.
Print Assumptions c126_rc2_block_refuted.

(** The first byte of the message is the first index into the table of MD2; the
    first two indices of RC4's set-up after the table is filled are those of byte
    zero of the key and of the byte that is exchanged. *)
Example c126_case :
  firstn 4 (skipn 24 (fst (t_md2_hash [97; 98; 99]))) = [EIter; EAt 97; EAt 0; EAt 0] /\
  firstn 4 (skipn 24 (fst (t_md2_hash [98; 98; 99]))) = [EIter; EAt 98; EAt 0; EAt 0] /\
  length (fst (t_md2_hash [97; 98; 99])) = length (fst (t_md2_hash [98; 98; 99])) /\
  length (fst (t_rc4_new [1; 2])) = length (fst (t_rc4_new [1; 3])) /\
  length (fst (t_rc2_expand_key [1; 2; 3] 24)) = length (fst (t_rc2_expand_key [1; 2; 4] 24)).
Proof. vm_compute. repeat split; reflexivity. Qed.
