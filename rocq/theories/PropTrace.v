(** * C125: what the hash functions and RC5 make visible, src/sha, src/md, src/rc/rc5.rs *)
From Verif Require Import Base BaseLemmas ModelBlock ModelSha ModelMd ModelRc ModelTrace
  ProofTraceErase ProofTrace.
Local Open Scope N_scope.

(** The functions of [ModelTrace] compute what the model computes, in both build profiles. *)
Theorem c125_erase_sha1 : forall (P : profile) m, snd (t_sha1 m) = sha1 m.
Proof. exact @er_sha1. Qed.
Print Assumptions c125_erase_sha1.
Theorem c125_erase_sha224 : forall (P : profile) m, snd (t_sha224 m) = sha224 m.
Proof. exact @er_sha224. Qed.
Print Assumptions c125_erase_sha224.
Theorem c125_erase_sha256 : forall (P : profile) m, snd (t_sha256 m) = sha256 m.
Proof. exact @er_sha256. Qed.
Print Assumptions c125_erase_sha256.
Theorem c125_erase_sha384 : forall (P : profile) m, snd (t_sha384 m) = sha384 m.
Proof. exact @er_sha384. Qed.
Print Assumptions c125_erase_sha384.
Theorem c125_erase_sha512 : forall (P : profile) m, snd (t_sha512 m) = sha512 m.
Proof. exact @er_sha512. Qed.
Print Assumptions c125_erase_sha512.
Theorem c125_erase_md4 : forall (P : profile) m, snd (t_md4_hash m) = md4_hash m.
Proof. exact @er_md4_hash. Qed.
Print Assumptions c125_erase_md4.
Theorem c125_erase_md5 : forall (P : profile) m, snd (t_md5_hash m) = md5_hash m.
Proof. exact @er_md5_hash. Qed.
Print Assumptions c125_erase_md5.
Theorem c125_erase_rc5_new : forall (P : profile) key r, snd (t_rc5_new key r) = rc5_new key r.
Proof. exact @er_rc5_new. Qed.
Print Assumptions c125_erase_rc5_new.
Theorem c125_erase_rc5_encrypt : forall c b, snd (t_rc5_encrypt c b) = rc5_encrypt c b.
Proof. exact er_rc5_encrypt. Qed.
Print Assumptions c125_erase_rc5_encrypt.
Theorem c125_erase_rc5_decrypt : forall c b, snd (t_rc5_decrypt c b) = rc5_decrypt c b.
Proof. exact er_rc5_decrypt. Qed.
Print Assumptions c125_erase_rc5_decrypt.

(** Two messages of the same length cannot be told apart by the branches that are
    taken, the number of iterations and the indices. *)
Theorem c125_sha1 : forall (P : profile) m m', length m = length m' ->
  fst (t_sha1 m) = fst (t_sha1 m').
Proof. exact (fun P m m' H => sim_events _ _ (sim_sha1 m m' H)). Qed.
Print Assumptions c125_sha1.
Theorem c125_sha224 : forall (P : profile) m m', length m = length m' ->
  fst (t_sha224 m) = fst (t_sha224 m').
Proof. exact (fun P m m' H => sim_events _ _ (sim_sha224 m m' H)). Qed.
Print Assumptions c125_sha224.
Theorem c125_sha256 : forall (P : profile) m m', length m = length m' ->
  fst (t_sha256 m) = fst (t_sha256 m').
Proof. exact (fun P m m' H => sim_events _ _ (sim_sha256 m m' H)). Qed.
Print Assumptions c125_sha256.
Theorem c125_sha384 : forall (P : profile) m m', length m = length m' ->
  fst (t_sha384 m) = fst (t_sha384 m').
Proof. exact (fun P m m' H => sim_events _ _ (sim_sha384 m m' H)). Qed.
Print Assumptions c125_sha384.
Theorem c125_sha512 : forall (P : profile) m m', length m = length m' ->
  fst (t_sha512 m) = fst (t_sha512 m').
Proof. exact (fun P m m' H => sim_events _ _ (sim_sha512 m m' H)). Qed.
Print Assumptions c125_sha512.
Theorem c125_md4 : forall (P : profile) m m', length m = length m' ->
  fst (t_md4_hash m) = fst (t_md4_hash m').
Proof. exact (fun P m m' H => sim_events _ _ (sim_md4_hash m m' H)). Qed.
Print Assumptions c125_md4.
Theorem c125_md5 : forall (P : profile) m m', length m = length m' ->
  fst (t_md5_hash m) = fst (t_md5_hash m').
Proof. exact (fun P m m' H => sim_events _ _ (sim_md5_hash m m' H)). Qed.
Print Assumptions c125_md5.

(** RC5: the set-up depends on the length of the key and the number of rounds, a
    block on the number of rounds. *)
Theorem c125_rc5_new : forall (P : profile) key key' r, length key = length key' ->
  fst (t_rc5_new key r) = fst (t_rc5_new key' r).
Proof. exact (fun P k k' r H => sim_events _ _ (sim_rc5_new k k' r H)). Qed.
Print Assumptions c125_rc5_new.
Theorem c125_rc5_block : forall key key' r c c' b b', rc5_new key r = Ok c -> rc5_new key' r = Ok c' ->
  length b = length b' ->
  fst (t_rc5_encrypt c b) = fst (t_rc5_encrypt c' b') /\
  fst (t_rc5_decrypt c b) = fst (t_rc5_decrypt c' b').
Proof. exact events_rc5_keys. Qed.
Print Assumptions c125_rc5_block.

(** Something is seen: 531 events for three bytes, 1047 when the padding needs a
    second block. *)
Example c125_case :
  fst (t_md5_hash [1; 2; 3]) = fst (t_md5_hash [255; 0; 171]) /\
  length (fst (t_md5_hash [1; 2; 3])) = 531%nat /\ length (fst (t_md5_hash (repeat 7 56))) = 1047%nat /\
  length (fst (t_sha1 [1; 2; 3])) = 772%nat /\
  firstn 8 (fst (t_md5_hash [1; 2; 3])) =
    [EIter; EIf true; EIf false; EIter; EIf true; EIf false; EIter; EIf true] /\
  match rc5_new [1; 2; 3] 2, rc5_new [4] 2 with
  | Ok c, Ok c' =>
      fst (t_rc5_encrypt c [1; 2; 3; 4; 5; 6; 7; 8]) =
      [ESlice 0 4; EIf true; ESlice 4 8; EIf true; EAt 0; EAt 1; EIter; EAt 2; EAt 3; EIter; EAt 4; EAt 5;
       EDone; ESlice 0 4; ESlice 0 4; ESlice 4 8; ESlice 0 4] /\
      fst (t_rc5_encrypt c' [9; 9; 9; 9; 0; 0; 0; 0]) = fst (t_rc5_encrypt c [1; 2; 3; 4; 5; 6; 7; 8])
  | _, _ => False
  end.
Proof. vm_compute. repeat split; reflexivity. Qed.
