(** * C116: only the round keys tell the columns of AES apart *)
From Verif Require Import Base BaseLemmas ModelAes SpecAes SpecSymmetry ProofSymmetry.
Local Open Scope N_scope.

(** With turned round keys, turned blocks are encrypted and decrypted to turned blocks, for any number
    of rounds and any round keys. *)
Theorem c116_turned : forall nr keys b, (1 <= nr)%nat -> (nr < length keys)%nat ->
  Forall (fun k => length k = 16%nat /\ bytes k) keys -> length b = 16%nat -> bytes b ->
  let c := {| aes_keys := keys; aes_rounds := nr |} in
  let c' := {| aes_keys := map turn keys; aes_rounds := nr |} in
  (exists e, aes_encrypt c b = Ok e /\ aes_encrypt c' (turn b) = Ok (turn e)) /\
  (exists d, aes_decrypt c b = Ok d /\ aes_decrypt c' (turn b) = Ok (turn d)).
Proof. exact aes_turned. Qed.
Print Assumptions c116_turned.

(** So with symmetric round keys symmetric blocks would stay symmetric. *)
Theorem c116_symmetric : forall nr keys b, (1 <= nr)%nat -> (nr < length keys)%nat ->
  Forall (fun k => length k = 16%nat /\ bytes k /\ symmetric k) keys ->
  length b = 16%nat -> bytes b -> symmetric b ->
  exists e, aes_encrypt {| aes_keys := keys; aes_rounds := nr |} b = Ok e /\ symmetric e.
Proof. exact aes_symmetric. Qed.
Print Assumptions c116_symmetric.

(** The key expansion prevents it: one of the first five round keys of every key is not symmetric. *)
Theorem c116_key_expansion : forall nk key c, nk = 4%nat \/ nk = 6%nat \/ nk = 8%nat ->
  length key = (4 * nk)%nat -> bytes key -> aes_make nk key = Ok c ->
  exists r, (r < 5)%nat /\ ~ symmetric (nth r (aes_keys c) []).
Proof. exact some_round_key. Qed.
Print Assumptions c116_key_expansion.

(** The key 0 of 32 bytes: its first four round keys are symmetric, the fifth is not; and four rounds with
    symmetric round keys. *)
Example c116_case :
  (exists c, aes_make 8 (repeat 0 32) = Ok c /\ Forall symmetric (firstn 4 (aes_keys c)) /\
     ~ symmetric (nth 4 (aes_keys c) []) /\
     nth 2 (aes_keys c) [] <> nth 3 (aes_keys c) []) /\
  let keys := map (fun i => concat (repeat [N.of_nat i; 7; 200; 31] 4)) (seq 0 5) in
  let b := concat (repeat [1; 2; 3; 4] 4) in
  Forall symmetric keys /\ exists e, aes_encrypt {| aes_keys := keys; aes_rounds := 4 |} b = Ok e /\ symmetric e /\ e <> b.
Proof.
  split.
  - eexists. split; [vm_compute; reflexivity|]. split; [repeat constructor|]. split; vm_compute; discriminate.
  - split; [repeat constructor|]. eexists. split; [vm_compute; reflexivity|]. split; [reflexivity|]. vm_compute. discriminate.
Qed.
