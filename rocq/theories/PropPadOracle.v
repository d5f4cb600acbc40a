(** * C86: block decryption as a padding oracle *)
From Verif Require Import Base BaseLemmas ModelPad ModelBlock ModelAes ModelRc SpecPad SpecBlock SpecPadOracle
  ProofBlock ProofPadOracle PropBlock PropAes PropRc.
Local Open Scope N_scope.

(** ECB: a block of a ciphertext, sent alone, is answered by a panic if the last byte of
    its plaintext block is more than [n], and otherwise by all but that many of its bytes. *)
Theorem c86_ecb : forall n cipher c b, (1 <= n)%nat -> length c = n -> bc_decrypt cipher c = Ok b -> length b = n ->
  be_decrypt n cipher ecb_mode tt c =
  if N.of_nat n <? last b 0 then ([], Panic PExplicit)
  else (firstn (n - N.to_nat (last b 0%N)) b, Ok tt).
Proof. exact ecb_block. Qed.
Print Assumptions c86_ecb.

(** CBC: whether decrypting two blocks [r], [c] panics. *)
Theorem c86_cbc_answer : forall n cipher iv r c b, (1 <= n)%nat -> decrypts n cipher ->
  length iv = n -> length r = n -> bytes r -> length c = n -> bc_decrypt cipher c = Ok b -> length b = n ->
  panics (be_decrypt n cipher cbc_mode iv (r ++ c)) = (N.of_nat n <? N.lxor (last b 0) (last r 0)).
Proof. exact cbc_answer. Qed.
Print Assumptions c86_cbc_answer.

(** So 256 questions give the last byte of every block of every message that was
    encrypted in CBC mode, if the block size is even. *)
Theorem c86_cbc_message : forall n cipher iv p ct bs cs, (1 <= n < 255)%nat -> Nat.even n = true ->
  cipher_inverse n cipher -> decrypts n cipher -> length iv = n -> bytes iv -> bytes p ->
  be_encrypt n cipher cbc_mode iv p = (ct, Ok tt) ->
  blocks_of n (pkcs_message n p) bs -> blocks_of n ct cs ->
  forall i iv', (i < length bs)%nat -> length iv' = n ->
  exists x, candidates n (fun v => panics (be_decrypt n cipher cbc_mode iv' (question n v (nth i cs [])))) = [x] /\
    N.lxor x (last (nth i (iv :: cs) []) 0) = last (nth i bs []) 0.
Proof. exact cbc_message. Qed.
Print Assumptions c86_cbc_message.

(** And nothing else: blocks whose decryptions agree in the last byte cannot be told
    apart, even by one who sees how many bytes were written. *)
Theorem c86_nothing_else : forall n cipher iv cs c c' b b', (1 <= n)%nat -> decrypts n cipher -> length iv = n ->
  Forall (fun b => length b = n) cs -> Forall bytes cs ->
  length c = n -> length c' = n -> bc_decrypt cipher c = Ok b -> bc_decrypt cipher c' = Ok b' ->
  length b = n -> length b' = n -> last b 0 = last b' 0 ->
  panics (be_decrypt n cipher cbc_mode iv (concat cs ++ c)) = panics (be_decrypt n cipher cbc_mode iv (concat cs ++ c')) /\
  length (fst (be_decrypt n cipher cbc_mode iv (concat cs ++ c))) =
  length (fst (be_decrypt n cipher cbc_mode iv (concat cs ++ c'))).
Proof. exact cbc_nothing_else. Qed.
Print Assumptions c86_nothing_else.

(** The hypotheses hold for AES, RC2 and RC5. *)
Theorem c86_aes : forall nk key c, nk = 4%nat \/ nk = 6%nat \/ nk = 8%nat ->
  length key = (4 * nk)%nat -> bytes key -> aes_make nk key = Ok c ->
  cipher_inverse 16 (aes_cipher c) /\ decrypts 16 (aes_cipher c).
Proof.
  intros nk key c Hn Hk Hb E. split; intros b L B;
    destruct (c16_inverse nk key b Hn Hk Hb L B) as (c' & e & d & E' & E1 & L1 & B1 & D1 & E2 & L2 & B2 & D2);
    rewrite E in E'; apply Ok_inj in E'; subst c'; cbn [aes_cipher bc_encrypt bc_decrypt]; eauto 6.
Qed.
Print Assumptions c86_aes.
Theorem c86_rc2 : forall key t1 k, (1 <= length key <= 128)%nat -> bytes key -> 1 <= t1 <= 1024 ->
  rc2_from_key key t1 = Ok k -> cipher_inverse 8 (rc2_cipher k) /\ decrypts 8 (rc2_cipher k).
Proof.
  intros key t1 k Hk Hb Ht E. split; intros b L B;
    destruct (c20_rc2_inverse key t1 b Hk Hb Ht L B) as (c' & e & d & E' & E1 & L1 & B1 & D1 & E2 & L2 & B2 & D2);
    rewrite E in E'; apply Ok_inj in E'; subst c'; cbn [rc2_cipher bc_encrypt bc_decrypt]; eauto 6.
Qed.
Print Assumptions c86_rc2.
Theorem c86_rc5 : forall key r c, rc5_new key r = Ok c ->
  cipher_inverse 8 (rc5_cipher c) /\ decrypts 8 (rc5_cipher c).
Proof.
  intros key r c E. split; intros b L B;
    destruct (c24_rc5_inverse key r c b E L B) as (e & d & E1 & L1 & B1 & D1 & E2 & L2 & B2 & D2);
    cbn [rc5_cipher bc_encrypt bc_decrypt]; eauto 6.
Qed.
Print Assumptions c86_rc5.

(** The second block of a message, with the byte 77 at its end, from the panics of the
    model; for blocks of 3 bytes there are four candidates. *)
Example c86_case :
  let p := [9; 9; 9; 9; 200; 201; 202; 77; 1] in
  let (ct, _) := be_encrypt 4 toy_cipher cbc_mode [5; 6; 7; 8] p in
  let c1 := firstn 4 ct in let c2 := firstn 4 (skipn 4 ct) in
  candidates 4 (fun v => panics (be_decrypt 4 toy_cipher cbc_mode [0; 0; 0; 0] (question 4 v c2))) =
    [N.lxor 77 (last c1 0)] /\
  candidates 3 (fun v => 3 <? N.lxor 77 v) = [76; 77; 78; 79].
Proof. split; vm_compute; reflexivity. Qed.
