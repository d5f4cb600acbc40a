(** * Property C93: the integral property of AES *)
From Verif Require Import Base BaseLemmas ModelAes SpecWord SpecAes SpecTrail SpecIntegral ProofTrail ProofIntegral.
Local Open Scope N_scope.

(** [sbox_input w x r] is the state that goes into the S-boxes in round [r] of the encryption of
    [x] (C87: [c87_first], [c87_next], [c87_last] connect it with [aes_encrypt]).

    256 blocks that take all values in one byte and agree in the others are such a set of
    states in round 1. *)
Theorem c93_plaintexts : forall nk key x i, length x = 16%nat -> bytes x -> (i < 16)%nat ->
  (forall v, v < 256 -> length (put x i v) = 16%nat /\ bytes (put x i v)) /\
  lambda_set (fun v => sbox_input (key_words nk key (4 * (nk + 7))) (put x i v) 1) i.
Proof.
  exact (fun nk key x i L B Hi => conj (plaintext_wf x i L B Hi) (lambda_plaintexts nk key x i L Hi)).
Qed.
Print Assumptions c93_plaintexts.

(** These are the states of the code: the block encrypted with [r] rounds is the state before the
    S-boxes of round [r] after the rest of that round. *)
Theorem c93_code : forall nk key x, nk = 4%nat \/ nk = 6%nat \/ nk = 8%nat ->
  length key = (4 * nk)%nat -> bytes key -> length x = 16%nat -> bytes x ->
  let w := key_words nk key (4 * (nk + 7)) in
  exists c, aes_make nk key = Ok c /\ forall r, (1 <= r <= nk + 6)%nat ->
    aes_encrypt {| aes_keys := aes_keys c; aes_rounds := r |} x =
    Ok (add_round_key (round_key w r) (shift_rows (sub_bytes (sbox_input w x r)))).
Proof. exact model_rounds. Qed.
Print Assumptions c93_code.

(** Two rounds later each of the 16 bytes takes all 256 values. *)
Theorem c93_two_rounds : forall nk key X r i j, (4 <= nk)%nat -> length key = (4 * nk)%nat -> bytes key ->
  (forall v, v < 256 -> length (X v) = 16%nat /\ bytes (X v)) -> (1 <= r)%nat -> (r + 2 <= nk + 6)%nat ->
  (i < 16)%nat -> (j < 16)%nat ->
  let w := key_words nk key (4 * (nk + 7)) in
  lambda_set (fun v => sbox_input w (X v) r) i ->
  forall v v', v < 256 -> v' < 256 ->
    nth j (sbox_input w (X v) (r + 2)) 0 = nth j (sbox_input w (X v') (r + 2)) 0 -> v = v'.
Proof. exact integral_two. Qed.
Print Assumptions c93_two_rounds.

(** Three rounds later the 256 values of each byte have the sum zero. *)
Theorem c93_three_rounds : forall nk key X r i j, (4 <= nk)%nat -> length key = (4 * nk)%nat -> bytes key ->
  (forall v, v < 256 -> length (X v) = 16%nat /\ bytes (X v)) -> (1 <= r)%nat -> (r + 3 <= nk + 6)%nat ->
  (i < 16)%nat -> (j < 16)%nat ->
  let w := key_words nk key (4 * (nk + 7)) in
  lambda_set (fun v => sbox_input w (X v) r) i ->
  byte_sum (fun v => sbox_input w (X v) (r + 3)) j = 0.
Proof. exact integral_three. Qed.
Print Assumptions c93_three_rounds.

(** Three of the 256 states, two rounds after a set that varies in the first byte. *)
Example c93_case :
  let w := key_words 4 (map N.of_nat (seq 0 16)) 44 in
  map (fun v => firstn 3 (sbox_input w (put (repeat 7 16) 0 v) 3)) [0; 1; 2]
  = [[11; 143; 78]; [136; 67; 130]; [154; 74; 139]].
Proof. vm_compute. reflexivity. Qed.
