(** * C98: one different byte in AES *)
From Verif Require Import Base ModelAes SpecAes SpecTrail ProofTrail ProofSpread.
Local Open Scope N_scope.

(** [sbox_input w x r] is the state that goes into the S-boxes in round [r] (C87). In round 1 the
    states differ where the blocks differ. *)
Theorem c98_first_round : forall w x y, active (sbox_input w x 1) (sbox_input w y 1) = active x y.
Proof. exact spread_first. Qed.
Print Assumptions c98_first_round.

(** These are the states of the code: the block encrypted with [r] rounds is the state before the
    S-boxes of round [r] after the rest of that round. *)
Theorem c98_code : forall nk key x, nk = 4%nat \/ nk = 6%nat \/ nk = 8%nat ->
  length key = (4 * nk)%nat -> bytes key -> length x = 16%nat -> bytes x ->
  let w := key_words nk key (4 * (nk + 7)) in
  exists c, aes_make nk key = Ok c /\ forall r, (1 <= r <= nk + 6)%nat ->
    aes_encrypt {| aes_keys := aes_keys c; aes_rounds := r |} x =
    Ok (add_round_key (round_key w r) (shift_rows (sub_bytes (sbox_input w x r)))).
Proof. exact model_rounds. Qed.
Print Assumptions c98_code.

(** States that differ in one byte differ in four bytes one round later and in all bytes after two rounds. *)
Theorem c98_two_rounds : forall nk key x y r, (4 <= nk)%nat -> length key = (4 * nk)%nat -> bytes key ->
  length x = 16%nat -> bytes x -> length y = 16%nat -> bytes y -> (1 <= r)%nat -> (r + 2 <= nk + 6)%nat ->
  let w := key_words nk key (4 * (nk + 7)) in
  active (sbox_input w x r) (sbox_input w y r) = 1%nat ->
  active (sbox_input w x (r + 1)) (sbox_input w y (r + 1)) = 4%nat /\
  active (sbox_input w x (r + 2)) (sbox_input w y (r + 2)) = 16%nat.
Proof. exact spread_two. Qed.
Print Assumptions c98_two_rounds.

(** After three rounds they differ in each column: no column can be equal. *)
Theorem c98_impossible : forall nk key x y r, (4 <= nk)%nat -> length key = (4 * nk)%nat -> bytes key ->
  length x = 16%nat -> bytes x -> length y = 16%nat -> bytes y -> (1 <= r)%nat -> forall c, (r + 3 <= nk + 6)%nat ->
  let w := key_words nk key (4 * (nk + 7)) in
  active (sbox_input w x r) (sbox_input w y r) = 1%nat -> (c < 4)%nat ->
  exists i, (i < 4)%nat /\
    nth (i + 4 * c) (sbox_input w x (r + 3)) 0 <> nth (i + 4 * c) (sbox_input w y (r + 3)) 0.
Proof. exact spread_three. Qed.
Print Assumptions c98_impossible.

(** Two blocks that differ in the sixth byte. A single byte of a column may agree after three
    rounds: here it is one of the 16. *)
Example c98_case :
  let w := key_words 4 (map N.of_nat (seq 0 16)) 44 in
  let x := repeat 0 16 in let y := repeat 0 5 ++ 48 :: repeat 0 10 in
  map (fun r => active (sbox_input w x r) (sbox_input w y r)) [1; 2; 3; 4]%nat = [1; 4; 16; 15]%nat.
Proof. vm_compute. reflexivity. Qed.
