(** * Property C87: differences between two AES encryptions *)
From Verif Require Import Base ModelAes SpecAes SpecTrail ProofAesField ProofTrail.

(** [sbox_input w x r] is the state that goes into the S-boxes in round [r]. *)
Theorem c87_first : forall w x, sbox_input w x 1 = add_round_key (round_key w 0) x.
Proof. exact (fun w x => eq_refl). Qed.

Theorem c87_next : forall w x r, (1 <= r)%nat ->
  sbox_input w x (S r) = add_round_key (round_key w r) (mix_columns (shift_rows (sub_bytes (sbox_input w x r)))).
Proof. exact sbox_input_S. Qed.

Theorem c87_last : forall nk key x, nk = 4%nat \/ nk = 6%nat \/ nk = 8%nat ->
  length key = (4 * nk)%nat -> bytes key -> length x = 16%nat -> bytes x ->
  let w := key_words nk key (4 * (nk + 7)) in
  exists c, aes_make nk key = Ok c /\
    aes_encrypt c x = Ok (add_round_key (round_key w (nk + 6)) (shift_rows (sub_bytes (sbox_input w x (nk + 6))))).
Proof. exact model_last. Qed.

(** ... also when the code is stopped after any other number of rounds. *)
Theorem c87_code : forall nk key x, nk = 4%nat \/ nk = 6%nat \/ nk = 8%nat ->
  length key = (4 * nk)%nat -> bytes key -> length x = 16%nat -> bytes x ->
  let w := key_words nk key (4 * (nk + 7)) in
  exists c, aes_make nk key = Ok c /\ forall r, (1 <= r <= nk + 6)%nat ->
    aes_encrypt {| aes_keys := aes_keys c; aes_rounds := r |} x =
    Ok (add_round_key (round_key w r) (shift_rows (sub_bytes (sbox_input w x r)))).
Proof. exact model_rounds. Qed.
Print Assumptions c87_code.

(** MixColumns: a changed column and its image have at least five changed bytes. *)
Theorem c87_branch_number : forall a b c d a' b' c' d',
  bytes [a; b; c; d] -> bytes [a'; b'; c'; d'] -> [a; b; c; d] <> [a'; b'; c'; d'] ->
  let x := map (fun p => N.lxor (fst p) (snd p)) (combine [a; b; c; d] [a'; b'; c'; d']) in
  let y := map (fun p => N.lxor (fst p) (snd p)) (combine (mix_column a b c d) (mix_column a' b' c' d')) in
  (5 <= weight x + weight y)%nat.
Proof. exact branch_columns. Qed.

(** Two rounds in a row: at least five S-boxes with different inputs. *)
Theorem c87_two_rounds : forall nk key x y r, (4 <= nk)%nat ->
  length key = (4 * nk)%nat -> bytes key ->
  length x = 16%nat -> bytes x -> length y = 16%nat -> bytes y -> x <> y ->
  (1 <= r)%nat -> (r + 1 <= nk + 6)%nat ->
  let w := key_words nk key (4 * (nk + 7)) in
  (5 <= active (sbox_input w x r) (sbox_input w y r) +
        active (sbox_input w x (r + 1)) (sbox_input w y (r + 1)))%nat.
Proof. exact two_rounds_active. Qed.

(** Four rounds in a row: at least 25. *)
Theorem c87_four_rounds : forall nk key x y r, (4 <= nk)%nat ->
  length key = (4 * nk)%nat -> bytes key ->
  length x = 16%nat -> bytes x -> length y = 16%nat -> bytes y -> x <> y ->
  (1 <= r)%nat -> (r + 3 <= nk + 6)%nat ->
  let w := key_words nk key (4 * (nk + 7)) in
  (25 <= active (sbox_input w x r) (sbox_input w y r) +
         active (sbox_input w x (r + 1)) (sbox_input w y (r + 1)) +
         active (sbox_input w x (r + 2)) (sbox_input w y (r + 2)) +
         active (sbox_input w x (r + 3)) (sbox_input w y (r + 3)))%nat.
Proof. exact four_rounds_active. Qed.

(** One S-box: a difference [d] becomes [e] for at most four inputs of the 256. *)
Theorem c87_sbox_difference : forall d e l, 0 < d < 256 -> NoDup l ->
  Forall (fun x => x < 256 /\ N.lxor (sub_byte x) (sub_byte (N.lxor x d)) = e) l ->
  (length l <= 4)%nat.
Proof. exact sbox_uniform. Qed.

(** No byte is mapped to itself or to its complement. *)
Theorem c87_sbox_fixed : forall x, x < 256 -> sub_byte x <> x /\ sub_byte x <> 255 - x.
Proof. exact no_fixed. Qed.

(** One changed bit: 1, 4, 16 and 16 different bytes; and a difference taken by four inputs. *)
Example c87_case :
  let w := key_words 4 (map N.of_nat (seq 0 16)) 44 in
  let x := repeat 0 16 in let y := 1 :: repeat 0 15 in
  map (fun r => active (sbox_input w x r) (sbox_input w y r)) [1; 2; 3; 4]%nat = [1; 4; 16; 16]%nat.
Proof. vm_compute. reflexivity. Qed.

Example c87_sbox_case :
  filter (fun x => N.lxor (sub_byte x) (sub_byte (N.lxor x 1)) =? 31) all_bytes <> [] /\
  length (filter (fun x => N.lxor (sub_byte x) (sub_byte (N.lxor x 1)) =? 31) all_bytes) = 4%nat.
Proof. vm_compute. split; [discriminate|reflexivity]. Qed.

Print Assumptions c87_first.
Print Assumptions c87_next.
Print Assumptions c87_last.
Print Assumptions c87_branch_number.
Print Assumptions c87_two_rounds.
Print Assumptions c87_four_rounds.
Print Assumptions c87_sbox_difference.
Print Assumptions c87_sbox_fixed.
