(** * Property C33: constants as integer parts of real numbers

    These are the only theorems that use the axioms of the real numbers of the
    standard library; see DESIGN.md. *)
From Coq Require Import NArith ZArith List Reals.
From Verif Require Import ModelSha ModelMd ModelRc SpecSha SpecMd SpecRc SpecConst ProofMd2 ProofConst ProofConst2 ProofConst3.
Import ListNotations.
Local Open Scope N_scope.

(** SHA-2, round constants: the first bits of the fractional parts of the cube
    roots of the first primes. *)
Theorem c33_sha256_rounds : length ROUND_CONSTANTS = 64%nat /\ forall i, (i < 64)%nat ->
  exists p, nth_prime i p /\ frac_bits 32 (cube_root_of p) (nth i ROUND_CONSTANTS 0).
Proof.
  split; [reflexivity|]. intros i Hi. apply (cube_table_ok 32 0 ROUND_CONSTANTS i).
  - vm_compute. reflexivity.
  - exact Hi.
  - apply Nat.lt_trans with 64%nat; [exact Hi|]. apply Nat.ltb_lt. reflexivity.
Qed.

Theorem c33_sha512_rounds : length ROUND_CONSTANTS_BIG = 80%nat /\ forall i, (i < 80)%nat ->
  exists p, nth_prime i p /\ frac_bits 64 (cube_root_of p) (nth i ROUND_CONSTANTS_BIG 0).
Proof.
  split; [reflexivity|]. intros i Hi. apply (cube_table_ok 64 0 ROUND_CONSTANTS_BIG i).
  - vm_compute. reflexivity.
  - exact Hi.
  - exact Hi.
Qed.

(** Initial values: square roots of the first eight primes. *)
Theorem c33_sha256_initial : length INITIAL_HASH_256 = 8%nat /\ forall i, (i < 8)%nat ->
  exists p, nth_prime (0 + i) p /\ frac_bits 32 (sqrt (real p)) (nth i INITIAL_HASH_256 0).
Proof.
  split; [reflexivity|]. intros i Hi. apply (square_table_ok 32 0 INITIAL_HASH_256 i).
  - vm_compute. reflexivity.
  - exact Hi.
  - apply Nat.lt_le_trans with (0 + 8)%nat; [now apply Nat.add_lt_mono_l|]. apply Nat.leb_le. reflexivity.
Qed.

(** The same with 64 bits. *)
Theorem c33_sha512_initial : length INITIAL_HASH_512 = 8%nat /\ forall i, (i < 8)%nat ->
  exists p, nth_prime (0 + i) p /\ frac_bits 64 (sqrt (real p)) (nth i INITIAL_HASH_512 0).
Proof.
  split; [reflexivity|]. intros i Hi. apply (square_table_ok 64 0 INITIAL_HASH_512 i).
  - vm_compute. reflexivity.
  - exact Hi.
  - apply Nat.lt_le_trans with (0 + 8)%nat; [now apply Nat.add_lt_mono_l|]. apply Nat.leb_le. reflexivity.
Qed.

(** The ninth to the sixteenth prime. *)
Theorem c33_sha384_initial : length INITIAL_HASH_384 = 8%nat /\ forall i, (i < 8)%nat ->
  exists p, nth_prime (8 + i) p /\ frac_bits 64 (sqrt (real p)) (nth i INITIAL_HASH_384 0).
Proof.
  split; [reflexivity|]. intros i Hi. apply (square_table_ok 64 8 INITIAL_HASH_384 i).
  - vm_compute. reflexivity.
  - exact Hi.
  - apply Nat.lt_le_trans with (8 + 8)%nat; [now apply Nat.add_lt_mono_l|]. apply Nat.leb_le. reflexivity.
Qed.

(** The second 32 bits of these. *)
Theorem c33_sha224_initial : length INITIAL_HASH_224 = 8%nat /\ forall i, (i < 8)%nat ->
  exists p k, nth_prime (8 + i) p /\ frac_bits 64 (sqrt (real p)) k /\
    nth i INITIAL_HASH_224 0 = k mod 2 ^ 32.
Proof.
  split; [reflexivity|]. intros i Hi. apply (square_table_low 8 INITIAL_HASH_224 INITIAL_HASH_384 i).
  - vm_compute. reflexivity.
  - exact Hi.
  - apply Nat.lt_le_trans with (8 + 8)%nat; [now apply Nat.add_lt_mono_l|]. apply Nat.leb_le. reflexivity.
  - vm_compute. reflexivity.
Qed.

(** SHA-1 and MD4: [2^30] times the roots of 2, 3, 5, 10. [sha1_k] and [md4_ops]
    are the constants of the specifications in C30 and C27, which the code meets. *)
Theorem c33_sha1 : forall t, (t < 80)%nat ->
  is_floor (real (2 ^ 30) * sqrt (real (nth (t / 20) [2; 3; 5; 10] 0))) (sha1_k t).
Proof. exact sha1_constants. Qed.

Theorem c33_md4 : forall i, (i < 48)%nat -> let '(_, _, _, t) := nth i md4_ops (F4, O, 0, 0) in
  if (i <? 16)%nat then t = 0 else
  is_floor (real (2 ^ 30) * sqrt (real (if (i <? 32)%nat then 2 else 3))) t.
Proof. exact md4_constants. Qed.

(** MD5: sines. *)
Theorem c33_md5 : length MD5_T = 64%nat /\ forall i, (i < 64)%nat ->
  is_floor (real (2 ^ 32) * Rabs (sin (INR (S i)))) (nth i MD5_T 0).
Proof. split; [reflexivity|]. apply (sines MD5_T). vm_compute. reflexivity. Qed.

(** MD2: the digits of pi from which the table of C26 is derived. *)
Theorem c33_pi : is_floor (real (10 ^ 721) * PI) pi_722.
Proof. exact pi_digits. Qed.

(** The table of src/md/md2.rs is the shuffle of 0..255 driven by these digits. *)
Theorem c33_md2_table : MD2_S = md2_table.
Proof. exact md2_table_eq. Qed.

(** RC5: the odd numbers nearest to [2^32 (e - 2)] and [2^32 (phi - 1)]. *)
Theorem c33_rc5_p : nearest_odd (real (2 ^ 32) * (exp 1 - 2)) P32.
Proof. apply (e_check_ok 8). vm_compute. reflexivity. Qed.

Theorem c33_rc5_q : nearest_odd (real (2 ^ 32) * (golden_ratio - 1)) Q32.
Proof. apply golden_check_ok; vm_compute; reflexivity. Qed.

(** The descriptions determine the numbers. *)
Theorem c33_unique : (forall x n m, is_floor x n -> is_floor x m -> n = m) /\
  (forall x n m, nearest_odd x n -> nearest_odd x m -> n = m).
Proof. split; [exact is_floor_unique|exact nearest_odd_unique]. Qed.

(** The largest prime involved, and a case of [is_floor]. *)
Example c33_case : nth_prime 79 409 /\ is_floor (real 1 * sqrt (real 10)) 3.
Proof. split; [apply (prime_at_nth 79), Nat.ltb_lt; reflexivity|apply sqrt_floor; vm_compute; reflexivity]. Qed.

Print Assumptions c33_sha256_rounds.
Print Assumptions c33_sha512_rounds.
Print Assumptions c33_sha256_initial.
Print Assumptions c33_sha512_initial.
Print Assumptions c33_sha384_initial.
Print Assumptions c33_sha224_initial.
Print Assumptions c33_sha1.
Print Assumptions c33_md4.
Print Assumptions c33_md5.
Print Assumptions c33_pi.
Print Assumptions c33_md2_table.
Print Assumptions c33_rc5_p.
Print Assumptions c33_rc5_q.
Print Assumptions c33_unique.
