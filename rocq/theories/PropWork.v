(** * C113: the work of an RSA operation *)
From Verif Require Import Base BaseLemmas ModelBig ModelRsa ModelWork SpecBig SpecRsa ProofWork.
Local Open Scope N_scope.

(** The functions that record their work are the functions of the model: same value, same panic, in both
    profiles. *)
Theorem c113_erase_rem : forall (P : profile) capf a m,
  rem_assign capf a m = let* (r, _) := rem_assign_sized capf a m in Ok r.
Proof. exact @rem_erase. Qed.
Print Assumptions c113_erase_rem.

Theorem c113_erase_mul : forall (P : profile) capf a b m,
  mul_mod capf a b m = let* (r, _) := mul_mod_sized capf a b m in Ok r.
Proof. exact @mul_erase. Qed.
Print Assumptions c113_erase_mul.

Theorem c113_erase_pow : forall (P : profile) capf a p m,
  pow_mod capf a p m = let* (r, _) := pow_mod_sized capf a p m in Ok r.
Proof. exact @pow_erase. Qed.
Print Assumptions c113_erase_pow.

(** For a message below the modulus (of [k] bytes) there are at most 34 comparisons, additions,
    subtractions and shifts for each bit of the exponent and each bit of the modulus, and no vector has
    more than [k + 3] bytes and the [c] that the allocator adds. *)
Theorem c113_message : forall capf c key msg,
  canonical (rsa_exponent key) -> canonical (rsa_modulo key) -> canonical msg ->
  1 < num (rsa_modulo key) -> countable (rsa_exponent key) -> num msg < num (rsa_modulo key) ->
  let k := length (rsa_modulo key) in
  allocates capf (k + 2) -> (forall j, (j <= k + 2)%nat -> (capf j <= j + c)%nat) ->
  exists r t, pow_mod_sized capf msg (rsa_exponent key) (rsa_modulo key) = Ok (r, t) /\
    rsa_encrypt capf key msg = Ok r /\ rsa_decrypt capf key msg = Ok r /\
    Forall (fun x => (x <= k + 3 + c)%nat) t /\
    N.of_nat (length t) <= 34 * bit_length (num (rsa_exponent key)) * bit_length (num (rsa_modulo key)).
Proof. exact message_work. Qed.
Print Assumptions c113_message.

(** For larger numbers, as [decrypt_message] does not compare the ciphertext with the modulus. *)
Theorem c113_any_number : forall capf c a p m s, canonical a -> canonical p -> canonical m ->
  1 < num m -> countable p -> num a < num m * 2 ^ s ->
  let w := (length m + N.to_nat (s / 8) + 1)%nat in
  allocates capf (w + 1) -> (forall k, (k <= w + 1)%nat -> (capf k <= k + c)%nat) ->
  exists r t, pow_mod_sized capf a p m = Ok (r, t) /\ Forall (fun x => (x <= w + 2 + c)%nat) t /\
    N.of_nat (length t) <= 2 * bit_length (num p) * (bit_length (num m) + s) * (6 * s + 17).
Proof. exact pow_work. Qed.
Print Assumptions c113_any_number.

(** The bytes of all vectors together. *)
Theorem c113_bytes : forall capf c a p m s r t, canonical a -> canonical p -> canonical m ->
  1 < num m -> countable p -> num a < num m * 2 ^ s ->
  let w := (length m + N.to_nat (s / 8) + 1)%nat in
  allocates capf (w + 1) -> (forall k, (k <= w + 1)%nat -> (capf k <= k + c)%nat) ->
  pow_mod_sized capf a p m = Ok (r, t) ->
  N.of_nat (list_sum t) <=
    2 * bit_length (num p) * (bit_length (num m) + s) * (6 * s + 17) * (N.of_nat (length m) + s / 8 + 3 + N.of_nat c).
Proof. exact pow_work_total. Qed.
Print Assumptions c113_bytes.

(** The primes 61 and 53: 380 operations on vectors of at most 4 bytes. *)
Example c113_case :
  let key := {| rsa_exponent := [17]; rsa_modulo := [161; 12] |} in
  (exists r t, pow_mod_sized (fun k => k) [65] (rsa_exponent key) (rsa_modulo key) = Ok (r, t) /\
    rsa_encrypt (fun k => k) key [65] = Ok r /\ length t = 380%nat /\ list_max t = 4%nat) /\
  34 * bit_length 17 * bit_length 3233 = 2040 /\ allocates (fun k => k) 4.
Proof.
  split; [eexists; eexists; split; [vm_compute; reflexivity|]; split; [vm_compute; reflexivity|]; split; vm_compute; reflexivity|].
  split; [vm_compute; reflexivity|]. intros k H. unfold capacity_ok. lia.
Qed.
