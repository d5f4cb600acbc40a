(** * C84: BigUint operations on values that are not canonical

    [<<] on zero and clearing the top bit produce such values (C45). *)
From Verif Require Import Base BaseLemmas ModelBig ModelRsa SpecEndian SpecBig SpecRsa SpecSpoiled
  ProofBig ProofBig2 ProofBig3 ProofSpoiled.
Local Open Scope N_scope.
Local Open Scope list_scope.

(** Every byte string is one or the other. *)
Theorem c84_spoiled : forall a, bytes a -> (spoiled a <-> ~ canonical a).
Proof.
  intros a B. split; [exact (spoiled_not a)|]. intros N.
  destruct (spoiled_cases a B) as [C|S]; [contradiction|exact S].
Qed.
Print Assumptions c84_spoiled.

(** Queries, comparison with anything, remainder on either side and subtraction
    from such a value panic. *)
Theorem c84_queries : forall a, spoiled a -> countable a ->
  bits_used a = Panic PExplicit /\ forall i, is_set a i = Panic PExplicit.
Proof. intros a S C. exact (conj (spoiled_bits_used a S C) (fun i => spoiled_is_set a i S C)). Qed.
Print Assumptions c84_queries.

Theorem c84_cmp : forall a b, spoiled a -> countable a -> bytes b -> countable b ->
  big_cmp a b = Panic PExplicit /\ big_cmp b a = Panic PExplicit.
Proof. exact spoiled_cmp. Qed.
Print Assumptions c84_cmp.

Theorem c84_rem : forall capf a b, spoiled a -> countable a -> bytes b -> countable b ->
  rem_assign capf a b = Panic PExplicit /\ rem_assign capf b a = Panic PExplicit.
Proof. exact spoiled_rem. Qed.
Print Assumptions c84_rem.

Theorem c84_sub_left : forall capf a b, spoiled a -> countable a -> sub_assign capf a b = Panic PExplicit.
Proof. exact spoiled_sub. Qed.
Print Assumptions c84_sub_left.

(** The others are exact. Addition, subtraction of such a value and shifts by
    other than whole bytes repair the form. *)
Theorem c84_add : forall a b, bytes a -> bytes b ->
  exists r, add_assign a b = Ok r /\ canonical r /\ num r = num a + num b.
Proof. exact add_ok. Qed.
Print Assumptions c84_add.

Theorem c84_add_u8 : forall a c, bytes a -> c < 256 ->
  exists r, add_assign_u8 a c = Ok r /\ canonical r /\ num r = num a + c.
Proof. exact add_u8_ok. Qed.
Print Assumptions c84_add_u8.

Theorem c84_sub_right : forall capf a b, canonical a -> bytes b -> allocates capf (length a + 1) ->
  (length b <= length a + 1)%nat -> num b <= num a ->
  exists r, sub_assign capf a b = Ok r /\ canonical r /\ num r = num a - num b.
Proof. exact sub_any_right. Qed.
Print Assumptions c84_sub_right.

Theorem c84_shl : forall a k, bytes a ->
  num (shl_assign a k) = num a * 2 ^ k /\
  (spoiled a -> (canonical (shl_assign a k) <-> k mod 8 <> 0 /\ (num a <> 0 \/ k < 8))).
Proof. exact shl_any. Qed.
Print Assumptions c84_shl.

Theorem c84_shr : forall a k, bytes a -> k / 8 <= N.of_nat (length a) ->
  exists r, shr_assign a k = Ok r /\ bytes r /\ num r = num a / 2 ^ k /\ (k mod 8 <> 0 -> canonical r).
Proof. exact shr_any. Qed.
Print Assumptions c84_shr.

(** Conversion to [u128] goes by the number of bytes; the derived [==] by the
    bytes; both conversions from bytes give the canonical form. *)
Theorem c84_as_u128 : forall a, bytes a ->
  big_as_u128 a = Ok (if (length a <=? 16)%nat then ROk (num a) else RErr (length a)).
Proof.
  intros a B. destruct (Nat.leb_spec (length a) 16); [now apply as_u128_ok|now apply as_u128_err].
Qed.
Print Assumptions c84_as_u128.

Theorem c84_repair : forall a, bytes a -> exists r, big_from_be_bytes (big_to_be_bytes a) = Ok r /\
  big_from_le_bytes a = r /\ canonical r /\ num r = num a /\ (spoiled a -> r <> a).
Proof. exact repair_ok. Qed.
Print Assumptions c84_repair.

(** RSA with such a message, exponent or modulus panics (but for the exponent 0,
    and the message 0 if it is the modulus). *)
Theorem c84_rsa_message : forall capf key m, spoiled m -> countable m ->
  canonical (rsa_exponent key) -> countable (rsa_exponent key) -> num (rsa_exponent key) <> 0 ->
  rsa_encrypt capf key m = Panic PExplicit /\ rsa_decrypt capf key m = Panic PExplicit.
Proof.
  intros capf key m S C H1 H2 H3.
  exact (conj (pow_mod_spoiled_base capf m _ _ S C H1 H2 H3) (pow_mod_spoiled_base capf m _ _ S C H1 H2 H3)).
Qed.
Print Assumptions c84_rsa_message.

Theorem c84_rsa_exponent : forall capf key m, spoiled (rsa_exponent key) -> countable (rsa_exponent key) ->
  rsa_encrypt capf key m = Panic PExplicit /\ rsa_decrypt capf key m = Panic PExplicit.
Proof.
  intros capf key m S C.
  exact (conj (pow_mod_spoiled_exponent capf m _ _ S C) (pow_mod_spoiled_exponent capf m _ _ S C)).
Qed.
Print Assumptions c84_rsa_exponent.

Theorem c84_rsa_modulus : forall capf key m, spoiled (rsa_modulo key) -> countable (rsa_modulo key) ->
  canonical m -> N.of_nat (length m) + 1 < 2 ^ 29 -> num m <> 0 ->
  canonical (rsa_exponent key) -> countable (rsa_exponent key) -> num (rsa_exponent key) <> 0 ->
  rsa_encrypt capf key m = Panic PExplicit /\ rsa_decrypt capf key m = Panic PExplicit.
Proof.
  intros capf key m S C Hm Lm Nm H1 H2 H3.
  exact (conj (pow_mod_spoiled_modulus capf m _ _ S C Hm Lm Nm H1 H2 H3)
              (pow_mod_spoiled_modulus capf m _ _ S C Hm Lm Nm H1 H2 H3)).
Qed.
Print Assumptions c84_rsa_modulus.

(** Zero shifted left by a byte and back; 256 without its only bit. *)
Example c84_case :
  spoiled (shl_assign [] 8) /\ shl_assign [] 8 = [0] /\
  (exists r, update [0; 1] 8 false = Ok r /\ spoiled r /\ add_assign r [5] = Ok [5] /\
     big_cmp r [5] = Panic PExplicit /\ shr_assign r 8 = Ok [0] /\ shr_assign r 1 = Ok []) /\
  rsa_encrypt (fun n => n) {| rsa_exponent := [3]; rsa_modulo := [33] |} [5; 0] = Panic PExplicit /\
  rsa_encrypt (fun n => n) {| rsa_exponent := [3]; rsa_modulo := [33] |} [5] = Ok [26].
Proof.
  split; [repeat split; [repeat constructor|discriminate]|]. split; [reflexivity|]. split.
  - exists [0; 0]. split; [reflexivity|]. split; [repeat split; [repeat constructor|discriminate]|].
    split; [reflexivity|]. split; [reflexivity|]. split; reflexivity.
  - split; vm_compute; reflexivity.
Qed.
