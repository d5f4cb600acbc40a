(** * C81-C82: what an observer of the running time learns; recursion depth *)
From Verif Require Import Base BaseLemmas ModelBig ModelRsa ModelPem ModelCost SpecBig SpecRsa SpecAsn1 SpecCost ProofCost.
Local Open Scope N_scope.

(** ** C81. The sequence of modular operations of an RSA operation is the exponent *)

(** The traced functions are the functions of the model: same value, same panic,
    in both profiles. *)
Theorem c81_erase_pow : forall (P : profile) capf a p m,
  pow_mod capf a p m = let* (r, _) := pow_mod_traced capf a p m in Ok r.
Proof. exact @pow_mod_erase. Qed.
Print Assumptions c81_erase_pow.

Theorem c81_erase_mul : forall (P : profile) capf a b m,
  mul_mod capf a b m = let* (r, _) := mul_mod_traced capf a b m in Ok r.
Proof. exact @mul_mod_erase. Qed.
Print Assumptions c81_erase_mul.

(** Whatever the message and the modulus, the multiplications and squarings of
    [pow_mod] are the bits of the exponent, lowest first. *)
Theorem c81_pow : forall capf a p m r t, canonical p -> countable p ->
  pow_mod_traced capf a p m = Ok (r, t) -> t = spells Multiply Square (num p).
Proof. exact pow_mod_ops. Qed.
Print Assumptions c81_pow.

(** And the additions and doublings of [mul_mod] are the bits of its second factor. *)
Theorem c81_mul : forall capf a b m r t, canonical b -> countable b ->
  mul_mod_traced capf a b m = Ok (r, t) -> t = spells Add Double (num b).
Proof. exact mul_mod_ops. Qed.
Print Assumptions c81_mul.

(** The sequence determines the number, *)
Theorem c81_leak : forall x y d e, x <> y -> spells x y d = spells x y e -> d = e.
Proof. exact spells_inj. Qed.
Print Assumptions c81_leak.

(** and its length alone the number of ones in it, if the bit length is known. *)
Theorem c81_length : forall x y e, length (spells x y e) = (N.to_nat (bit_length e) + ones e)%nat.
Proof. exact spells_length. Qed.
Print Assumptions c81_length.

Theorem c81_multiplications : forall x y e, x <> y -> count_occ op_dec (spells x y e) x = ones e.
Proof. exact spells_count. Qed.
Print Assumptions c81_multiplications.

(** The number of operations is not a function of the bit length of the exponent. *)
Theorem c81_constant_time_refuted : exists capf a p q m r s t u,
  canonical p /\ canonical q /\ bit_length (num p) = bit_length (num q) /\
  pow_mod_traced capf a p m = Ok (r, t) /\ pow_mod_traced capf a q m = Ok (s, u) /\ length t <> length u.
Proof.
  exists (fun n => n), [5], [128], [255], [253].
  exists [213], [67], (spells Multiply Square 128), (spells Multiply Square 255).
  split; [split; [repeat constructor|discriminate]|]. split; [split; [repeat constructor|discriminate]|].
  split; [vm_compute; reflexivity|]. split; [vm_compute; reflexivity|]. split; [vm_compute; reflexivity|].
  vm_compute. discriminate.
Qed.
Print Assumptions c81_constant_time_refuted.

Example c81_case :
  pow_mod_traced (fun n => n) [3] [13] [100] =
    Ok ([23], [Multiply; Square; Square; Multiply; Square; Multiply; Square]) /\
  mul_mod_traced (fun n => n) [7] [6] [100] = Ok ([42], [Double; Add; Double; Add; Double]) /\
  ones 13 = 3%nat.
Proof. repeat split; vm_compute; reflexivity. Qed.

(** ** C82. The stack depth of the ASN.1 parser is the nesting of its input *)

(** [fuel] bounds the number of nested calls of [parse_from_bytes]: an encoded
    value needs exactly as many as its depth. *)
Theorem c82_depth : forall v bs fuel rest, lax v bs ->
  parse_from_bytes fuel (bs ++ rest) = if (depth v <=? fuel)%nat then Ok (ROk (v, rest)) else Panic PFuel.
Proof. intros v bs fuel rest H. exact (proj1 parse_depth v bs H fuel rest). Qed.
Print Assumptions c82_depth.

(** At most one call for two bytes, *)
Theorem c82_upper : forall v bs, lax v bs -> (2 * depth v <= length bs)%nat.
Proof. exact (proj1 lax_depth_length). Qed.
Print Assumptions c82_upper.

(** and there is no other limit: ten bytes suffice to add a call. *)
Theorem c82_unbounded : forall n, (0 < n)%nat -> 10 * N.of_nat n < 2 ^ 64 ->
  exists v bs, bytes bs /\ (length bs <= 10 * n)%nat /\ asn1_try_from bs = Ok (ROk v) /\ depth v = n /\
    parse_from_bytes (n - 1) bs = Panic PFuel.
Proof. exact any_depth. Qed.
Print Assumptions c82_unbounded.

Example c82_case :
  lax (Sequence [Null; Sequence [Integer [7]]]) [0x30; 7; 5; 0; 0x30; 3; 2; 1; 7] /\
  depth (Sequence [Null; Sequence [Integer [7]]]) = 3%nat /\
  parse_from_bytes 2 [0x30; 7; 5; 0; 0x30; 3; 2; 1; 7] = Panic PFuel /\
  parse_from_bytes 3 [0x30; 7; 5; 0; 0x30; 3; 2; 1; 7] = Ok (ROk (Sequence [Null; Sequence [Integer [7]]], [])).
Proof.
  split.
  - change [0x30; 7; 5; 0; 0x30; 3; 2; 1; 7] with (der (Sequence [Null; Sequence [Integer [7]]])).
    apply ProofAsn1.der_lax. reflexivity.
  - repeat split; vm_compute; reflexivity.
Qed.
