(** * Properties C37-C45: src/big/uint.rs *)
From Verif Require Import Base ModelBig SpecEndian SpecBig ProofBig ProofBig2 ProofBig3.
Local Open Scope N_scope.
Local Open Scope list_scope.

(** C37. *)
Theorem c37_from_be_bytes : forall l, bytes l ->
  exists a, big_from_be_bytes l = Ok a /\ canonical a /\ num a = be_num l.
Proof. exact from_be_spec. Qed.

Theorem c37_from_le_bytes : forall l, bytes l ->
  canonical (big_from_le_bytes l) /\ num (big_from_le_bytes l) = le_num l.
Proof. exact from_le_spec. Qed.

Theorem c37_from_u128 : forall v, v < 2 ^ 128 ->
  exists a, big_from_u128 v = Ok a /\ canonical a /\ num a = v.
Proof. exact from_u128_spec. Qed.

Theorem c37_to_be_bytes : forall a, canonical a ->
  be_num (big_to_be_bytes a) = num a /\ (a <> [] -> hd 0 (big_to_be_bytes a) <> 0) /\
  Forall (fun b => b < 256) (big_to_be_bytes a).
Proof. exact to_be_spec. Qed.

(** Derived [PartialEq] compares the byte vectors. *)
Theorem c37_equality : forall a b, canonical a -> canonical b -> (num a = num b <-> a = b).
Proof. exact num_inj. Qed.

Theorem c37_from_be_to_be : forall a, canonical a ->
  big_from_be_bytes (big_to_be_bytes a) = Ok a.
Proof. exact from_be_to_be_spec. Qed.

(** Exporting what was imported drops exactly the leading zeros. *)
Theorem c37_to_be_from_be : forall k l, bytes l -> hd 1 l <> 0 ->
  exists a, big_from_be_bytes (repeat 0 k ++ l) = Ok a /\ big_to_be_bytes a = l.
Proof. exact strip_zeros_spec. Qed.

Example c37_case :
  big_from_be_bytes [0; 0; 0x12; 0x34] = Ok [0x34; 0x12] /\
  canonical [0x34; 0x12] /\ num [0x34; 0x12] = 0x1234 /\
  big_from_u128 0x12345678901234567890 = Ok (rev [0x12; 0x34; 0x56; 0x78; 0x90; 0x12; 0x34; 0x56; 0x78; 0x90]) /\
  big_from_be_bytes [0; 0] = Ok [] /\ big_from_le_bytes [7; 1; 0; 0] = [7; 1].
Proof.
  repeat split; try reflexivity; try (repeat constructor; reflexivity). discriminate.
Qed.

(** C38. *)
Theorem c38_add : forall a b, canonical a -> canonical b ->
  exists r, add_assign a b = Ok r /\ canonical r /\ num r = num a + num b.
Proof. exact add_spec. Qed.

Theorem c38_add_u8 : forall a c, canonical a -> c < 256 ->
  exists r, add_assign_u8 a c = Ok r /\ canonical r /\ num r = num a + c.
Proof. exact add_u8_spec. Qed.

Example c38_case :
  add_assign [255; 255] [1] = Ok [0; 0; 1] /\ num [255; 255] + num [1] = num [0; 0; 1] /\
  add_assign [1] [255; 255] = Ok [0; 0; 1] /\ add_assign_u8 [255; 255] 255 = Ok [254; 0; 1] /\
  add_assign [] [] = Ok [] /\ canonical [255; 255].
Proof.
  repeat split; try reflexivity; try (repeat constructor; reflexivity). discriminate.
Qed.

(** C39. [capf] stands for the allocator: [Vec::with_capacity(k)] may return
    any capacity of at least [k]. *)
Theorem c39_sub : forall capf a b, canonical a -> canonical b ->
  allocates capf (length a + 1) -> num b <= num a ->
  exists r, sub_assign capf a b = Ok r /\ big_sub capf a b = Ok r /\ canonical r /\
    num r = num a - num b.
Proof. exact sub_spec. Qed.

Theorem c39_sub_underflow : forall capf a b, canonical a -> canonical b ->
  allocates capf (length a + 1) -> num a < num b -> (length b <= capf (length a + 1))%nat ->
  exists r, sub_assign capf a b = Ok r /\ canonical r /\
    Z.of_N (num r) = ((Z.of_N (num a) - Z.of_N (num b)) mod 2 ^ Z.of_N (bit_length (num a)))%Z.
Proof. exact sub_under_spec. Qed.

Theorem c39_sub_panics : forall capf a b, canonical a -> countable a ->
  (capf (length a + 1) < length b)%nat -> sub_assign capf a b = Panic POverflow.
Proof. exact sub_panic_spec. Qed.

Example c39_case :
  allocates (fun k => k) 100 /\ allocates (fun k => 2 * k + 5)%nat 100 /\
  sub_assign (fun k => k) [10; 11; 12; 13] [11] = Ok [255; 10; 12; 13] /\
  sub_assign (fun k => 2 * k + 5)%nat [10; 11; 12; 13] [11] = Ok [255; 10; 12; 13] /\
  sub_assign (fun k => k) [5] [7] = Ok [6] /\ ((5 - 7) mod 2 ^ 3)%Z = 6%Z /\
  sub_assign (fun k => k) [5] [0; 0; 1] = Panic POverflow.
Proof.
  repeat split; try reflexivity; try (unfold capacity_ok; lia).
Qed.

(** C40. *)
Theorem c40_cmp : forall a b, canonical a -> canonical b -> countable a -> countable b ->
  big_cmp a b = Ok (num a ?= num b) /\ big_le a b = Ok (num a <=? num b) /\
  big_lt a b = Ok (num a <? num b).
Proof. exact cmp_spec. Qed.

Theorem c40_cmp_eq : forall a b, canonical a -> canonical b -> countable a -> countable b ->
  (big_cmp a b = Ok Eq <-> a = b).
Proof. exact cmp_eq_spec. Qed.

Example c40_case :
  big_cmp [1; 2] [2; 1] = Ok Gt /\ big_cmp [255] [0; 1] = Ok Lt /\ big_cmp [] [] = Ok Eq /\
  big_cmp [7; 9] [7; 9] = Ok Eq /\ countable [7; 9].
Proof. repeat split; reflexivity. Qed.

(** C41. *)
Theorem c41_rem : forall capf a m, canonical a -> canonical m -> num m <> 0 ->
  allocates capf (length a + 1) -> countable m ->
  exists r, rem_assign capf a m = Ok r /\ canonical r /\ num r = num a mod num m.
Proof. exact rem_spec. Qed.

Theorem c41_rem_zero : forall capf a, canonical a -> allocates capf (length a + 1) ->
  (num a < 128 -> rem_assign capf a [] = Ok a) /\
  (128 <= num a -> rem_assign capf a [] = Panic PExplicit).
Proof. exact rem_zero_spec. Qed.

Example c41_case :
  rem_assign (fun k => k) [0x34; 0x12; 0xab] [0x77; 1] = Ok [0x3c; 1] /\
  num [0x34; 0x12; 0xab] mod num [0x77; 1] = num [0x3c; 1] /\
  rem_assign (fun k => k) [127] [] = Ok [127] /\ rem_assign (fun k => k) [128] [] = Panic PExplicit.
Proof. repeat split; reflexivity. Qed.

(** C42. *)
Theorem c42_shl : forall a k, canonical a -> num a <> 0 ->
  canonical (shl_assign a k) /\ num (shl_assign a k) = num a * 2 ^ k.
Proof. exact shl_spec. Qed.

Theorem c42_shl_zero : forall k, shl_assign [] k = repeat 0 (N.to_nat (k / 8)) /\
  num (shl_assign [] k) = 0.
Proof. exact shl_zero_spec. Qed.

Theorem c42_shr : forall a k, canonical a -> k / 8 <= N.of_nat (length a) ->
  exists r, shr_assign a k = Ok r /\ canonical r /\ num r = num a / 2 ^ k.
Proof. exact shr_spec. Qed.

Theorem c42_shr_panics : forall a k, N.of_nat (length a) < k / 8 ->
  shr_assign a k = Panic PIndex.
Proof. exact shr_panic. Qed.

Example c42_case :
  shl_assign [0x81; 0x7f] 11 = [0; 0x08; 0xfc; 0x03] /\
  num [0x81; 0x7f] * 2 ^ 11 = num [0; 0x08; 0xfc; 0x03] /\
  shr_assign [0x81; 0x7f; 0x03] 11 = Ok [0x6f] /\ num [0x81; 0x7f; 0x03] / 2 ^ 11 = 0x6f /\
  shr_assign [0x81] 16 = Panic PIndex /\ shr_assign [0x81] 15 = Ok [].
Proof. repeat split; reflexivity. Qed.

(** C43. *)
Theorem c43_bits_used : forall a, canonical a -> countable a ->
  bits_used a = Ok (bit_length (num a)).
Proof. exact bits_used_spec. Qed.

Theorem c43_bit_length : forall n k, n < 2 ^ k <-> bit_length n <= k.
Proof. exact bit_length_spec. Qed.

Theorem c43_is_set : forall a i, canonical a -> countable a ->
  is_set a i = Ok (N.testbit (num a) i).
Proof. exact is_set_spec. Qed.

Theorem c43_update : forall a i s, bytes a -> i / 8 < N.of_nat (length a) ->
  exists r, update a i s = Ok r /\ length r = length a /\ bytes r /\
    forall j, N.testbit (num r) j = if j =? i then s else N.testbit (num a) j.
Proof. exact update_spec. Qed.

Theorem c43_update_panics : forall a i s, N.of_nat (length a) <= i / 8 ->
  update a i s = Panic PExplicit.
Proof. exact update_panic. Qed.

Example c43_case :
  bits_used [0; 0x13] = Ok 13 /\ is_set [0; 0x13] 9 = Ok true /\ is_set [0; 0x13] 10 = Ok false /\
  is_set [0; 0x13] 4000000000 = Ok false /\ update [0; 0x13] 10 true = Ok [0; 0x17] /\
  update [0; 0x13] 9 false = Ok [0; 0x11] /\ update [0; 0x13] 16 false = Panic PExplicit.
Proof. repeat split; reflexivity. Qed.

(** C44. *)
Theorem c44_as_u128 : forall a, canonical a ->
  big_as_u128 a = Ok (if num a <? 2 ^ 128 then ROk (num a) else RErr (length a)).
Proof. exact as_u128_spec. Qed.

Theorem c44_roundtrip : forall v, v < 2 ^ 128 ->
  exists a, big_from_u128 v = Ok a /\ big_as_u128 a = Ok (ROk v).
Proof. exact u128_roundtrip. Qed.

Example c44_case :
  big_as_u128 [0x90; 0x78; 0x56] = Ok (ROk 0x567890) /\
  big_as_u128 (repeat 0 16 ++ [1]) = Ok (RErr 17%nat) /\ canonical (repeat 0 16 ++ [1]).
Proof.
  repeat split; try reflexivity; try (repeat constructor; reflexivity). discriminate.
Qed.

(** C45. The values that any sequence of public operations can produce, when
    zero is never shifted left by 8 or more and no bit is cleared in the byte
    that holds it alone. *)
Inductive reachable (capf : nat -> nat) : list N -> Prop :=
| r_be l a : bytes l -> big_from_be_bytes l = Ok a -> reachable capf a
| r_le l : bytes l -> reachable capf (big_from_le_bytes l)
| r_u128 v a : v < 2 ^ 128 -> big_from_u128 v = Ok a -> reachable capf a
| r_add a b r : reachable capf a -> reachable capf b -> add_assign a b = Ok r -> reachable capf r
| r_add_u8 a c r : reachable capf a -> c < 256 -> add_assign_u8 a c = Ok r -> reachable capf r
| r_sub a b r : reachable capf a -> reachable capf b -> sub_assign capf a b = Ok r -> reachable capf r
| r_rem a b r : reachable capf a -> reachable capf b -> rem_assign capf a b = Ok r -> reachable capf r
| r_shl a k : reachable capf a -> num a <> 0 \/ k < 8 -> reachable capf (shl_assign a k)
| r_shr a k r : reachable capf a -> shr_assign a k = Ok r -> reachable capf r
| r_set a i r : reachable capf a -> update a i true = Ok r -> reachable capf r
| r_clear l b i r : reachable capf (l ++ [b]) ->
    i / 8 < N.of_nat (length l) \/ b <> 2 ^ (i mod 8) ->
    update (l ++ [b]) i false = Ok r -> reachable capf r.

Theorem c45_reachable_canonical : forall capf a, reachable capf a -> canonical a.
Proof.
  intros capf a H. induction H as [l a Hl E|l Hl|v a Hv E|a b r _ Ha _ Hb E|a c r _ Ha Hc E
    |a b r _ Ha _ Hb E|a b r _ Ha _ Hb E|a k _ Ha Hk|a k r _ Ha E|a i r _ Ha E|l b i r _ Ha Hi E].
  - destruct (from_be_spec l Hl) as (x & E' & C & _). congruence.
  - now apply from_le_spec.
  - destruct (from_u128_spec v Hv) as (x & E' & C & _). congruence.
  - destruct (add_spec a b Ha Hb) as (x & E' & C & _). congruence.
  - destruct (add_u8_spec a c Ha Hc) as (x & E' & C & _). congruence.
  - exact (sub_post _ a b r (canonical_bytes _ Ha) (canonical_bytes _ Hb) E).
  - exact (rem_post capf a b r Ha (canonical_bytes _ Hb) E).
  - destruct (N.eq_dec (num a) 0) as [Z|Z]; [|now apply shl_spec].
    apply (num_inj a [] Ha canonical_nil) in Z. subst a.
    destruct Hk as [Hk|Hk]; [now elim Hk|]. rewrite (proj1 (shl_zero_spec k)).
    rewrite N.div_small by exact Hk. apply canonical_nil.
  - exact (shr_post a k r Ha E).
  - exact (update_set_post a i r Ha E).
  - destruct (N.lt_ge_cases (i / 8) (N.of_nat (length l + 1))) as [L|L].
    + destruct (update_clear_post l b i Ha L) as (x & E' & Q). replace r with x by congruence.
      now apply Q.
    + rewrite update_panic in E; [discriminate|]. now rewrite app_length.
Qed.

(** The two operations left out break the form, and [bits_used] then panics. *)
Theorem c45_shl_zero_breaks : forall k, 8 <= k < 2 ^ 32 ->
  bits_used (shl_assign [] k) = Panic PExplicit.
Proof. exact shl_zero_breaks. Qed.

Theorem c45_clear_breaks : forall l i, canonical (l ++ [2 ^ (i mod 8)]) ->
  countable (l ++ [2 ^ (i mod 8)]) -> i / 8 = N.of_nat (length l) ->
  exists r, update (l ++ [2 ^ (i mod 8)]) i false = Ok r /\ bits_used r = Panic PExplicit.
Proof. exact update_clear_breaks. Qed.

Theorem c45_preservation_refuted : exists a i r, canonical a /\
  update a i false = Ok r /\ ~ canonical r /\
  (exists k, ~ canonical (shl_assign [] k)).
Proof.
  exists [1; 1], 8, [1; 0]. split; [|split; [reflexivity|split]].
  - split; [repeat constructor; reflexivity|discriminate].
  - intros [_ H]. apply H. reflexivity.
  - exists 8. intros [_ H]. apply H. reflexivity.
Qed.

Example c45_case :
  reachable (fun k => k) [0; 1] /\ bits_used (shl_assign [] 9) = Panic PExplicit.
Proof.
  split; [|reflexivity]. apply (r_add _ [255] [1]); [| |reflexivity].
  - apply (r_le _ [255; 0]). repeat constructor; reflexivity.
  - apply (r_u128 _ 1); reflexivity.
Qed.

Print Assumptions c37_from_be_bytes.
Print Assumptions c37_from_le_bytes.
Print Assumptions c37_from_u128.
Print Assumptions c37_to_be_bytes.
Print Assumptions c37_equality.
Print Assumptions c37_from_be_to_be.
Print Assumptions c37_to_be_from_be.
Print Assumptions c38_add.
Print Assumptions c38_add_u8.
Print Assumptions c39_sub.
Print Assumptions c39_sub_underflow.
Print Assumptions c39_sub_panics.
Print Assumptions c40_cmp.
Print Assumptions c40_cmp_eq.
Print Assumptions c41_rem.
Print Assumptions c41_rem_zero.
Print Assumptions c42_shl.
Print Assumptions c42_shl_zero.
Print Assumptions c42_shr.
Print Assumptions c42_shr_panics.
Print Assumptions c43_bits_used.
Print Assumptions c43_bit_length.
Print Assumptions c43_is_set.
Print Assumptions c43_update.
Print Assumptions c43_update_panics.
Print Assumptions c44_as_u128.
Print Assumptions c44_roundtrip.
Print Assumptions c45_reachable_canonical.
Print Assumptions c45_shl_zero_breaks.
Print Assumptions c45_clear_breaks.
Print Assumptions c45_preservation_refuted.
