(** * Properties C46-C49: src/rsa/mod.rs, numbers and keys *)
From Verif Require Import Base ModelBig ModelRsa SpecBig SpecRsa ProofBig3 ProofPrime ProofRsa
  ProofInverse ProofRelease2.
From Coq Require Import ZArith.
Local Open Scope N_scope.
Local Open Scope list_scope.

(** C46. [allocates capf k]: the allocator gives vectors of [k] bytes or less the
    capacity they ask for, and less than 2^29 - 1. *)
Theorem c46_rsa_primitive : forall capf k key m,
  canonical (rsa_exponent key) -> canonical (rsa_modulo key) -> canonical m ->
  1 < num (rsa_modulo key) -> countable (rsa_exponent key) ->
  (length m + 4 <= k)%nat -> (length (rsa_modulo key) + 4 <= k)%nat -> allocates capf k ->
  exists c, rsa_encrypt capf key m = Ok c /\ rsa_decrypt capf key m = Ok c /\ canonical c /\
    num c = rsa_power (num m) (num (rsa_exponent key)) (num (rsa_modulo key)).
Proof. exact rsa_encrypt_spec. Qed.

Theorem c46_mul_mod : forall capf k a b m,
  canonical a -> canonical b -> canonical m -> 0 < num m ->
  (length a + 3 <= k)%nat -> (length m + 3 <= k)%nat -> allocates capf k -> countable b ->
  exists r, mul_mod capf a b m = Ok r /\ canonical r /\ num r = (num a * num b) mod num m.
Proof. exact mul_mod_ok. Qed.

(** For the modulus one the result is one if the exponent is zero. *)
Theorem c46_pow_mod : forall capf k a p m,
  canonical a -> canonical p -> canonical m -> 0 < num m ->
  (length a + 4 <= k)%nat -> (length m + 4 <= k)%nat -> allocates capf k -> countable p ->
  exists r, pow_mod capf a p m = Ok r /\ canonical r /\
    num r = if num p =? 0 then 1 else num a ^ num p mod num m.
Proof. exact pow_mod_ok. Qed.

(** Nothing rejects the modulus zero: small results are not reduced, others panic. *)
Example c46_modulus_zero :
  pow_mod (fun k => k) [2] [3] [] = Ok [8] /\ pow_mod (fun k => k) [2] [7] [] = Panic PExplicit.
Proof. split; vm_compute; reflexivity. Qed.

Example c46_case :
  pow_mod (fun k => k) [2] [30] [0x10; 0x27] = Ok [0x20; 0x07] /\ 2 ^ 30 mod 10000 = 0x0720 /\
  rsa_power 97 413 3233 = num [0xa5; 0x07] /\
  rsa_encrypt (fun k => k) {| rsa_exponent := [157; 1]; rsa_modulo := [161; 12] |} [97] = Ok [0xa5; 0x07] /\
  allocates (fun k => k) 100 /\ countable [157; 1] /\ canonical [161; 12].
Proof.
  do 4 (split; [vm_compute; reflexivity|]). split; [|split].
  - intros k Hk. unfold capacity_ok. change (2 ^ 29) with 536870912. lia.
  - reflexivity.
  - split; [repeat constructor; reflexivity|discriminate].
Qed.

(** C47. *)
Theorem c47_create_keys : forall p q e, canonical p -> canonical q -> canonical e ->
  prime_N (num p) -> prime_N (num q) -> num p * num q < 2 ^ 128 -> num e < 2 ^ 128 ->
  N.gcd (num e) (N.lcm (num p - 1) (num q - 1)) = 1 ->
  exists n d, create_keys p q e =
      Ok ({| priv_n := n; priv_d := d |}, {| pub_n := n; pub_e := e |}) /\
    canonical n /\ canonical d /\ num n = num p * num q /\
    num d <= N.lcm (num p - 1) (num q - 1) /\
    key_pair (num p) (num q) (num e) (num d).
Proof. exact create_keys_ok. Qed.

Theorem c47_not_coprime_panics : forall p q e, canonical p -> canonical q -> canonical e ->
  prime_N (num p) -> prime_N (num q) -> num p * num q < 2 ^ 128 -> num e < 2 ^ 128 ->
  N.gcd (num e) (N.lcm (num p - 1) (num q - 1)) <> 1 ->
  create_keys p q e = Panic PUnwrap.
Proof. exact create_keys_not_coprime. Qed.

Theorem c47_too_big_panics : forall p q e, canonical p -> canonical q -> canonical e ->
  2 <= num p -> 2 <= num q -> num e < 2 ^ 128 -> 2 ^ 128 <= num p * num q ->
  create_keys p q e = Panic (if (num p <? 2 ^ 128) && (num q <? 2 ^ 128) then POverflow else PUnwrap).
Proof. exact create_keys_too_big. Qed.

Theorem c47_not_u128_panics : forall p q e, canonical p -> canonical q -> canonical e ->
  2 ^ 128 <= num p \/ 2 ^ 128 <= num q \/ 2 ^ 128 <= num e ->
  create_keys p q e = Panic PUnwrap.
Proof. exact create_keys_not_u128. Qed.

(** Factors that are not primes are covered as well, as long as the least common
    multiple stays below 2^127. *)
Theorem c47_any_factors : forall p q e, canonical p -> canonical q -> canonical e ->
  2 <= num p -> 2 <= num q -> num p * num q < 2 ^ 128 -> num e < 2 ^ 128 ->
  N.lcm (num p - 1) (num q - 1) < 2 ^ 127 ->
  (N.gcd (num e) (N.lcm (num p - 1) (num q - 1)) = 1 ->
   exists n d, create_keys p q e =
      Ok ({| priv_n := n; priv_d := d |}, {| pub_n := n; pub_e := e |}) /\
    canonical n /\ canonical d /\ num n = num p * num q /\
    num d <= N.lcm (num p - 1) (num q - 1) /\
    key_pair (num p) (num q) (num e) (num d)) /\
  (N.gcd (num e) (N.lcm (num p - 1) (num q - 1)) <> 1 -> create_keys p q e = Panic PUnwrap).
Proof. exact create_keys_any. Qed.

(** The factors 0 and 1. *)
Theorem c47_degenerate_factors : forall p q e, canonical p -> canonical q -> canonical e ->
  num p < 2 ^ 128 -> num q < 2 ^ 128 -> num e < 2 ^ 128 ->
  (num p = 0 \/ num q = 0 -> create_keys p q e = Panic POverflow) /\
  (num p = 1 -> num q = 1 -> create_keys p q e = Panic PDivZero) /\
  (num p = 1 /\ 2 <= num q \/ 2 <= num p /\ num q = 1 ->
   (num e <> 1 -> create_keys p q e = Panic PUnwrap) /\
   (num e = 1 -> exists n d, create_keys p q e =
      Ok ({| priv_n := n; priv_d := d |}, {| pub_n := n; pub_e := e |}) /\
      canonical n /\ canonical d /\ num n = num p * num q /\ num d = 1)).
Proof. exact create_keys_degenerate. Qed.

(** [inverse] alone, for every argument and every modulus below 2^127. *)
Theorem c47_inverse : forall a n, a < 2 ^ 128 -> 0 < n < 2 ^ 127 ->
  (N.gcd a n <> 1 -> inverse a n = Ok None) /\
  (N.gcd a n = 1 -> exists d, inverse a n = Ok (Some d) /\ d <= n /\ (a * d) mod n = 1 mod n).
Proof. exact inverse_ok. Qed.

(** From 2^127 on the conversion to [i128] is wrong. *)
Theorem c47_inverse_of_large_modulus_refuted :
  exists a n, a < 2 ^ 128 /\ 0 < n < 2 ^ 128 /\ N.gcd a n = 1 /\
    inverse a n = Panic POverflow.
Proof. exact inverse_large_modulus. Qed.

(** From 2^127 on it panics for nearly every unit: [inverse_fits] says for which
    inverses it does not. *)
Theorem c47_inverse_from_2_127 : forall a n, a < 2 ^ 128 -> 2 ^ 127 <= n < 2 ^ 128 ->
  (N.gcd a n <> 1 -> inverse a n = Ok None) /\
  (N.gcd a n = 1 -> exists d, d < n /\ (a * d) mod n = 1 /\
    inverse a n = if inverse_fits n d then Ok (Some d) else Panic POverflow).
Proof. exact inverse_large_all. Qed.

(** Hence what happens when the least common multiple is 2^127 or more. *)
Theorem c47_large_lcm : forall p q e, canonical p -> canonical q -> canonical e ->
  2 <= num p -> 2 <= num q -> num p * num q < 2 ^ 128 -> num e < 2 ^ 128 ->
  2 ^ 127 <= N.lcm (num p - 1) (num q - 1) ->
  let l := N.lcm (num p - 1) (num q - 1) in
  (N.gcd (num e) l <> 1 -> create_keys p q e = Panic PUnwrap) /\
  (N.gcd (num e) l = 1 -> exists v, v < l /\ (num e * v) mod l = 1 /\
    if inverse_fits l v
    then exists n d, create_keys p q e =
        Ok ({| priv_n := n; priv_d := d |}, {| pub_n := n; pub_e := e |}) /\
      canonical n /\ canonical d /\ num n = num p * num q /\ num d = v
    else create_keys p q e = Panic POverflow).
Proof. exact create_keys_large. Qed.

Example c47_case_from_2_127 :
  inverse 1 (2 ^ 127 + 5) = Ok (Some 1) /\ inverse_fits (2 ^ 127 + 5) 1 = true /\
  inverse (2 ^ 127 + 4) (2 ^ 127 + 5) = Ok (Some (2 ^ 127 + 4)) /\
  inverse 2 (2 ^ 127 + 5) = Panic POverflow /\ inverse_fits (2 ^ 127 + 5) (2 ^ 126 + 3) = false /\
  inverse 2 (2 ^ 127 + 6) = Ok None /\
  inverse 5 (2 ^ 127) = Panic POverflow /\
  inverse 3 (2 ^ 127) = Ok (Some 56713727820156410577229101238628035243) /\
  inverse_fits (2 ^ 127) 56713727820156410577229101238628035243 = true.
Proof. do 8 (split; [vm_compute; reflexivity|]). vm_compute. reflexivity. Qed.

(** Factors 4 and 2^126 - 1, with the exponents 1, l - 1 and 5. *)
Example c47_case_large_lcm :
  let q := repeat 255 15 ++ [63] in
  let l := N.lcm 3 (num q - 1) in
  let k := 249 :: repeat 255 14 ++ [191] in
  canonical q /\ num q = 2 ^ 126 - 1 /\ 4 * num q < 2 ^ 128 /\ 2 ^ 127 <= l /\ num k = l - 1 /\
  create_keys [4] q [1] =
    Ok ({| priv_n := 252 :: repeat 255 15; priv_d := [1] |}, {| pub_n := 252 :: repeat 255 15; pub_e := [1] |}) /\
  create_keys [4] q k =
    Ok ({| priv_n := 252 :: repeat 255 15; priv_d := k |}, {| pub_n := 252 :: repeat 255 15; pub_e := k |}) /\
  N.gcd 5 l = 1 /\ create_keys [4] q [5] = Panic POverflow.
Proof.
  split; [split; [repeat constructor|discriminate]|].
  split; [vm_compute; reflexivity|]. split; [vm_compute; reflexivity|].
  split; [vm_compute; discriminate|]. do 4 (split; [vm_compute; reflexivity|]). vm_compute. reflexivity.
Qed.

Example c47_case :
  prime_N 61 /\ prime_N 53 /\ N.gcd 17 (N.lcm 60 52) = 1 /\
  create_keys [61] [53] [17] = Ok ({| priv_n := [161; 12]; priv_d := [157; 1] |},
                                   {| pub_n := [161; 12]; pub_e := [17] |}) /\
  num [161; 12] = 61 * 53 /\ num [157; 1] = 413 /\ key_pair 61 53 17 413 /\
  create_keys [61] [53] [3] = Panic PUnwrap /\
  map (fun a => inverse a 8) [1; 2; 3; 4; 5; 6; 7]
    = map Ok [Some 1; None; Some 3; None; Some 5; None; Some 7].
Proof.
  split; [apply trial_prime; vm_compute; reflexivity|].
  split; [apply trial_prime; vm_compute; reflexivity|].
  do 6 (split; [vm_compute; reflexivity|]). vm_compute. reflexivity.
Qed.

(** The two factors may have 64 bits. *)
Example c47_case_large :
  prime_N 9223373024697253889 /\ prime_N 4611686714212089857 /\
  9223373024697253889 * 4611686714212089857 < 2 ^ 128 /\
  N.gcd 3 (N.lcm (9223373024697253889 - 1) (4611686714212089857 - 1)) = 1.
Proof.
  split; [apply (proth_prime 1073741939 33 3); vm_compute; reflexivity|].
  split; [apply (proth_prime 536870993 33 3); vm_compute; reflexivity|].
  split; vm_compute; reflexivity.
Qed.

(** C48. *)
Theorem c48_roundtrip : forall capf k p q e priv pub m,
  canonical p -> canonical q -> canonical e ->
  prime_N (num p) -> prime_N (num q) -> num p <> num q ->
  create_keys p q e = Ok (priv, pub) -> canonical m -> allocates capf k ->
  (length m + 20 <= k)%nat ->
  (exists c, rsa_encrypt capf (rsa_from_public pub) m = Ok c /\
     exists r, rsa_decrypt capf (rsa_from_private priv) c = Ok r /\
       canonical r /\ num r = num m mod (num p * num q)) /\
  (exists c, rsa_encrypt capf (rsa_from_private priv) m = Ok c /\
     exists r, rsa_decrypt capf (rsa_from_public pub) c = Ok r /\
       canonical r /\ num r = num m mod (num p * num q)).
Proof. exact create_keys_roundtrip. Qed.

(** Messages below the modulus come back as the same bytes. *)
Theorem c48_roundtrip_below : forall capf k p q e priv pub m,
  canonical p -> canonical q -> canonical e ->
  prime_N (num p) -> prime_N (num q) -> num p <> num q ->
  create_keys p q e = Ok (priv, pub) -> canonical m -> num m < num p * num q ->
  allocates capf k -> (40 <= k)%nat ->
  (exists c, rsa_encrypt capf (rsa_from_public pub) m = Ok c /\
     rsa_decrypt capf (rsa_from_private priv) c = Ok m) /\
  (exists c, rsa_encrypt capf (rsa_from_private priv) m = Ok c /\
     rsa_decrypt capf (rsa_from_public pub) c = Ok m).
Proof. exact create_keys_roundtrip_below. Qed.

(** Any matching pair of exponents will do, of any size. *)
Theorem c48_roundtrip_any_key : forall capf k p q e n d m,
  prime_N p -> prime_N q -> p <> q -> key_pair p q (num e) (num d) -> num n = p * q ->
  canonical n -> canonical d -> canonical e -> canonical m ->
  countable e -> countable d -> allocates capf k ->
  (length m + 4 <= k)%nat -> (length n + 4 <= k)%nat ->
  exists c, rsa_encrypt capf {| rsa_exponent := e; rsa_modulo := n |} m = Ok c /\ canonical c /\
  exists r, rsa_decrypt capf {| rsa_exponent := d; rsa_modulo := n |} c = Ok r /\ canonical r /\
    num r = num m mod (p * q).
Proof. exact rsa_roundtrip_spec. Qed.

Example c48_case :
  exists c, rsa_encrypt (fun k => k) {| rsa_exponent := [157; 1]; rsa_modulo := [161; 12] |} [97] = Ok c /\
    c <> [97] /\
    rsa_decrypt (fun k => k) {| rsa_exponent := [17]; rsa_modulo := [161; 12] |} c = Ok [97].
Proof.
  eexists. split; [vm_compute; reflexivity|]. split; [discriminate|]. vm_compute. reflexivity.
Qed.

(** C49. *)
Theorem c49_prime_twice_refuted : forall capf p e, canonical p -> canonical e -> prime_N (num p) ->
  num p * num p < 2 ^ 128 -> num e < 2 ^ 128 -> N.gcd (num e) (num p - 1) = 1 -> 2 <= num e ->
  allocates capf 40 ->
  exists priv pub, create_keys p p e = Ok (priv, pub) /\ num p < num (pub_n pub) /\
  exists c, rsa_encrypt capf (rsa_from_public pub) p = Ok c /\
  exists r, rsa_decrypt capf (rsa_from_private priv) c = Ok r /\ r <> p.
Proof. exact create_keys_twice. Qed.

(** Nothing checks that the factors are primes. *)
Theorem c49_no_prime_check : forall p q e, canonical p -> canonical q -> canonical e ->
  2 <= num p -> 2 <= num q -> num p * num q < 2 ^ 128 -> num e < 2 ^ 128 ->
  N.lcm (num p - 1) (num q - 1) < 2 ^ 127 ->
  N.gcd (num e) (N.lcm (num p - 1) (num q - 1)) = 1 ->
  exists keys, create_keys p q e = Ok keys.
Proof. exact create_keys_no_check. Qed.

Theorem c49_composite_refuted :
  exists p q e m priv pub c r, ~ prime_N (num p) /\ create_keys p q e = Ok (priv, pub) /\
    canonical m /\ num m < num (pub_n pub) /\
    rsa_encrypt (fun k => k) (rsa_from_public pub) m = Ok c /\
    rsa_decrypt (fun k => k) (rsa_from_private priv) c = Ok r /\ num r <> num m.
Proof. exact create_keys_composite. Qed.

Example c49_case :
  prime_N 5 /\ N.gcd 3 (5 - 1) = 1 /\
  create_keys [5] [5] [3] = Ok ({| priv_n := [25]; priv_d := [3] |}, {| pub_n := [25]; pub_e := [3] |}) /\
  rsa_encrypt (fun k => k) {| rsa_exponent := [3]; rsa_modulo := [25] |} [5] = Ok [] /\
  rsa_decrypt (fun k => k) {| rsa_exponent := [3]; rsa_modulo := [25] |} [] = Ok [].
Proof.
  split; [apply trial_prime; vm_compute; reflexivity|].
  do 3 (split; [vm_compute; reflexivity|]). vm_compute. reflexivity.
Qed.

Print Assumptions c46_rsa_primitive.
Print Assumptions c46_mul_mod.
Print Assumptions c46_pow_mod.
Print Assumptions c47_create_keys.
Print Assumptions c47_not_coprime_panics.
Print Assumptions c47_too_big_panics.
Print Assumptions c47_not_u128_panics.
Print Assumptions c47_any_factors.
Print Assumptions c47_degenerate_factors.
Print Assumptions c47_inverse.
Print Assumptions c47_inverse_from_2_127.
Print Assumptions c47_large_lcm.
Print Assumptions c47_inverse_of_large_modulus_refuted.
Print Assumptions c48_roundtrip.
Print Assumptions c48_roundtrip_below.
Print Assumptions c48_roundtrip_any_key.
Print Assumptions c49_prime_twice_refuted.
Print Assumptions c49_no_prime_check.
Print Assumptions c49_composite_refuted.
