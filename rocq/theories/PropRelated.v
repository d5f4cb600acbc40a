(** * C103: two messages with a known linear relation, exponent three *)
From Verif Require Import Base BaseLemmas ModelBig ModelRsa SpecBig SpecRsa SpecRelated ProofRsa ProofRelated.
From Coq Require Import List NArith ZArith Lia.
Import ListNotations.
Local Open Scope N_scope.

(** The two ciphertexts give a linear equation for the first message. *)
Theorem c103_equation : forall capf k key m1 m2 c1 c2 (a b : Z),
  canonical (rsa_exponent key) -> canonical (rsa_modulo key) -> canonical m1 -> canonical m2 ->
  1 < num (rsa_modulo key) -> num (rsa_exponent key) = 3 ->
  (length m1 + 4 <= k)%nat -> (length m2 + 4 <= k)%nat -> (length (rsa_modulo key) + 4 <= k)%nat -> allocates capf k ->
  rsa_encrypt capf key m1 = Ok c1 -> rsa_encrypt capf key m2 = Ok c2 ->
  let n := Z.of_N (num (rsa_modulo key)) in
  ((Z.of_N (num m2) - (a * Z.of_N (num m1) + b)) mod n = 0)%Z ->
  let f := related_factor a b (Z.of_N (num c1)) (Z.of_N (num c2)) in
  let v := related_value a b (Z.of_N (num c1)) (Z.of_N (num c2)) in
  ((f * Z.of_N (num m1)) mod n = v mod n)%Z /\
  (Z.gcd f n = 1%Z -> num m1 < num (rsa_modulo key) ->
   forall x, (0 <= x < n)%Z -> ((f * x) mod n = v mod n)%Z -> x = Z.of_N (num m1)).
Proof. exact related. Qed.
Print Assumptions c103_equation.

(** The messages 1000 and 1001 with the primes 53 and 59. *)
Example c103_case :
  let key := {| rsa_exponent := [3]; rsa_modulo := [0x37; 0x0c] |} in
  num [0x37; 0x0c] = 53 * 59 /\
  rsa_encrypt (fun k => k) key [0xe8; 0x03] = Ok [0x0b; 0x04] /\
  rsa_encrypt (fun k => k) key [0xe9; 0x03] = Ok [0x44; 0x08] /\
  Z.of_N (num [0xe8; 0x03]) = 1000%Z /\
  (let f := related_factor 1 1 (Z.of_N (num [0x0b; 0x04])) (Z.of_N (num [0x44; 0x08])) in
   let v := related_value 1 1 (Z.of_N (num [0x0b; 0x04])) (Z.of_N (num [0x44; 0x08])) in
   Z.gcd f 3127 = 1%Z /\ ((f * 1000) mod 3127 = v mod 3127)%Z /\ ((f * 1001) mod 3127 <> v mod 3127)%Z) /\
  allocates (fun k => k) 100.
Proof.
  do 4 (split; [vm_compute; reflexivity|]). split.
  - split; [vm_compute; reflexivity|]. split; [vm_compute; reflexivity|]. vm_compute. discriminate.
  - intros k Hk. unfold capacity_ok. change (2 ^ 29) with 536870912. lia.
Qed.
