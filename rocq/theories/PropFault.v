(** * C122: one wrong bit in the private exponent, src/rsa/mod.rs *)
From Verif Require Import Base BaseLemmas ModelBig ModelRsa SpecEndian SpecBig SpecRsa SpecFault ProofFault.
Local Open Scope N_scope.

(** A decryption and the same with bit [i] of the exponent inverted tell what the bit was. *)
Theorem c122_one_fault : forall capf k n d c,
  canonical n -> canonical d -> canonical c -> 1 < num n -> countable d ->
  (length c + 4 <= k)%nat -> (length n + 4 <= k)%nat -> allocates capf k -> N.gcd (num c) (num n) = 1 ->
  forall d' i m m', canonical d' -> countable d' -> num d' = N.lxor (num d) (2 ^ i) ->
  num c ^ (2 ^ (i + 1)) mod num n <> 1 ->
  rsa_decrypt capf {| rsa_exponent := d; rsa_modulo := n |} c = Ok m ->
  rsa_decrypt capf {| rsa_exponent := d'; rsa_modulo := n |} c = Ok m' ->
  was_set (num n) (num c) (num m) (num m') i = N.testbit (num d) i.
Proof. exact one_fault. Qed.
Print Assumptions c122_one_fault.

(** As many faults as the exponent has bits tell the exponent. *)
Theorem c122_all_faults : forall capf k n d c,
  canonical n -> canonical d -> canonical c -> 1 < num n -> countable d ->
  (length c + 4 <= k)%nat -> (length n + 4 <= k)%nat -> allocates capf k -> N.gcd (num c) (num n) = 1 ->
  forall (d' : N -> list N) m (m' : N -> list N) l, num d < 2 ^ N.of_nat l ->
  (forall i, i < N.of_nat l -> canonical (d' i) /\ countable (d' i) /\ num (d' i) = N.lxor (num d) (2 ^ i) /\
    num c ^ (2 ^ (i + 1)) mod num n <> 1 /\
    rsa_decrypt capf {| rsa_exponent := d' i; rsa_modulo := n |} c = Ok (m' i)) ->
  rsa_decrypt capf {| rsa_exponent := d; rsa_modulo := n |} c = Ok m ->
  with_bits (fun i => was_set (num n) (num c) (num m) (num (m' i)) i) l = num d.
Proof. exact all_faults. Qed.
Print Assumptions c122_all_faults.

(** The modulus 3233 and the exponent 413, of nine bits. *)
Example c122_case :
  let n := [161; 12] in
  let d := [157; 1] in
  let c := [230; 10] in
  let flipped i := le_bytes (if i =? 8 then 1%nat else 2%nat) (N.lxor 413 (2 ^ i)) in
  let dec e := match rsa_decrypt (fun k => k) {| rsa_exponent := e; rsa_modulo := n |} c with Ok m => num m | Panic _ => 0 end in
  N.gcd (num c) (num n) = 1 /\
  forallb (fun i => (num (flipped i) =? N.lxor (num d) (2 ^ i)) && negb (last (flipped i) 0 =? 0) &&
                    negb (num c ^ (2 ^ (i + 1)) mod num n =? 1))%bool (map N.of_nat (seq 0 9)) = true /\
  dec d = 65 /\ map (fun i => dec (flipped i)) [0; 1; 8] = [3065; 2000; 1571] /\
  with_bits (fun i => was_set (num n) (num c) (dec d) (dec (flipped i)) i) 9 = 413.
Proof. cbv zeta. do 4 (split; [vm_compute; reflexivity|]). vm_compute. reflexivity. Qed.
