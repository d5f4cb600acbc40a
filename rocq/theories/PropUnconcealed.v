(** * C96: the messages that a key leaves as they are, counted *)
From Verif Require Import Base BaseLemmas ModelBig ModelRsa SpecBig SpecRsa SpecUnconcealed ProofRsa ProofUnconcealed.
From Coq Require Import List.
Import ListNotations.
Local Open Scope N_scope.

(** [encrypt] returns its argument exactly for the numbers of the list. *)
Theorem c96_encrypt : forall capf k key m,
  canonical (rsa_exponent key) -> canonical (rsa_modulo key) -> canonical m ->
  1 < num (rsa_modulo key) -> countable (rsa_exponent key) ->
  (length m + 4 <= k)%nat -> (length (rsa_modulo key) + 4 <= k)%nat -> allocates capf k ->
  rsa_encrypt capf key m = Ok m <-> In (num m) (unconcealed (num (rsa_modulo key)) (num (rsa_exponent key))).
Proof. exact encrypts_to_itself. Qed.
Print Assumptions c96_encrypt.

(** Their number, for every exponent. *)
Theorem c96_count : forall p q, prime_N p -> prime_N q -> p <> q -> forall e, 0 < e ->
  N.of_nat (length (unconcealed (p * q) e)) = (1 + N.gcd (e - 1) (p - 1)) * (1 + N.gcd (e - 1) (q - 1)).
Proof. exact unconcealed_count. Qed.
Print Assumptions c96_count.

(** Hence at least nine if the primes and the exponent are odd. *)
Theorem c96_at_least_nine : forall p q, prime_N p -> prime_N q -> p <> q -> forall e, 2 < p -> 2 < q ->
  e mod 2 = 1 -> (9 <= length (unconcealed (p * q) e))%nat /\ NoDup (unconcealed (p * q) e).
Proof. intros p q Pp Pq Hne e P Q E. exact (conj (at_least_nine p q Pp Pq Hne e P Q E) (unconcealed_nodup _ e)). Qed.
Print Assumptions c96_at_least_nine.

(** If there are exactly nine, all but 0, 1 and n - 1 disclose a prime. *)
Theorem c96_discloses : forall p q, prime_N p -> prime_N q -> p <> q -> forall e m, 2 < p -> 2 < q -> 0 < e ->
  N.gcd (e - 1) (p - 1) = 2 -> N.gcd (e - 1) (q - 1) = 2 ->
  m < p * q -> m ^ e mod (p * q) = m -> m <> 0 -> m <> 1 -> m <> p * q - 1 ->
  exists g, (g = p \/ g = q) /\
    (N.gcd m (p * q) = g \/ N.gcd (m - 1) (p * q) = g \/ N.gcd (m + 1) (p * q) = g).
Proof. exact fixed_discloses. Qed.
Print Assumptions c96_discloses.

(** The primes 11 and 17 with exponent 3. The key with exponent 33, although it is
    invertible modulo lcm(10, 16) = 80, changes 136 of the 187 messages only. *)
Example c96_case :
  unconcealed 187 3 = [0; 1; 33; 34; 67; 120; 153; 154; 186] /\
  (N.gcd 2 10 = 2 /\ N.gcd 2 16 = 2) /\
  (N.gcd 33 187 = 11 /\ N.gcd 34 187 = 17 /\ N.gcd (67 - 1) 187 = 11) /\
  N.gcd 33 80 = 1 /\ (1 + N.gcd 32 10) * (1 + N.gcd 32 16) = 51 /\ length (unconcealed 187 33) = 51%nat.
Proof.
  split; [vm_compute; reflexivity|]. split; [split; vm_compute; reflexivity|].
  split; [split; [|split]; vm_compute; reflexivity|].
  split; [vm_compute; reflexivity|]. split; vm_compute; reflexivity.
Qed.
