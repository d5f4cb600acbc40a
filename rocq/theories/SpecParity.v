(** * Reading a number from one bit of its multiples

    The attacker asks one question about each of the numbers [2^1 m], [2^2 m], ... (modulo [n]); the answers
    are the binary digits of [m / n]. *)
From Verif Require Import Base BaseLemmas ModelBig ModelRsa SpecEndian SpecBig.
Local Open Scope N_scope.

(** The number with the binary digits [o 1], ..., [o k]. *)
Fixpoint answers (o : N -> bool) (k : nat) : N :=
  match k with
  | O => 0
  | S k' => 2 * answers o k' + (if o (N.of_nat k) then 1 else 0)
  end.

(** The answers times [n / 2^k], rounded up; as many questions as [n] has binary digits. *)
Definition read_off (o : N -> bool) (n : N) : N :=
  let k := N.size n in
  (answers o (N.to_nat k) * n + (2 ^ k - 1)) / 2 ^ k.

(** What a program discloses of the number that it decrypts: whether it is odd, or whether it is at
    least half the modulus. The ciphertext is given as a number. *)
Definition decrypts_to (capf : nat -> nat) (key : rsa_encryption) (c : N) : N :=
  match (let* c := big_from_be_bytes (be_bytes (length (rsa_modulo key)) c) in rsa_decrypt capf key c) with
  | Ok m => num m
  | Panic _ => 0
  end.
Definition odd_answer capf key c : bool := N.odd (decrypts_to capf key c).
Definition half_answer capf key c : bool := num (rsa_modulo key) <=? 2 * decrypts_to capf key c.
