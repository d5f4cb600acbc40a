(** * Modular arithmetic once more, with the work that is done

    The same code as [rem_assign] of [ModelBig] and [mul_mod] and [pow_mod] of [ModelRsa], which also
    returns the length of the longest vector in each comparison, addition, subtraction and shift
    of numbers. (Counting the bits of a number, [bits_used], looks at its last byte only.) *)
From Verif Require Import Base ModelBig ModelRsa.
Local Open Scope N_scope.

Section Profile.
Context {P : profile}.

(** The vectors of [add_assign] uint.rs:142-168 ([a] or [rhs] with a zero byte appended), [sub_assign]
    uint.rs:198-221 (the complement with the capacity of its vector, and the sum), [shl_assign]
    uint.rs:255-276 (one byte and [rhs / 8] zero bytes appended), [shr_assign] and [cmp]. *)
Definition add_size (a rhs : list N) : nat := (Nat.max (length a) (length rhs) + 1)%nat.
Definition sub_size (capf : nat -> nat) (a : list N) : nat := (Nat.max (capf (length a + 1)) (length a + 1) + 1)%nat.
Definition shl_size (a : list N) (rhs : N) : nat := (length a + 1 + ix (rhs / 8)%N)%nat.
Definition shr_size (a : list N) : nat := length a.
Definition cmp_size (a b : list N) : nat := Nat.max (length a) (length b).

(** [RemAssign<&BigUint>::rem_assign], uint.rs:235-251. *)
Definition rem_assign_sized (capf : nat -> nat) (a rhs : list N) : res (list N * list nat) :=
  let* rb := bits_used rhs in
  let* ab := bits_used a in
  if ab <? rb then Ok (a, [])
  else
    let* d := csub 32 ab rb in
    let m := shl_assign rhs d in
    let* (a, _, t) := forM (rev (range 0 (ix d + 1))) (fun _ '(a, m, t) =>
        let* le := big_le m a in
        let t := t ++ [cmp_size m a] in
        let* (a, t) := if le then let* r := sub_assign capf a m in Ok (r, t ++ [sub_size capf a]) else Ok (a, t) in
        let* m' := shr_assign m 1 in
        Ok (a, m', t ++ [shr_size m])) (a, m, [shl_size rhs d]) in
    Ok (a, t).

(** mod.rs:159-167. *)
Fixpoint mul_mod_loop_sized (fuel : nat) (capf : nat -> nat) (r a b m : list N) : res (list N * list nat) :=
  let* bits := bits_used b in
  if bits =? 0 then Ok (r, [])
  else match fuel with
  | O => Panic PFuel
  | S fuel' =>
      let* s := is_set b 0 in
      let* (r, t1) := if s then let* r' := add_assign r a in let* (r', t) := rem_assign_sized capf r' m in
                                Ok (r', add_size r a :: t)
                      else Ok (r, []) in
      let* (a', t2) := rem_assign_sized capf (shl_assign a 1) m in
      let* b' := shr_assign b 1 in
      let* (r, t3) := mul_mod_loop_sized fuel' capf r a' b' m in
      Ok (r, t1 ++ (shl_size a 1 :: t2) ++ [shr_size b] ++ t3)
  end.

(** [mul_mod], mod.rs:154-169. *)
Definition mul_mod_sized (capf : nat -> nat) (a b m : list N) : res (list N * list nat) :=
  let* r := big_from_u128 0 in
  mul_mod_loop_sized (8 * length b) capf r a b m.

(** [pow_mod], mod.rs:171-184. *)
Definition pow_mod_sized (capf : nat -> nat) (a p m : list N) : res (list N * list nat) :=
  let* r := big_from_u128 1 in
  let* steps := bits_used p in
  let* (_, r, t) := forM (range 0 (ix steps)) (fun i '(a, r, t) =>
      let* s := is_set p (N.of_nat i) in
      let* (r, t) := if s then let* (r, t') := mul_mod_sized capf r a m in Ok (r, t ++ t') else Ok (r, t) in
      let* (a, t') := mul_mod_sized capf a a m in
      Ok (a, r, t ++ t')) (a, r, []) in
  Ok (r, t).

End Profile.
