(** * Modular arithmetic of src/rsa/mod.rs again, with the sequence of operations

    The same code as [mul_mod_loop], [mul_mod] and [pow_mod] of [ModelRsa], which
    also returns what was done: what an observer of the running time sees. *)
From Verif Require Import Base ModelBig ModelRsa.
Local Open Scope N_scope.

(** [r = mul_mod(&r, &a, m)] mod.rs:179 and [a = mul_mod(&a, &a, m)] mod.rs:181 in
    [pow_mod]; [r += &a] mod.rs:161 and [a <<= 1] mod.rs:164 in [mul_mod]. *)
Inductive op := Multiply | Square | Add | Double.

Section Profile.
Context {P : profile}.

(** mod.rs:159-167. *)
Fixpoint mul_mod_loop_traced (fuel : nat) (capf : nat -> nat) (r a b m : list N) : res (list N * list op) :=
  let* bits := bits_used b in
  if bits =? 0 then Ok (r, [])
  else match fuel with
  | O => Panic PFuel
  | S fuel' =>
      let* s := is_set b 0 in
      let* (r, t) := if s then let* r := add_assign r a in let* r := rem_assign capf r m in Ok (r, [Add])
                     else Ok (r, []) in
      let a := shl_assign a 1 in
      let* a := rem_assign capf a m in
      let* b := shr_assign b 1 in
      let* (r, t') := mul_mod_loop_traced fuel' capf r a b m in
      Ok (r, t ++ Double :: t')
  end.

(** mod.rs:154-169. *)
Definition mul_mod_traced (capf : nat -> nat) (a b m : list N) : res (list N * list op) :=
  let* r := big_from_u128 0 in
  mul_mod_loop_traced (8 * length b) capf r a b m.

(** mod.rs:171-184. *)
Definition pow_mod_traced (capf : nat -> nat) (a p m : list N) : res (list N * list op) :=
  let* r := big_from_u128 1 in
  let* steps := bits_used p in
  let* (_, r, t) := forM (range 0 (ix steps)) (fun i '(a, r, t) =>
      let* s := is_set p (N.of_nat i) in
      let* (r, t) := if s then let* r := mul_mod capf r a m in Ok (r, t ++ [Multiply]) else Ok (r, t) in
      let* a := mul_mod capf a a m in
      Ok (a, r, t ++ [Square])) (a, r, []) in
  Ok (r, t).

End Profile.
