(** * src/aes/cipher.rs again, with the places of the tables that are read

    The same code as [aes_encrypt] and [aes_decrypt] of [ModelAes], which also returns the indices
    into [SBOX.forward] and [SBOX.backward]: what is visible in a shared cache. *)
From Verif Require Import Base ModelAes.
Local Open Scope N_scope.

Section Profile.
Context {P : profile}.

(** [Substitute::forward] and [Substitute::backward], cipher.rs:34-44, with a table of the two. *)
Definition substitute_traced (table : list N) (state t : list N) : res (list N * list N) :=
  let* l := mapM (fun b => let* v := idx table (ix b) in Ok (v, b)) state in
  Ok (map fst l, t ++ map snd l).

(** [Aes::encrypt], cipher.rs:160-178. *)
Definition aes_encrypt_traced (c : aes) (plaintext : list N) : res (list N * list N) :=
  let state := plaintext in
  let* k0 := idx (aes_keys c) 0 in
  let* state := add_key k0 state in
  let* (state, t) := forM (range 1 (aes_rounds c)) (fun k '(state, t) =>
      let* (state, t) := substitute_traced (forward SBOX) state t in
      let* state := shift_rows_forward state in
      let* state := mix_columns_forward state in
      let* kk := idx (aes_keys c) k in
      let* state := add_key kk state in
      Ok (state, t)) (state, []) in
  let* (state, t) := substitute_traced (forward SBOX) state t in
  let* state := shift_rows_forward state in
  let* kr := idx (aes_keys c) (aes_rounds c) in
  let* state := add_key kr state in
  Ok (state, t).

(** [Aes::decrypt], cipher.rs:180-198. *)
Definition aes_decrypt_traced (c : aes) (ciphertext : list N) : res (list N * list N) :=
  let state := ciphertext in
  let* kr := idx (aes_keys c) (aes_rounds c) in
  let* state := add_key kr state in
  let* state := shift_rows_backward state in
  let* (state, t) := substitute_traced (backward SBOX) state [] in
  let* (state, t) := forM (rev (range 1 (aes_rounds c))) (fun k '(state, t) =>
      let* kk := idx (aes_keys c) k in
      let* state := add_key kk state in
      let* state := mix_columns_backward state in
      let* state := shift_rows_backward state in
      substitute_traced (backward SBOX) state t) (state, t) in
  let* k0 := idx (aes_keys c) 0 in
  let* state := add_key k0 state in
  Ok (state, t).

End Profile.
