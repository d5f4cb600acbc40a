(** * [decrypt_message] of src/rsa/mod.rs up to its last call

    [unwrap] of an error panics with the error in the message, so a user sees which
    error it was. [decrypt_message] of [ModelRsa] forgets it. *)
From Verif Require Import Base ModelBig ModelRsa.

Section Profile.
Context {P : profile}.

(** [RsaEncryption::decrypt_message] without the final [.unwrap()], mod.rs:139-146. *)
Definition decrypt_message_verbose {E} (capf : nat -> nat) (k : rsa_encryption)
    (ciphertext : list N) (padding : padding_scheme E) : res (result (list N) E) :=
  let m := repeat 0 (length ciphertext) in
  let* c := big_from_be_bytes ciphertext in
  let* d := rsa_decrypt capf k c in
  let dec := big_to_be_bytes d in
  let* start := nsub (length m) (length dec) in
  let* m := copy_range m start (length m) dec in
  ps_decode padding [] m (length m).

End Profile.
