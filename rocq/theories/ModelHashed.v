(** * [decrypt_message] of src/rsa/mod.rs again, with the hashes it computes

    The definitions of [ModelRsa] in a monad that also records the length of
    every input given to the hash function. The time of a hash depends on this
    length alone (C125 for SHA-256), so this is what a clock shows at least. *)
From Verif Require Import Base ModelSha ModelBig ModelRsa.

(** A program with the lengths of the inputs it has hashed. *)
Definition hr (A : Type) : Type := (list nat * res A)%type.
Definition hlift {A} (r : res A) : hr A := ([], r).
Definition hbind {A B} (m : hr A) (f : A -> hr B) : hr B :=
  match m with
  | (e, Ok a) => let (e', r) := f a in (e ++ e', r)
  | (e, Panic p) => (e, Panic p)
  end.
Notation "'let#' x ':=' m 'in' k" := (hbind m (fun x => k))
  (at level 200, x pattern, m at level 100, k at level 200, right associativity).

(** One call of the hash function. *)
Definition hcall (hasher : list N -> res (list N)) (x : list N) : hr (list N) :=
  ([length x], hasher x).

Section Profile.
Context {P : profile}.

(** The [while] loop of [mgf1], src/rsa/mgf.rs:15-19. *)
Fixpoint h_mgf1_loop (fuel : nat) (hasher : list N -> res (list N)) (seed_len : nat)
    (hash_content output : list N) (counter : N) (output_size : nat) : hr (list N) :=
  if (length output <? output_size)%nat then
    match fuel with
    | O => hlift (Panic PFuel)
    | S fuel' =>
        let# hash_content := hlift
          (copy_range hash_content seed_len (length hash_content) (to_be 4 counter)) in
        let# h := hcall hasher hash_content in
        let# counter := hlift (cadd 32 counter 1) in
        h_mgf1_loop fuel' hasher seed_len hash_content (output ++ h) counter output_size
    end
  else hlift (Ok output).

(** [mgf1::<N, H>], src/rsa/mgf.rs:3-23. *)
Definition h_mgf1 (hasher : list N -> res (list N)) (seed : list N) (output_size : nat)
    : hr (list N) :=
  let# output := h_mgf1_loop output_size hasher (length seed) (seed ++ [0; 0; 0; 0]) [] 0
    output_size in
  hlift (Ok (firstn output_size output)).

(** [OaepPadding::decode], src/rsa/oaep.rs:54-89. *)
Definition h_oaep_decode (hn : nat) (hasher : list N -> res (list N))
    (label encoded_message : list N) (n_len : nat)
    : hr (result (list N) oaep_error) :=
  let# b0 := hlift (idx encoded_message 0) in
  if negb (b0 =? 0) then hlift (Ok (RErr FirstByteNotZero))
  else
    let# label_hash := hcall hasher label in
    let# masked_seed := hlift (slice encoded_message 1 (hn + 1)) in
    let# masked_db := hlift (slice_from encoded_message (hn + 1)) in
    let# seed_mask := h_mgf1 hasher masked_db hn in
    let# seed := hlift (xor_slices masked_seed seed_mask) in
    let# k := hlift (nsub n_len hn) in
    let# k := hlift (nsub k 1) in
    let# db_mask := h_mgf1 hasher seed k in
    let# db := hlift (xor_slices masked_db db_mask) in
    let# db0 := hlift (slice_to db hn) in
    if negb (bytes_eqb db0 label_hash) then hlift (Ok (RErr WrongLabel))
    else
      let# rest := hlift (slice_from db hn) in
      match position (fun b => negb (b =? 0)) rest with
      | None => hlift (Ok (RErr MissingOne))
      | Some separator_idx =>
          let# s := hlift (idx rest separator_idx) in
          if negb (s =? 1) then hlift (Ok (RErr SeparatorNotOne))
          else
            let# message := hlift (slice_from rest (separator_idx + 1)) in
            hlift (Ok (ROk message))
      end.

(** [RsaEncryption::decrypt_message], src/rsa/mod.rs:139-147, with [RsaPadding],
    src/rsa/pad.rs:5-20. *)
Definition h_decrypt_message (capf : nat -> nat) (k : rsa_encryption) (ciphertext : list N)
    : hr (list N) :=
  let m := repeat 0 (length ciphertext) in
  let# c := hlift (big_from_be_bytes ciphertext) in
  let# d := hlift (rsa_decrypt capf k c) in
  let dec := big_to_be_bytes d in
  let# start := hlift (nsub (length m) (length dec)) in
  let# m := hlift (copy_range m start (length m) dec) in
  let# r := h_oaep_decode 32 sha256 [] m (length m) in
  hlift (runwrap r).

End Profile.
