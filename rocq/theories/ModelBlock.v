(** * Model of src/lib.rs: block cipher modes, block encryption, stream cipher *)
From Verif Require Import Base ModelPad.

(** [trait BlockCipher<N>], src/lib.rs:35-39: an arbitrary implementation. Its
    methods take [&self], so they are functions; they may panic. *)
Record block_cipher := {
  bc_encrypt : list N -> res (list N);
  bc_decrypt : list N -> res (list N)
}.

(** [trait BlockCipherMode<N>], src/lib.rs:41-45: an arbitrary implementation
    with state [S] ([&mut self]). *)
Record cipher_mode (S : Type) := {
  cm_encrypt_block : block_cipher -> S -> list N -> res (S * list N);
  cm_decrypt_block : block_cipher -> S -> list N -> res (S * list N)
}.
Arguments cm_encrypt_block {S}.
Arguments cm_decrypt_block {S}.

Section Profile.
Context {P : profile}.

(** [EcbMode<N>], src/lib.rs:47-57. *)
Definition ecb_mode : cipher_mode unit := {|
  cm_encrypt_block := fun cipher s block =>
    let* b := bc_encrypt cipher block in Ok (s, b);
  cm_decrypt_block := fun cipher s block =>
    let* b := bc_decrypt cipher block in Ok (s, b)
|}.

(** [BlockEncryption::encrypt], src/lib.rs:62-88. The callback's bytes are the
    first component of the result. *)
Definition be_encrypt {S} (n : nat) (cipher : block_cipher) (mode : cipher_mode S)
    (st : S) (plaintext : list N) : out unit :=
  let! (blocks, last_part) := olift (chunks_exact n plaintext) in
  let! last_block := olift (pkcs_pad n last_part) in
  let! st := forO blocks (fun block st =>
      let! block := olift (to_array n block) in
      let! (st, output_block) := olift (cm_encrypt_block mode cipher st block) in
      let! _ := oemit output_block in
      oret st) st in
  let! (_, output_block) := olift (cm_encrypt_block mode cipher st last_block) in
  oemit output_block.

(** [BlockEncryption::decrypt], src/lib.rs:90-123. *)
Definition be_decrypt {S} (n : nat) (cipher : block_cipher) (mode : cipher_mode S)
    (st : S) (ciphertext : list N) : out unit :=
  let! (blocks, remainder) := olift (chunks_exact n ciphertext) in
  match remainder with
  | _ :: _ => olift (Panic PExplicit)
  | [] =>
    let! (_, next_output) := forO blocks (fun block '(st, next_output) =>
        let! block := olift (to_array n block) in
        let! (st, output_block) := olift (cm_decrypt_block mode cipher st block) in
        let! _ := match next_output with
                  | Some o => oemit o
                  | None => oret tt
                  end in
        oret (st, Some output_block)) (st, None) in
    let! next_output := olift (unwrap next_output) in
    let! last_block_len := olift (pkcs_unpad n next_output) in
    let! bs := olift (slice_to next_output last_block_len) in
    oemit bs
  end.

(** An arbitrary [Iterator<Item = u8>] with state [K]. *)
Definition key_iter (K : Type) := K -> res (option N * K).

(** The iterator returned by [StreamCipher::encrypt], src/lib.rs:137-139: [next] of
    [data.into_iter().map(..)] takes a byte of the data, an arbitrary iterator
    with state [D], and then one of the keys. *)
Definition sc_next {D K} (next_data : key_iter D) (next_key : key_iter K) : key_iter (D * K) :=
  fun '(data, keys) =>
  let* (o, data) := next_data data in
  match o with
  | None => Ok (None, (data, keys))
  | Some d =>
      let* (o, keys) := next_key keys in
      let* k := unwrap o in
      Ok (Some (N.lxor k d), (data, keys))
  end.

(** [StreamCipher::encrypt], src/lib.rs:126-140, on a list of bytes and consumed to
    the end. Returns the bytes and the advanced key iterator (the [StreamCipher]
    itself). *)
Fixpoint sc_encrypt {K} (next : key_iter K) (keys : K) (data : list N)
    : res (list N * K) :=
  match data with
  | [] => Ok ([], keys)
  | d :: data' =>
      let* (o, keys) := next keys in
      let* k := unwrap o in
      let* (bs, keys) := sc_encrypt next keys data' in
      Ok (N.lxor k d :: bs, keys)
  end.

End Profile.
