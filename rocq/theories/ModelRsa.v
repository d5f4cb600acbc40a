(** * Model of src/rsa/: mgf.rs, oaep.rs, pad.rs, mod.rs *)
From Verif Require Import Base ModelSha ModelBig.

Section Profile.
Context {P : profile}.

(** ** src/rsa/mgf.rs *)

(** The [while] loop of [mgf1], mgf.rs:15-19. [hasher] is the hash function (any
    [HashFunction] with [Output: Into<[u8; N]>]). *)
Fixpoint mgf1_loop (fuel : nat) (hasher : list N -> res (list N)) (seed_len : nat)
    (hash_content output : list N) (counter : N) (output_size : nat) : res (list N) :=
  if (length output <? output_size)%nat then
    match fuel with
    | O => Panic PFuel
    | S fuel' =>
        let* hash_content :=
          copy_range hash_content seed_len (length hash_content) (to_be 4 counter) in
        let* h := hasher hash_content in
        let output := output ++ h in
        let* counter := cadd 32 counter 1 in
        mgf1_loop fuel' hasher seed_len hash_content output counter output_size
    end
  else Ok output.

(** [mgf1::<N, H>], mgf.rs:3-23. Each iteration adds [N] bytes, so [output_size]
    is enough fuel for [N >= 1]. *)
Definition mgf1 (hasher : list N -> res (list N)) (seed : list N) (output_size : nat)
    : res (list N) :=
  let hash_content := seed ++ [0; 0; 0; 0] in
  let* output := mgf1_loop output_size hasher (length seed) hash_content [] 0 output_size in
  Ok (firstn output_size output).

(** ** src/rsa/oaep.rs *)

(** [xor_slices], oaep.rs:92-95. *)
Definition xor_slices (a b : list N) : res (list N) :=
  if (length a =? length b)%nat then
    mapM (fun i => let* x := idx a i in let* y := idx b i in Ok (N.lxor x y))
         (range 0 (length a))
  else Panic PAssert.

(** The error messages of [decode], oaep.rs:61, 75, 81, 83. *)
Inductive oaep_error : Set :=
| FirstByteNotZero | WrongLabel | MissingOne | SeparatorNotOne.

(** [OaepPadding::encode], oaep.rs:18-52. [hn] is [N], the size of the hash. *)
Definition oaep_encode (hn : nat) (hasher : list N -> res (list N))
    (label message : list N) (n_len : nat) : res (list N) :=
  let* label_hash := hasher label in
  let sub := (length message + 2 * hn + 2)%nat in
  if (n_len <? sub)%nat then Panic PExplicit
  else
    let* ps_len := nsub n_len sub in
    let* k := nsub n_len hn in
    let* _ := nsub k 1 in
    let db := label_hash ++ repeat 0 ps_len ++ [1] ++ message in
    let seed := repeat 42 hn in
    let* k := nsub n_len hn in
    let* k := nsub k 1 in
    let* db_mask := mgf1 hasher seed k in
    let* masked_db := xor_slices db db_mask in
    let* seed_mask := mgf1 hasher masked_db hn in
    let* masked_seed := xor_slices seed seed_mask in
    Ok ([0] ++ masked_seed ++ masked_db).

(** Equality of byte slices ([db[..N] != label_hash], oaep.rs:74). *)
Fixpoint bytes_eqb (a b : list N) : bool :=
  match a, b with
  | [], [] => true
  | x :: a', y :: b' => (x =? y) && bytes_eqb a' b'
  | _, _ => false
  end.

(** [OaepPadding::decode], oaep.rs:54-89. *)
Definition oaep_decode (hn : nat) (hasher : list N -> res (list N))
    (label encoded_message : list N) (n_len : nat)
    : res (result (list N) oaep_error) :=
  let* b0 := idx encoded_message 0 in
  if negb (b0 =? 0) then Ok (RErr FirstByteNotZero)
  else
    let* label_hash := hasher label in
    let* masked_seed := slice encoded_message 1 (hn + 1) in
    let* masked_db := slice_from encoded_message (hn + 1) in
    let* seed_mask := mgf1 hasher masked_db hn in
    let* seed := xor_slices masked_seed seed_mask in
    let* k := nsub n_len hn in
    let* k := nsub k 1 in
    let* db_mask := mgf1 hasher seed k in
    let* db := xor_slices masked_db db_mask in
    let* db0 := slice_to db hn in
    if negb (bytes_eqb db0 label_hash) then Ok (RErr WrongLabel)
    else
      let* rest := slice_from db hn in
      match position (fun b => negb (b =? 0)) rest with
      | None => Ok (RErr MissingOne)
      | Some separator_idx =>
          let* s := idx rest separator_idx in
          if negb (s =? 1) then Ok (RErr SeparatorNotOne)
          else
            let* message := slice_from rest (separator_idx + 1) in
            Ok (ROk message)
      end.

End Profile.

(** ** src/rsa/mod.rs: [PaddingScheme], any implementation *)

(** [trait PaddingScheme], mod.rs:16-25; [E] stands for the error strings. *)
Record padding_scheme (E : Type) := {
  ps_encode : list N -> list N -> nat -> res (list N);
  ps_decode : list N -> list N -> nat -> res (result (list N) E)
}.
Arguments ps_encode {E}.
Arguments ps_decode {E}.

Section Profile.
Context {P : profile}.

(** [RsaPadding], src/rsa/pad.rs:5-20: OAEP with SHA-256 ([HashFunction for
    Sha256], src/sha/sha2.rs:79-85). *)
Definition rsa_padding : padding_scheme oaep_error := {|
  ps_encode := oaep_encode 32 sha256;
  ps_decode := oaep_decode 32 sha256
|}.

(** [PrivateKey], mod.rs:29-33, and [PublicKey], mod.rs:35-39. *)
Record private_key := { priv_n : list N; priv_d : list N }.
Record public_key := { pub_n : list N; pub_e : list N }.

(** [lcm], mod.rs:186-188; [gcd] is the greatest common divisor (documented
    behaviour of the [gcd] crate). *)
Definition lcm (a b : N) : res N :=
  let* p := cmul 128 a b in
  let g := N.gcd a b in
  if g =? 0 then Panic PDivZero else Ok (p / g).

(** [i128] values as [Z]: [as i128] wraps, arithmetic depends on the profile. *)
Definition as_i128 (x : N) : Z :=
  let z := Z.of_N (x mod 2 ^ 128) in
  if (z <? 2 ^ 127)%Z then z else (z - 2 ^ 128)%Z.
Definition as_u128 (z : Z) : N := Z.to_N (z mod 2 ^ 128).
Definition ci128 (z : Z) : res Z :=
  if ((- 2 ^ 127 <=? z) && (z <? 2 ^ 127))%Z%bool then Ok z
  else if overflow_checks then Panic POverflow
  else Ok (as_i128 (Z.to_N (z mod 2 ^ 128)%Z)).

(** The [while] loop of [inverse], mod.rs:194-198. *)
Fixpoint inverse_loop (fuel : nat) (r new_r : N) (t new_t : Z) : res (N * Z) :=
  if new_r =? 0 then Ok (r, t)
  else match fuel with
  | O => Panic PFuel
  | S fuel' =>
      let q := r / new_r in
      let* p := cmul 128 q new_r in
      let* r' := csub 128 r p in
      let* m := ci128 (as_i128 q * new_t) in
      let* t' := ci128 (t - m) in
      inverse_loop fuel' new_r r' new_t t'
  end.

(** [inverse], mod.rs:190-208. Euclid's algorithm on 128-bit numbers needs less
    than 300 steps. *)
Definition inverse (a n : N) : res (option N) :=
  let* (r, t) := inverse_loop 300 n a 0 1 in
  if negb (r =? 1) then Ok None
  else
    let* t := if (t <? 0)%Z then ci128 (t + as_i128 n) else Ok t in
    Ok (Some (as_u128 t)).

(** [create_keys], mod.rs:43-61. *)
Definition create_keys (p q e : list N) : res (private_key * public_key) :=
  let* p := big_as_u128 p in let* p := runwrap p in
  let* q := big_as_u128 q in let* q := runwrap q in
  let* e := big_as_u128 e in let* e := runwrap e in
  let* n := cmul 128 p q in
  let* p1 := csub 128 p 1 in
  let* q1 := csub 128 q 1 in
  let* l := lcm p1 q1 in
  let* d := inverse e l in
  let* d := unwrap d in
  let* n := big_from_u128 n in
  let* d := big_from_u128 d in
  let* e := big_from_u128 e in
  Ok ({| priv_n := n; priv_d := d |}, {| pub_n := n; pub_e := e |}).

(** The [while] loop of [mul_mod], mod.rs:159-167. *)
Fixpoint mul_mod_loop (fuel : nat) (capf : nat -> nat) (r a b m : list N) : res (list N) :=
  let* bits := bits_used b in
  if bits =? 0 then Ok r
  else match fuel with
  | O => Panic PFuel
  | S fuel' =>
      let* s := is_set b 0 in
      let* r := if s then let* r := add_assign r a in rem_assign capf r m else Ok r in
      let a := shl_assign a 1 in
      let* a := rem_assign capf a m in
      let* b := shr_assign b 1 in
      mul_mod_loop fuel' capf r a b m
  end.

(** [mul_mod], mod.rs:154-169. Each iteration shifts [b] right, so the number
    of its bits is enough fuel. *)
Definition mul_mod (capf : nat -> nat) (a b m : list N) : res (list N) :=
  let* r := big_from_u128 0 in
  mul_mod_loop (8 * length b) capf r a b m.

(** [pow_mod], mod.rs:171-184. *)
Definition pow_mod (capf : nat -> nat) (a p m : list N) : res (list N) :=
  let* r := big_from_u128 1 in
  let* steps := bits_used p in
  let* (_, r) := forM (range 0 (ix steps)) (fun i '(a, r) =>
      let* s := is_set p (N.of_nat i) in
      let* r := if s then mul_mod capf r a m else Ok r in
      let* a := mul_mod capf a a m in
      Ok (a, r)) (a, r) in
  Ok r.

(** [RsaEncryption], mod.rs:63-66. *)
Record rsa_encryption := { rsa_exponent : list N; rsa_modulo : list N }.

(** [From<PrivateKey>], mod.rs:68-75, and [From<PublicKey>], mod.rs:77-84. *)
Definition rsa_from_private (k : private_key) : rsa_encryption :=
  {| rsa_exponent := priv_d k; rsa_modulo := priv_n k |}.
Definition rsa_from_public (k : public_key) : rsa_encryption :=
  {| rsa_exponent := pub_e k; rsa_modulo := pub_n k |}.

(** [RsaEncryption::encrypt], mod.rs:135-137. *)
Definition rsa_encrypt (capf : nat -> nat) (k : rsa_encryption) (m : list N) : res (list N) :=
  pow_mod capf m (rsa_exponent k) (rsa_modulo k).

(** [RsaEncryption::decrypt], mod.rs:149-151. *)
Definition rsa_decrypt (capf : nat -> nat) (k : rsa_encryption) (c : list N) : res (list N) :=
  pow_mod capf c (rsa_exponent k) (rsa_modulo k).

(** [RsaEncryption::encrypt_message], mod.rs:121-133. *)
Definition encrypt_message {E} (capf : nat -> nat) (k : rsa_encryption)
    (plaintext : list N) (padding : padding_scheme E) : res (list N) :=
  let* bits := bits_used (rsa_modulo k) in
  let* b := csub 32 bits 1 in
  let* m := ps_encode padding [] plaintext (ix (b / 8) + 1)%nat in
  let* m := big_from_be_bytes m in
  let* lt := big_lt m (rsa_modulo k) in
  if lt then
    let* c := rsa_encrypt capf k m in
    Ok (big_to_be_bytes c)
  else Panic PAssert.

(** [RsaEncryption::decrypt_message], mod.rs:139-147. *)
Definition decrypt_message {E} (capf : nat -> nat) (k : rsa_encryption)
    (ciphertext : list N) (padding : padding_scheme E) : res (list N) :=
  let m := repeat 0 (length ciphertext) in
  let* c := big_from_be_bytes ciphertext in
  let* d := rsa_decrypt capf k c in
  let dec := big_to_be_bytes d in
  let* start := nsub (length m) (length dec) in
  let* m := copy_range m start (length m) dec in
  let* r := ps_decode padding [] m (length m) in
  runwrap r.

End Profile.
