(** * What block encryption and stream encryption should do

    From the model only the interfaces (the trait records) are used, and
    [sc_encrypt] to say what encrypting piece by piece means. *)
From Coq Require Import List NArith.
From Verif Require Import Base ModelBlock.
Import ListNotations.
Open Scope N_scope.

(** [bs] is the decomposition of [l] into blocks of [n] bytes. *)
Definition blocks_of (n : nat) (l : list N) (bs : list (list N)) : Prop :=
  Forall (fun b => length b = n) bs /\ concat bs = l.

(** PKCS#7 padding of a whole message. *)
Definition pkcs_message (n : nat) (p : list N) : list N :=
  let k := (n - length p mod n)%nat in p ++ repeat (N.of_nat k) k.

(** The same with the pad byte cut to eight bits, for blocks of any size. *)
Definition wide_message (n : nat) (p : list N) : list N :=
  let k := (n - length p mod n)%nat in p ++ repeat (N.of_nat k mod 256) k.

(** Running a stateful block transformation over blocks: the output blocks up to
    the first panic, and the final state or that panic. *)
Fixpoint run_mode {S} (f : S -> list N -> res (S * list N)) (st : S)
    (bs : list (list N)) : list (list N) * res S :=
  match bs with
  | [] => ([], Ok st)
  | b :: bs' =>
      match f st b with
      | Panic r => ([], Panic r)
      | Ok (st', o) => let (os, r) := run_mode f st' bs' in (o :: os, r)
      end
  end.

(** The same result without its value. *)
Definition discard {A} (r : res A) : res unit :=
  match r with Ok _ => Ok tt | Panic p => Panic p end.

(** A key stream: the iterator delivers the bytes [ks] and is then [k']. *)
Inductive yields {K} (next : K -> res (option N * K)) : K -> list N -> K -> Prop :=
| yields_nil k : yields next k [] k
| yields_cons k b k1 bs k2 :
    next k = Ok (Some b, k1) -> yields next k1 bs k2 -> yields next k (b :: bs) k2.

(** Bytewise xor of two equally long lists. *)
Fixpoint xor_bytes (a b : list N) : list N :=
  match a, b with
  | x :: a', y :: b' => N.lxor x y :: xor_bytes a' b'
  | _, _ => []
  end.

(** Decrypting inverts encrypting one block, when the two states correspond;
    the states then still correspond. *)
Definition mode_inverse {S} (n : nat) (cipher : block_cipher) (mode : cipher_mode S)
    (R : S -> S -> Prop) : Prop :=
  forall se sd b, R se sd -> length b = n -> bytes b ->
  exists se' c sd',
    cm_encrypt_block mode cipher se b = Ok (se', c) /\ length c = n /\
    cm_decrypt_block mode cipher sd c = Ok (sd', b) /\ R se' sd'.

(** Decryption inverts encryption, on blocks of [n] bytes. *)
Definition cipher_inverse (n : nat) (cipher : block_cipher) : Prop :=
  forall b, length b = n -> bytes b ->
  exists c, bc_encrypt cipher b = Ok c /\ length c = n /\ bytes c /\
            bc_decrypt cipher c = Ok b.

(** Encrypting the pieces one after another. *)
Fixpoint sc_pieces {K} (next : key_iter K) (k : K) (ds : list (list N)) : res (list (list N) * K) :=
  match ds with
  | [] => Ok ([], k)
  | d :: ds' =>
      let* (c, k) := sc_encrypt next k d in
      let* (cs, k) := sc_pieces next k ds' in
      Ok (c :: cs, k)
  end.

(** A mode that a user of the library would write: cipher block chaining, with
    the previous ciphertext block as state. *)
Definition cbc_mode : cipher_mode (list N) := {|
  cm_encrypt_block := fun cipher prev block =>
    let* c := bc_encrypt cipher (xor_bytes prev block) in Ok (c, c);
  cm_decrypt_block := fun cipher prev block =>
    let* b := bc_decrypt cipher block in Ok (block, xor_bytes prev b)
|}.
