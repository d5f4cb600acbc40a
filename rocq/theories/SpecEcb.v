(** * Decrypting what is appended to a chosen text under ECB

    Somebody encrypts [x ++ secret] for every [x] we ask for. Nothing else is used: no key and no
    decryption. *)
From Verif Require Import Base.
Local Open Scope N_scope.

Section Attack.
  (** The block size and the answers: [oracle x] is the ciphertext for [x ++ secret]. *)
  Context (n : nat) (oracle : list N -> list N).

  Definition piece (q : nat) (l : list N) : list N := firstn n (skipn (q * n) l).

  (** With one byte more than fits the ciphertext gets a block longer, and its length without [x] is
      the length of the secret and these bytes. *)
  Definition secret_length : nat :=
    match find (fun j => negb (length (oracle (repeat 0%N j)) =? length (oracle []))%nat) (seq 1 n) with
    | Some j => length (oracle []) - j
    | None => 0
    end.

  (** The byte after the known ones: zeros move it to the end of a block, whose other bytes are
      then known; the byte is the one that gives the same first block. *)
  Definition next_byte (known : list N) : N :=
    let q := (length known / n)%nat in
    let zeros := repeat 0 (n - 1 - length known mod n) in
    let before := skipn (q * n) (zeros ++ known) in
    match find (fun b => if list_eq_dec N.eq_dec (piece 0 (oracle (before ++ [b]))) (piece q (oracle zeros))
                         then true else false) (map N.of_nat (seq 0 256)) with
    | Some b => b
    | None => 0
    end.

  Fixpoint guess (k : nat) (known : list N) : list N :=
    match k with
    | O => known
    | S k => guess k (known ++ [next_byte known])
    end.

  Definition appended_secret : list N := guess secret_length [].
End Attack.

(** The texts for which an answer is needed: 257 for each byte of the secret, and [n + 1] for its
    length. *)
Definition byte_questions (n : nat) (known : list N) : list (list N) :=
  let zeros := repeat 0 (n - 1 - length known mod n) in
  zeros :: map (fun b => skipn (length known / n * n) (zeros ++ known) ++ [b]) (map N.of_nat (seq 0 256)).
Definition questions (n : nat) (secret : list N) : list (list N) :=
  map (repeat 0) (seq 0 (S n)) ++ flat_map (fun i => byte_questions n (firstn i secret)) (seq 0 (length secret)).
