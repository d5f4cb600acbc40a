(** * The structure shared by MD4, MD5 and the SHA family

    A hash function pads the message to blocks and runs a compression function
    over them (Merkle and Damgard). *)
From Verif Require Import Base SpecEndian SpecWord SpecMd SpecSha.
Local Open Scope N_scope.

(** ** What the padding appends to a message of [len] bytes *)

Definition sha_tail (n l len : nat) : list N :=
  0x80 :: repeat 0 ((2 * n - 1 - l - len mod n) mod n)%nat ++ be_bytes l (8 * N.of_nat len).
Definition md_tail (len : nat) : list N :=
  0x80 :: repeat 0 ((119 - len mod 64) mod 64)%nat ++ le_bytes 8 (8 * N.of_nat len mod 2 ^ 64).

(** ** Collisions of the compression function

    [run f bs h]: the state after the blocks [bs], when the compression function
    [f] may panic. *)
Definition run {A} (f : A -> list N -> res A) (bs : list (list N)) (h : A) : res A :=
  fold_left (fun r b => bind r (fun s => f s b)) bs (Ok h).

(** Somewhere in the computations over [bs] and [bs'], both from [h], two
    different inputs of [f] have the same result. (A collision taken from the
    two computations: that collisions exist at all is no news.) *)
Definition step_collision {A} (f : A -> list N -> res A) (h : A) (bs bs' : list (list N)) : Prop :=
  exists i j b b' s s' t,
    nth_error bs i = Some b /\ nth_error bs' j = Some b' /\
    run f (firstn i bs) h = Ok s /\ run f (firstn j bs') h = Ok s' /\
    (s, b) <> (s', b') /\ f s b = Ok t /\ f s' b' = Ok t.

(** For the hash functions that cut off a part of the last state: the two last
    states differ, but not in the first [k] words. *)
Definition truncated_collision (f : list N -> list N -> res (list N)) (h : list N) (k : nat)
    (bs bs' : list (list N)) : Prop :=
  exists s s', run f bs h = Ok s /\ run f bs' h = Ok s' /\ s <> s' /\ firstn k s = firstn k s'.

(** ** Continuing from a digest

    The digest of [m ++ tail ++ x] computed without [m]: from its digest [d] and
    its length [len] only. *)
Definition padded_length (tail : nat -> list N) (len : nat) : nat := (len + length (tail len))%nat.

Definition sha1_extend (d : list N) (len : nat) (x : list N) : list N :=
  let total := (padded_length (sha_tail 64 8) len + length x)%nat in
  concat (map (be_bytes 4)
    (fold_left sha1_compress (groups 64 (x ++ sha_tail 64 8 total)) (map be_num (groups 4 d)))).
Definition sha2_extend (k : sha2_kind) (d : list N) (len : nat) (x : list N) : list N :=
  let n := (16 * s2_word k)%nat in let l := (2 * s2_word k)%nat in
  let total := (padded_length (sha_tail n l) len + length x)%nat in
  concat (map (be_bytes (s2_word k))
    (fold_left (sha2_compress k (sha2_k k)) (groups n (x ++ sha_tail n l total))
       (map be_num (groups (s2_word k) d)))).
Definition state4_of (d : list N) : state4 :=
  match map le_num (groups 4 d) with
  | [a; b; c; e] => (a, b, c, e)
  | _ => (0, 0, 0, 0)
  end.
Definition md_extend step ops (d : list N) (len : nat) (x : list N) : list N :=
  let total := (padded_length md_tail len + length x)%nat in
  md_output (fold_left (md_compress step ops) (groups 64 (x ++ md_tail total)) (state4_of d)).

(** ** Published collisions: MD4 and MD5 by Wang and others (2004-2005), SHA-1 by
    Stevens and others (2017; the first 320 bytes of their two documents) *)
Definition words4 : list N -> list N := fun ws => concat (map (be_bytes 4) ws).
Definition md4_pair : list N * list N :=
  (words4 [
     0x839c7a4d; 0x7a92cb56; 0x78a5d5b9; 0xeea5a757; 0x3c8a74de; 0xb366c3dc; 0x20a083b6; 0x9f5d2a3b;
     0xb3719dc6; 0x9891e9f9; 0x5e809fd7; 0xe8b23ba6; 0x318edd45; 0xe51fe397; 0x08bf9427; 0xe9c3e8b9],
   words4 [
     0x839c7a4d; 0x7a92cbd6; 0x78a5d529; 0xeea5a757; 0x3c8a74de; 0xb366c3dc; 0x20a083b6; 0x9f5d2a3b;
     0xb3719dc6; 0x9891e9f9; 0x5e809fd7; 0xe8b23ba6; 0x318edc45; 0xe51fe397; 0x08bf9427; 0xe9c3e8b9]).
Definition md5_pair : list N * list N :=
  (words4 [
     0xd131dd02; 0xc5e6eec4; 0x693d9a06; 0x98aff95c; 0x2fcab587; 0x12467eab; 0x4004583e; 0xb8fb7f89;
     0x55ad3406; 0x09f4b302; 0x83e48883; 0x2571415a; 0x085125e8; 0xf7cdc99f; 0xd91dbdf2; 0x80373c5b;
     0xd8823e31; 0x56348f5b; 0xae6dacd4; 0x36c919c6; 0xdd53e2b4; 0x87da03fd; 0x02396306; 0xd248cda0;
     0xe99f3342; 0x0f577ee8; 0xce54b670; 0x80a80d1e; 0xc69821bc; 0xb6a88393; 0x96f9652b; 0x6ff72a70],
   words4 [
     0xd131dd02; 0xc5e6eec4; 0x693d9a06; 0x98aff95c; 0x2fcab507; 0x12467eab; 0x4004583e; 0xb8fb7f89;
     0x55ad3406; 0x09f4b302; 0x83e48883; 0x25f1415a; 0x085125e8; 0xf7cdc99f; 0xd91dbd72; 0x80373c5b;
     0xd8823e31; 0x56348f5b; 0xae6dacd4; 0x36c919c6; 0xdd53e234; 0x87da03fd; 0x02396306; 0xd248cda0;
     0xe99f3342; 0x0f577ee8; 0xce54b670; 0x80280d1e; 0xc69821bc; 0xb6a88393; 0x96f965ab; 0x6ff72a70]).
Definition sha1_prefix : list N :=
  words4 [
     0x25504446; 0x2d312e33; 0x0a25e2e3; 0xcfd30a0a; 0x0a312030; 0x206f626a; 0x0a3c3c2f; 0x57696474;
     0x68203220; 0x3020522f; 0x48656967; 0x68742033; 0x20302052; 0x2f547970; 0x65203420; 0x3020522f;
     0x53756274; 0x79706520; 0x35203020; 0x522f4669; 0x6c746572; 0x20362030; 0x20522f43; 0x6f6c6f72;
     0x53706163; 0x65203720; 0x3020522f; 0x4c656e67; 0x74682038; 0x20302052; 0x2f426974; 0x73506572;
     0x436f6d70; 0x6f6e656e; 0x7420383e; 0x3e0a7374; 0x7265616d; 0x0affd8ff; 0xfe002453; 0x48412d31;
     0x20697320; 0x64656164; 0x21212121; 0x21852fec; 0x09233975; 0x9c39b1a1; 0xc63c4c97; 0xe1fffe01].
Definition sha1_pair : list N * list N :=
  (sha1_prefix ++ words4 [
     0x7f46dc93; 0xa6b67e01; 0x3b029aaa; 0x1db2560b; 0x45ca67d6; 0x88c7f84b; 0x8c4c791f; 0xe02b3df6;
     0x14f86db1; 0x690901c5; 0x6b45c153; 0x0afedfb7; 0x6038e972; 0x722fe7ad; 0x728f0e49; 0x04e046c2;
     0x30570fe9; 0xd41398ab; 0xe12ef5bc; 0x942be335; 0x42a4802d; 0x98b5d70f; 0x2a332ec3; 0x7fac3514;
     0xe74ddc0f; 0x2cc1a874; 0xcd0c7830; 0x5a215664; 0x61309789; 0x606bd0bf; 0x3f98cda8; 0x044629a1],
   sha1_prefix ++ words4 [
     0x7346dc91; 0x66b67e11; 0x8f029ab6; 0x21b2560f; 0xf9ca67cc; 0xa8c7f85b; 0xa84c7903; 0x0c2b3de2;
     0x18f86db3; 0xa90901d5; 0xdf45c14f; 0x26fedfb3; 0xdc38e96a; 0xc22fe7bd; 0x728f0e45; 0xbce046d2;
     0x3c570feb; 0x141398bb; 0x552ef5a0; 0xa82be331; 0xfea48037; 0xb8b5d71f; 0x0e332edf; 0x93ac3500;
     0xeb4ddc0d; 0xecc1a864; 0x790c782c; 0x76215660; 0xdd309791; 0xd06bd0af; 0x3f98cda4; 0xbc4629b1]).
