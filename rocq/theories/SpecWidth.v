(** * Targets with pointers of another size *)
From Verif Require Import Base ModelPem SpecEndian SpecMd.
Local Open Scope N_scope.

(** The padding of MD4 and MD5 if only [w] bits of the length are kept ([md_pad] is that of the
    standards, with 64). *)
Definition md_pad_low (w : N) (m : list N) : list N :=
  m ++ 0x80 :: repeat 0 ((119 - length m mod 64) mod 64)%nat ++ le_bytes 8 (8 * N.of_nat (length m) mod 2 ^ w).
Definition md_digest_low (w : N) step ops (m : list N) : list N :=
  md_output (fold_left (md_compress step ops) (groups 64 (md_pad_low w m)) md_init).

(** A value that is missing data, the length of which has more than [w] bits. *)
Fixpoint length_beyond (w : N) (e : asn1_error) : bool :=
  match e with
  | TooLittleData _ expected _ => 2 ^ w <=? expected
  | InSequence e => length_beyond w e
  | _ => false
  end.
