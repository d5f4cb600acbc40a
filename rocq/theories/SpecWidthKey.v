(** * Key files on targets with pointers of another size *)
From Verif Require Import Base ModelPem ModelKey SpecEndian SpecAsn1 SpecWidth.
Local Open Scope N_scope.

(** The file is rejected because of a length of more than [w] bits. *)
Definition key_length_beyond (w : N) (e : key_error) : bool :=
  match e with KParse e | KInnerParse e => length_beyond w e | _ => false end.

(** The tag, the length of the contents plus [2^w] in 16 digits, the contents. *)
Definition beyond (w t : N) (c : list N) : list N := t :: 144 :: be_bytes 16 (size c + 2 ^ w) ++ c.
