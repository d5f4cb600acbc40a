(** * The size of an ASN.1 value *)
From Coq Require Import List Arith.
From Verif Require Import ModelPem.

(** Number of values, itself included. *)
Fixpoint nodes (a : asn1) : nat :=
  match a with
  | Sequence es => S (list_sum (map nodes es))
  | _ => 1
  end.

(** Number of bytes that it holds. *)
Fixpoint held (a : asn1) : nat :=
  match a with
  | Integer b | OctetString b | ObjectIdentifier b => length b
  | BitString b _ => S (length b)
  | Null => 0
  | Sequence es => list_sum (map held es)
  end.
