(** * C104: the work and the memory of the ASN.1 parser *)
From Verif Require Import Base BaseLemmas ModelPem ModelCalls SpecAsn1 SpecCalls ProofCalls.
Local Open Scope N_scope.

(** The counting parser is the parser of the model: same value, same error, same
    panic, in both profiles. *)
Theorem c104_erase : forall (P : profile) fuel bs, snd (parse_calls fuel bs) = parse_from_bytes fuel bs.
Proof. exact @parse_erase. Qed.
Print Assumptions c104_erase.

(** Whatever the input (valid, rejected or crashing), the calls of [parse_from_bytes] are
    at most half as many as its bytes, and one. *)
Theorem c104_calls : forall (P : profile) bs, (try_from_calls bs <= length bs / 2 + 1)%nat.
Proof. exact @calls_bound. Qed.
Print Assumptions c104_calls.

(** For an accepted input they are the values in the result. *)
Theorem c104_success : forall (P : profile) bs v,
  asn1_try_from bs = Ok (ROk v) -> try_from_calls bs = nodes v.
Proof. exact @calls_nodes. Qed.
Print Assumptions c104_success.

(** The result holds no more than the input: two bytes pay for each value, and the
    rest for the bytes in it. *)
Theorem c104_held : forall bs v, bytes bs ->
  asn1_try_from bs = Ok (ROk v) -> (held v + 2 * nodes v <= length bs)%nat.
Proof. exact try_from_held. Qed.
Print Assumptions c104_held.

(** A SEQUENCE of two values attains the second bound, a nested SEQUENCE with a
    byte too many the first. *)
Example c104_case :
  asn1_try_from [0x30; 5; 2; 1; 9; 5; 0] = Ok (ROk (Sequence [Integer [9]; Null])) /\
  try_from_calls [0x30; 5; 2; 1; 9; 5; 0] = 3%nat /\
  nodes (Sequence [Integer [9]; Null]) = 3%nat /\ held (Sequence [Integer [9]; Null]) = 1%nat /\
  try_from_calls [0x30; 5; 5; 0; 0x30; 1; 7] = 4%nat /\
  asn1_try_from [0x30; 5; 5; 0; 0x30; 1; 7] = Ok (RErr (InSequence (InSequence TagNoLength))) /\
  try_from_calls [] = 1%nat.
Proof. repeat split; vm_compute; reflexivity. Qed.
