(** * C107: RC4 keys with a known beginning *)
From Verif Require Import Base BaseLemmas ModelBlock ModelRc SpecBlock SpecRc SpecFms ProofFms.
From Coq Require Import Lia.
Local Open Scope N_scope.

(** If the beginning of the key is known and resolved, and the pointer of the remaining steps of the
    key scheduling misses three entries, the first byte of the key stream discloses the next byte of
    the key. *)
Theorem c107_next_key_byte : forall known k rest ks z ks', let key := known ++ k :: rest in
  bytes key -> (1 < length known)%nat -> (length key <= 256)%nat -> resolved known ->
  avoids key (length known) 256 [1; nth 1 (fst (setup known (length known))) 0] ->
  avoids key (S (length known)) 256 [N.of_nat (length known)] ->
  rc4_new key = Ok ks -> rc4_next ks = Ok (Some z, ks') -> fms known z = k.
Proof. exact fms_works. Qed.
Print Assumptions c107_next_key_byte.

(** The prefixes (a + 3, 255, x) of a secret whose first [a] bytes are known. *)
Theorem c107_prefix : forall a x secret ks z ks', let key := N.of_nat (a + 3) :: 255 :: x :: secret in
  bytes key -> (a < length secret)%nat -> (length key <= 256)%nat ->
  avoids key 2 256 [0; 1] -> avoids key (a + 4) 256 [N.of_nat (a + 3)] ->
  rc4_new key = Ok ks -> rc4_next ks = Ok (Some z, ks') ->
  fms (N.of_nat (a + 3) :: 255 :: x :: firstn a secret) z = nth a secret 0.
Proof. exact fms_iv. Qed.
Print Assumptions c107_prefix.

(** These prefixes are resolved unless the pointer meets the entries 0 and 1. *)
Theorem c107_resolved : forall a x secret, (a + 3 <= 255)%nat -> x < 256 -> length secret = a ->
  let known := N.of_nat (a + 3) :: 255 :: x :: secret in
  avoids known 2 (a + 3) [0; 1] -> resolved known /\ nth 1 (fst (setup known (length known))) 0 = 0.
Proof. exact iv_resolved. Qed.
Print Assumptions c107_resolved.

(** The secret 1f 2e 3d 4c 5b, of which the first byte is known: its second byte. *)
Example c107_case :
  let secret := [0x1f; 0x2e; 0x3d; 0x4c; 0x5b] in
  avoids (4 :: 255 :: 213 :: secret) 2 256 [0; 1] /\ avoids (4 :: 255 :: 213 :: secret) 5 256 [4] /\
  rc4_stream (4 :: 255 :: 213 :: secret) 1 = [44] /\ fms [4; 255; 213; 0x1f] 44 = 0x2e.
Proof.
  cbv zeta. pose (key := [4; 255; 213; 0x1f; 0x2e; 0x3d; 0x4c; 0x5b]).
  pose (ps := ltac:(let l := eval vm_compute in (scan key 256 0 (map N.of_nat (seq 0 256), 0)) in exact l)).
  assert (E : ps = scan key 256 0 (map N.of_nat (seq 0 256), 0)) by (vm_compute; reflexivity).
  split; [apply (avoids_check key 256 ps _ _ _ E (le_n _)); vm_compute; reflexivity|].
  split; [apply (avoids_check key 256 ps _ _ _ E (le_n _)); vm_compute; reflexivity|].
  split; vm_compute; reflexivity.
Qed.
