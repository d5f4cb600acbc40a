(** * C120: the tables that RC4 keys give, src/rc/rc4.rs *)
From Coq Require Import Permutation.
From Verif Require Import Base BaseLemmas ModelRc SpecRc ProofRc4 ProofStates.
Local Open Scope N_scope.

(** Every permutation of the bytes is the table of some key of 256 bytes, and of more than one. *)
Theorem c120_every_table : forall t, Permutation (map N.of_nat (seq 0 256)) t ->
  exists key key', length key = 256%nat /\ length key' = 256%nat /\ bytes key /\ bytes key' /\ key <> key' /\
    rc4_new key = Ok {| rc4_state := t; rc4_x := 0; rc4_y := 0 |} /\
    rc4_new key' = Ok {| rc4_state := t; rc4_x := 0; rc4_y := 0 |}.
Proof. exact every_state. Qed.
Print Assumptions c120_every_table.

(** Two keys with the table 0, 1, 2, ..., 255. *)
Example c120_case :
  let k := [0; 0; 255] ++ map (fun i => 257 - N.of_nat i) (seq 3 253) in
  let k' := [1; 255; 0] ++ map (fun i => 257 - N.of_nat i) (seq 3 253) in
  bytes k /\ bytes k' /\
  rc4_new k = Ok {| rc4_state := map N.of_nat (seq 0 256); rc4_x := 0; rc4_y := 0 |} /\
  rc4_new k' = Ok {| rc4_state := map N.of_nat (seq 0 256); rc4_x := 0; rc4_y := 0 |}.
Proof. cbv zeta. split; [repeat constructor|]. split; [repeat constructor|]. split; vm_compute; reflexivity. Qed.
