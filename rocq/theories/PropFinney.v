(** * C128: RC4 never enters one of its short cycles, src/rc/rc4.rs *)
From Coq Require Import Permutation.
From Verif Require Import Base BaseLemmas ModelBlock ModelRc SpecBlock SpecFinney ProofFinney.
Local Open Scope N_scope.

(** The condition holds after a step exactly if it held before. *)
Theorem c128_step : forall ks k ks',
  Permutation (map N.of_nat (seq 0 256)) (rc4_state ks) /\ rc4_x ks < 256 /\ rc4_y ks < 256 ->
  rc4_next ks = Ok (k, ks') -> finney ks <-> finney ks'.
Proof. exact finney_step. Qed.
Print Assumptions c128_step.

(** It never holds for a key stream made from a key. *)
Theorem c128_never : forall key ks bs ks', key <> [] -> bytes key -> rc4_new key = Ok ks ->
  yields rc4_next ks bs ks' -> ~ finney ks'.
Proof. exact finney_never. Qed.
Print Assumptions c128_never.

(** From a state where it holds, the generator repeats after 255 * 256 bytes, and
    not before. *)
Theorem c128_cycle : forall ks,
  Permutation (map N.of_nat (seq 0 256)) (rc4_state ks) /\ rc4_x ks < 256 /\ rc4_y ks < 256 ->
  finney ks -> exists bs, N.of_nat (length bs) = 65280 /\ yields rc4_next ks bs ks.
Proof. exact finney_cycle. Qed.
Print Assumptions c128_cycle.

Theorem c128_period : forall ks bs,
  Permutation (map N.of_nat (seq 0 256)) (rc4_state ks) /\ rc4_x ks < 256 /\ rc4_y ks < 256 ->
  finney ks -> (exists ks', yields rc4_next ks bs ks') ->
  yields rc4_next ks bs ks <-> N.of_nat (length bs) mod 65280 = 0.
Proof. exact finney_period. Qed.
Print Assumptions c128_period.

(** A state in such a cycle, one step, and a state made from a key. *)
Example c128_case :
  let ks := {| rc4_state := map N.of_nat (seq 0 256); rc4_x := 0; rc4_y := 1 |} in
  finney ks /\
  match rc4_next ks with
  | Ok (Some k, ks') => k = 3 /\ rc4_x ks' = 1 /\ rc4_y ks' = 2 /\ firstn 4 (rc4_state ks') = [0; 2; 1; 3]
  | _ => False
  end /\
  match rc4_new [1; 2; 3] with
  | Ok ks => yields rc4_next ks [] ks /\ rc4_y ks = 0
  | Panic _ => False
  end.
Proof.
  split; [vm_compute; split; reflexivity|]. split; [vm_compute; repeat split|].
  destruct (rc4_new [1; 2; 3]) as [ks|] eqn:E; [|vm_compute in E; discriminate E].
  split; [constructor|]. vm_compute in E. injection E as <-. reflexivity.
Qed.
