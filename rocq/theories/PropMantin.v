(** * C133: the second byte of RC4 is too often zero, src/rc/rc4.rs *)
From Coq Require Import Permutation.
From Verif Require Import Base BaseLemmas ModelBlock ModelRc SpecBlock SpecMantin ProofMantin ProofMantinCount.
Local Open Scope N_scope.

(** If a key leads to a table with 0 at position 2, the second byte is 0 except if
    there is 2 at position 1 and not 255 at position 4. *)
Theorem c133_second : forall key k1 k2 ks ks', key <> [] -> bytes key -> rc4_new key = Ok ks ->
  yields rc4_next ks [k1; k2] ks' -> nth 2 (rc4_state ks) 0 = 0 ->
  (k2 = 0 <-> mantin ks \/ nth 4 (rc4_state ks) 0 = 255).
Proof. exact second_iff. Qed.
Print Assumptions c133_second.

(** Then the second byte of the message is sent as it is. *)
Theorem c133_clear : forall key ks p1 p2 p c, key <> [] -> bytes key -> rc4_new key = Ok ks -> mantin ks ->
  rc4_encrypt ks (p1 :: p2 :: p) = Ok c -> nth 1 c 0 = p2.
Proof. exact second_clear. Qed.
Print Assumptions c133_clear.

(** Of all tables, at least 1.95 of 256 have the second byte 0, where one of 256
    would be fair. *)
Theorem c133_bias : forall all zeros,
  NoDup all -> (forall t, In t all <-> Permutation (map N.of_nat (seq 0 256)) t) ->
  NoDup zeros -> (forall t, In t zeros <-> In t all /\ exists k ks,
    yields rc4_next {| rc4_state := t; rc4_x := 0; rc4_y := 0 |} [k; 0] ks) ->
  195 * N.of_nat (length all) <= 25600 * N.of_nat (length zeros).
Proof. exact bias. Qed.
Print Assumptions c133_bias.

(** These lists exist. *)
Theorem c133_lists : exists all zeros,
  NoDup all /\ (forall t, In t all <-> Permutation (map N.of_nat (seq 0 256)) t) /\
  NoDup zeros /\ (forall t, In t zeros <-> In t all /\ exists k ks,
    yields rc4_next {| rc4_state := t; rc4_x := 0; rc4_y := 0 |} [k; 0] ks).
Proof. exact tables_exist. Qed.
Print Assumptions c133_lists.

(** Every step (Jenkins' glimpse): if the output was taken from one of the two
    exchanged entries, it discloses the other one. *)
Theorem c133_glimpse : forall ks z ks',
  Permutation (map N.of_nat (seq 0 256)) (rc4_state ks) /\ rc4_x ks < 256 /\ rc4_y ks < 256 ->
  rc4_next ks = Ok (Some z, ks') ->
  let at_ i := nth (N.to_nat i) (rc4_state ks') 0 in
  let x := rc4_x ks' in let y := rc4_y ks' in
  ((at_ x + at_ y) mod 256 = x -> at_ y = (x + 256 - z) mod 256) /\
  ((at_ x + at_ y) mod 256 = y -> at_ x = (y + 256 - z) mod 256).
Proof. exact glimpse. Qed.
Print Assumptions c133_glimpse.

(** The key 00 fd has such a table, and the key 4b b6 has the exception. *)
Definition entries (r : res rc4) : list N :=
  match r with Ok ks => [nth 1 (rc4_state ks) 0; nth 2 (rc4_state ks) 0; nth 4 (rc4_state ks) 0] | Panic _ => [] end.
Example c133_case :
  entries (rc4_new [0; 253]) = [120; 0; 232] /\
  (let* ks := rc4_new [0; 253] in rc4_encrypt ks [1; 2; 3]) = Ok [53; 2; 224] /\
  entries (rc4_new [75; 182]) = [2; 0; 86] /\
  (let* ks := rc4_new [75; 182] in rc4_encrypt ks [0; 0; 0]) = Ok [2; 68; 8].
Proof. do 3 (split; [vm_compute; reflexivity|]). vm_compute. reflexivity. Qed.

(** A step with a glimpse: 7 at position 1, 250 at position 7, and 250 is the output. *)
Definition swapped : list N := map N.of_nat (seq 0 1 ++ [7%nat] ++ seq 2 5 ++ [250%nat] ++ seq 8 242 ++ [1%nat] ++ seq 251 5).
Example c133_step : forallb (fun x => existsb (N.eqb x) swapped) (map N.of_nat (seq 0 256)) = true /\
  length swapped = 256%nat /\
  match rc4_next {| rc4_state := swapped; rc4_x := 0; rc4_y := 0 |} with
  | Ok (Some z, ks) => z = 250 /\ rc4_x ks = 1 /\ rc4_y ks = 7 /\
      nth 1 (rc4_state ks) 0 = 250 /\ nth 7 (rc4_state ks) 0 = 7 /\ (1 + 256 - z) mod 256 = 7
  | _ => False
  end.
Proof. split; [vm_compute; reflexivity|]. split; [reflexivity|]. vm_compute. repeat split. Qed.
