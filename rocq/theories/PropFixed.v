(** * Property C88: fixed points of the compression functions *)
From Verif Require Import Base ModelMd ModelSha SpecMerkle SpecFixed ProofFixed.

(** With a given block, the compression function adds every value to exactly one state. *)
Theorem c88_sha1 : forall b, length b = 64%nat -> bytes b -> adds_each sha1_process_chunk 32 5 b.
Proof. exact sha1_adds. Qed.

Theorem c88_sha256 : forall b, length b = 64%nat -> bytes b -> adds_each sha2_process_chunk 32 8 b.
Proof. exact sha256_adds. Qed.

Theorem c88_sha512 : forall b, length b = 128%nat -> bytes b -> adds_each sha2_process_big_chunk 64 8 b.
Proof. exact sha512_adds. Qed.

Theorem c88_md4 : forall n b, length b = 64%nat -> adds_each (md_chunk md4_process n) 32 4 b.
Proof. exact md4_adds. Qed.

Theorem c88_md5 : forall n b, length b = 64%nat -> adds_each (md_chunk md5_process n) 32 4 b.
Proof. exact md5_adds. Qed.

(** So every block has exactly one state that it does not change, and the block can be
    repeated there without an effect on the state. *)
Theorem c88_fixed_point : forall f w n b, adds_each f w n b -> one_fixed_point f w n b.
Proof. exact fixed_of_adds. Qed.

Theorem c88_repeat : forall (f : list N -> list N -> res (list N)) h b k,
  f h b = Ok h -> run f (repeat b k) h = Ok h.
Proof. exact (fun f h b k => fixed_repeat f h b k). Qed.

(** The states that a block of zeros does not change. *)
Example c88_case :
  let b := repeat 0 64 in
  let h1 := [589888211; 1964022592; 1058149505; 48357110; 3486994072] in
  let h2 := [4173931935; 2767574919; 3044061097; 563177126; 909573212; 816588945; 1439747151; 4239700029] in
  let h4 := [2283564561; 1385497857; 1848939614; 3610808511] in
  let h5 := [1277938655; 1822242442; 1034011652; 3766461853] in
  sha1_process_chunk h1 b = Ok h1 /\ sha2_process_chunk h2 b = Ok h2 /\
  md_chunk md4_process 64 h4 b = Ok h4 /\ md_chunk md5_process 64 h5 b = Ok h5.
Proof.
  split; [vm_compute; reflexivity|]. split; [vm_compute; reflexivity|].
  split; [vm_compute; reflexivity|]. vm_compute. reflexivity.
Qed.

Print Assumptions c88_sha1.
Print Assumptions c88_sha256.
Print Assumptions c88_sha512.
Print Assumptions c88_md4.
Print Assumptions c88_md5.
Print Assumptions c88_fixed_point.
Print Assumptions c88_repeat.
