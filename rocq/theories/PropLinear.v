(** * Property C95: linear relations between the input and the output of the AES S-box *)
From Verif Require Import Base ModelAes SpecAes SpecLinear ProofAesField ProofLinear.

(** [agreements f u v] counts the inputs for which the xor of the bits of the input
    selected by [u] is the xor of the bits of the output selected by [v]. For the S-box
    of the code it is between 112 and 144 of 256 for every choice of bits ... *)
Theorem c95_linear : forall u v, u < 256 -> 0 < v < 256 -> (112 <= agreements (fun x => nth (N.to_nat x) (forward SBOX) 0%N) u v <= 144)%nat.
Proof. exact sbox_code_linear. Qed.

(** ... where that element of the table is what the code looks up for the byte [x]. *)
Theorem c95_lookup : forall x, x < 256 -> idx (forward SBOX) (ix x) = Ok (nth (N.to_nat x) (forward SBOX) 0%N).
Proof. exact fore_lookup. Qed.

(** Nor is any sum of output bits a sum of input bits and a constant. *)
Theorem c95_not_affine : forall u v b, u < 256 -> 0 < v < 256 ->
  exists x, x < 256 /\ dot v (nth (N.to_nat x) (forward SBOX) 0%N) <> xorb (dot u x) b.
Proof. exact sbox_not_affine. Qed.

(** Both bounds are attained. *)
Example c95_case : exists u v u' v', u < 256 /\ 0 < v < 256 /\ u' < 256 /\ 0 < v' < 256 /\
  agreements (fun x => nth (N.to_nat x) (forward SBOX) 0%N) u v = 112%nat /\ agreements (fun x => nth (N.to_nat x) (forward SBOX) 0%N) u' v' = 144%nat.
Proof. exact linear_attained. Qed.

Print Assumptions c95_linear.
Print Assumptions c95_lookup.
Print Assumptions c95_not_affine.
