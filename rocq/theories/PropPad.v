(** * Properties C01-C06: src/pad.rs *)
From Verif Require Import Base ModelPad SpecPad ProofPad.

(** C01. *)
Theorem c01_pkcs_roundtrip : forall n p,
  (1 <= n <= 255)%nat -> (length p < n)%nat ->
  exists b, pkcs_pad n p = Ok b /\ length b = n /\ firstn (length p) b = p /\
            pkcs_unpad n b = Ok (length p).
Proof. exact pkcs_roundtrip. Qed.

Example c01_case :
  pkcs_pad 8 [1; 2; 3] = Ok [1; 2; 3; 5; 5; 5; 5; 5] /\
  pkcs_unpad 8 [1; 2; 3; 5; 5; 5; 5; 5] = Ok 3%nat /\
  pkcs_pad 255 [] = Ok (repeat 255 255).
Proof. vm_compute. auto. Qed.

(** C02. The exact result for every block size; up to 255 it is PKCS#7. *)
Theorem c02_pkcs_pad_exact : forall n p,
  ((length p < n)%nat ->
     pkcs_pad n p = Ok (p ++ repeat (N.of_nat (n - length p) mod 256) (n - length p))) /\
  ((n <= length p)%nat -> pkcs_pad n p = Panic PExplicit).
Proof. exact pkcs_pad_exact. Qed.

Theorem c02_pkcs_pad_is_pkcs7 : forall n p,
  (n <= 255)%nat -> (length p < n)%nat -> pkcs_pad n p = Ok (pkcs_padded n p).
Proof. exact pkcs_pad_padded. Qed.

Example c02_case :
  pkcs_pad 4 [9] = Ok [9; 3; 3; 3] /\ pkcs_pad 4 [9; 9; 9; 9] = Panic PExplicit.
Proof. vm_compute. auto. Qed.

(** C03. *)
Theorem c03_pkcs_unpad_exact : forall n b, length b = n ->
  (n = 0%nat -> pkcs_unpad n b = Panic POverflow) /\
  ((0 < n)%nat -> last b 0 <= N.of_nat n ->
     pkcs_unpad n b = Ok (n - N.to_nat (last b 0%N))%nat) /\
  ((0 < n)%nat -> N.of_nat n < last b 0 -> pkcs_unpad n b = Panic PExplicit).
Proof. exact pkcs_unpad_exact. Qed.

Theorem c03_pkcs_unpad_last_only : forall n b b',
  length b = n -> length b' = n -> last b 0 = last b' 0 ->
  pkcs_unpad n b = pkcs_unpad n b'.
Proof. exact pkcs_unpad_last_only. Qed.

Example c03_case :
  pkcs_unpad 4 [7; 9; 9; 2] = Ok 2%nat /\ pkcs_unpad 4 [7; 9; 9; 5] = Panic PExplicit.
Proof. vm_compute. auto. Qed.

(** C04. What is accepted, which accepted blocks are genuine, and witnesses
    that the two differ. *)
Theorem c04_pkcs_unpad_accepts : forall n b, (1 <= n)%nat -> length b = n ->
  ((exists k, pkcs_unpad n b = Ok k) <-> last b 0 <= N.of_nat n).
Proof. exact pkcs_unpad_accepts. Qed.

Theorem c04_pkcs_genuine_iff : forall n b, (1 <= n <= 255)%nat -> length b = n ->
  (pkcs_genuine n b <->
   exists k, pkcs_unpad n b = Ok k /\ pkcs_pad n (firstn k b) = Ok b).
Proof. exact pkcs_genuine_iff. Qed.

(** "Every accepted block is genuine" fails: a last byte of zero ... *)
Theorem c04_pkcs_unpad_rejects_malformed_refuted : exists n b,
  (1 <= n <= 255)%nat /\ length b = n /\ bytes b /\
  pkcs_unpad n b = Ok 8%nat /\ ~ pkcs_genuine n b.
Proof.
  exists 8%nat, [1; 2; 3; 4; 5; 6; 7; 0].
  split; [lia|]. split; [reflexivity|]. split; [repeat constructor|].
  split; [reflexivity|]. intros H.
  apply c04_pkcs_genuine_iff in H; [|lia|reflexivity].
  destruct H as (k & H1 & H2). vm_compute in H1. injection H1 as <-.
  vm_compute in H2. discriminate.
Qed.

(** ... and also padding bytes that disagree. *)
Theorem c04_pkcs_unpad_inconsistent_refuted : exists n b,
  (1 <= n <= 255)%nat /\ length b = n /\ bytes b /\
  pkcs_unpad n b = Ok 5%nat /\ ~ pkcs_genuine n b.
Proof.
  exists 8%nat, [1; 2; 3; 4; 5; 6; 7; 3].
  split; [lia|]. split; [reflexivity|]. split; [repeat constructor|].
  split; [reflexivity|]. intros H.
  apply c04_pkcs_genuine_iff in H; [|lia|reflexivity].
  destruct H as (k & H1 & H2). vm_compute in H1. injection H1 as <-.
  vm_compute in H2. discriminate.
Qed.

Example c04_case : pkcs_genuine 8 [1; 2; 3; 4; 5; 3; 3; 3].
Proof. exists [1; 2; 3; 4; 5]. split; [cbn; lia | reflexivity]. Qed.

(** C05. *)
Theorem c05_pkcs_large_blocks : forall n p, (length p < n)%nat ->
  exists b, pkcs_pad n p = Ok b /\ length b = n /\ firstn (length p) b = p /\
    pkcs_unpad n b = Ok (n - (n - length p) mod 256)%nat.
Proof. exact pkcs_roundtrip_gen. Qed.

(** The round trip holds exactly when at most 255 bytes are padded. *)
Theorem c05_pkcs_roundtrip_iff : forall n p, (length p < n)%nat ->
  ((exists b, pkcs_pad n p = Ok b /\ pkcs_unpad n b = Ok (length p)) <->
   (n - length p <= 255)%nat).
Proof. exact pkcs_roundtrip_iff. Qed.

Theorem c05_pkcs_roundtrip_all_sizes_refuted : exists n p b,
  (length p < n)%nat /\ bytes p /\ pkcs_pad n p = Ok b /\
  pkcs_unpad n b = Ok n /\ n <> length p.
Proof.
  exists 256%nat, [], (repeat 0 256).
  split; [cbn; lia|]. split; [constructor|].
  split; [vm_compute; reflexivity|]. split; [vm_compute; reflexivity|]. cbn; lia.
Qed.

Example c05_case : exists b, pkcs_pad 300 [1; 2; 3] = Ok b /\ pkcs_unpad 300 b = Ok 259%nat.
Proof. eexists. split; vm_compute; reflexivity. Qed.

(** C06. *)
Theorem c06_bit_pad_exact : forall n p,
  ((length p < n)%nat -> bit_pad n p = Ok (bit_padded n p)) /\
  ((n <= length p)%nat -> bit_pad n p = Panic PExplicit).
Proof. exact bit_pad_exact. Qed.

Theorem c06_bit_unpad_exact : forall n b i, (i < length b)%nat -> nth i b 0 = 128 ->
  (forall j, (i < j < length b)%nat -> nth j b 0 <> 128) ->
  bit_unpad n b = Ok (firstn i b ++ repeat 0 (length b - i), i).
Proof. exact bit_unpad_eq. Qed.

Theorem c06_bit_unpad_panics : forall n b,
  ((exists r, bit_unpad n b = Panic r) <-> ~ In 128 b) /\
  (forall r, bit_unpad n b = Panic r -> r = PUnwrap).
Proof. exact bit_unpad_panics. Qed.

Theorem c06_bit_roundtrip : forall n p, (length p < n)%nat ->
  exists b, bit_pad n p = Ok b /\ length b = n /\
    bit_unpad n b = Ok (p ++ repeat 0 (n - length p), length p).
Proof. exact bit_roundtrip. Qed.

Example c06_case :
  bit_pad 6 [1; 128] = Ok [1; 128; 128; 0; 0; 0] /\
  bit_unpad 6 [1; 128; 128; 0; 0; 0] = Ok ([1; 128; 0; 0; 0; 0], 2%nat) /\
  bit_unpad 6 [1; 128; 5; 6; 7; 8] = Ok ([1; 0; 0; 0; 0; 0], 1%nat).
Proof. vm_compute. auto. Qed.

Print Assumptions c01_pkcs_roundtrip.
Print Assumptions c02_pkcs_pad_exact.
Print Assumptions c02_pkcs_pad_is_pkcs7.
Print Assumptions c03_pkcs_unpad_exact.
Print Assumptions c03_pkcs_unpad_last_only.
Print Assumptions c04_pkcs_unpad_accepts.
Print Assumptions c04_pkcs_genuine_iff.
Print Assumptions c04_pkcs_unpad_rejects_malformed_refuted.
Print Assumptions c04_pkcs_unpad_inconsistent_refuted.
Print Assumptions c05_pkcs_large_blocks.
Print Assumptions c05_pkcs_roundtrip_iff.
Print Assumptions c05_pkcs_roundtrip_all_sizes_refuted.
Print Assumptions c06_bit_pad_exact.
Print Assumptions c06_bit_unpad_exact.
Print Assumptions c06_bit_unpad_panics.
Print Assumptions c06_bit_roundtrip.
