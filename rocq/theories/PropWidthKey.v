(** * C131: key files on targets where [usize] does not have 64 bits *)
From Coq Require Import String.
From Verif Require Import Base BaseLemmas ModelBig ModelPem ModelRsa ModelKey ModelWidth ModelWidthKey
  SpecEndian SpecText SpecAsn1 SpecKey SpecWidth SpecWidthKey ProofWidthKey.
Local Open Scope N_scope.
Local Open Scope list_scope.

(** With 64 bits, the functions with the width as a parameter are those of the model. *)
Theorem c131_64_bits : forall P p,
  @private_key_try_from_w P 64 p = @private_key_try_from P p /\ @public_key_try_from_w P 64 p = @public_key_try_from P p.
Proof. exact (fun P p => conj (private_64 P p) (public_64 P p)). Qed.
Print Assumptions c131_64_bits.

(** The outcome is that with 64 bits, unless that is a missing piece of [2^w] bytes or more. *)
Theorem c131_private_same : forall w p, 10 <= w <= 64 -> bytes (pem_data p) -> N.of_nat (length (pem_data p)) < 2 ^ w ->
  (forall e, private_key_try_from p = Ok (RErr e) -> key_length_beyond w e = false) ->
  private_key_try_from_w w p = private_key_try_from p.
Proof. exact private_same. Qed.
Print Assumptions c131_private_same.

Theorem c131_public_same : forall w p, 10 <= w <= 64 -> bytes (pem_data p) -> N.of_nat (length (pem_data p)) < 2 ^ w ->
  (forall e, public_key_try_from p = Ok (RErr e) -> key_length_beyond w e = false) ->
  public_key_try_from_w w p = public_key_try_from p.
Proof. exact public_same. Qed.
Print Assumptions c131_public_same.

(** A smaller target accepts what a larger one accepts, as the same key ... *)
Theorem c131_private_smaller : forall w w' p k, 10 <= w -> w <= w' -> w' <= 64 ->
  bytes (pem_data p) -> size (pem_data p) < 2 ^ w ->
  private_key_try_from_w w' p = Ok (ROk k) -> private_key_try_from_w w p = Ok (ROk k).
Proof. exact private_smaller. Qed.
Print Assumptions c131_private_smaller.

Theorem c131_public_smaller : forall w w' p k, 10 <= w -> w <= w' -> w' <= 64 ->
  bytes (pem_data p) -> size (pem_data p) < 2 ^ w ->
  public_key_try_from_w w' p = Ok (ROk k) -> public_key_try_from_w w p = Ok (ROk k).
Proof. exact public_smaller. Qed.
Print Assumptions c131_public_smaller.

(** ... so that no file is read as different keys by two targets. *)
Theorem c131_private_agree : forall w w' p k k', 10 <= w <= 64 -> 10 <= w' <= 64 -> bytes (pem_data p) ->
  size (pem_data p) < 2 ^ w -> size (pem_data p) < 2 ^ w' ->
  private_key_try_from_w w p = Ok (ROk k) -> private_key_try_from_w w' p = Ok (ROk k') -> k = k'.
Proof. exact private_agree. Qed.
Print Assumptions c131_private_agree.

Theorem c131_public_agree : forall w w' p k k', 10 <= w <= 64 -> 10 <= w' <= 64 -> bytes (pem_data p) ->
  size (pem_data p) < 2 ^ w -> size (pem_data p) < 2 ^ w' ->
  public_key_try_from_w w p = Ok (ROk k) -> public_key_try_from_w w' p = Ok (ROk k') -> k = k'.
Proof. exact public_agree. Qed.
Print Assumptions c131_public_agree.

(** But every key file has a variant that only the smaller targets accept. *)
Theorem c131_private_one_target : forall w p k, 10 <= w < 64 -> bytes (pem_data p) -> size (pem_data p) + 17 < 2 ^ w ->
  private_key_try_from p = Ok (ROk k) ->
  exists t l c, pem_data p = t :: l ++ c /\
    let p' := {| pem_label := pem_label p; pem_data := beyond w t c |} in
    private_key_try_from_w w p' = Ok (ROk k) /\
    private_key_try_from p' = Ok (RErr (KParse (TooLittleData t (size c + 2 ^ w) (length c)))).
Proof. exact private_one_target. Qed.
Print Assumptions c131_private_one_target.

Theorem c131_public_one_target : forall w p k, 10 <= w < 64 -> bytes (pem_data p) -> size (pem_data p) + 17 < 2 ^ w ->
  public_key_try_from p = Ok (ROk k) ->
  exists t l c, pem_data p = t :: l ++ c /\
    let p' := {| pem_label := pem_label p; pem_data := beyond w t c |} in
    public_key_try_from_w w p' = Ok (ROk k) /\
    public_key_try_from p' = Ok (RErr (KParse (TooLittleData t (size c + 2 ^ w) (length c)))).
Proof. exact public_one_target. Qed.
Print Assumptions c131_public_one_target.

(** So whether a file is a key depends on the target: here the one with modulus 77 and exponent 7. *)
Theorem c131_same_on_all_targets_refuted : exists p k e, bytes (pem_data p) /\ size (pem_data p) < 2 ^ 32 /\
  public_key_try_from_w 32 p = Ok (ROk k) /\ public_key_try_from_w 64 p = Ok (RErr e).
Proof.
  exists {| pem_label := text "PUBLIC KEY";
            pem_data := beyond 32 0x30 (skipn 2 (der (subject_public_key_info (der (rsa_public_key [77] [7]))))) |},
    {| pub_n := [77]; pub_e := [7] |}, (KParse (TooLittleData 0x30 (2 ^ 32 + 26) 26)).
  split; [vm_compute; repeat constructor|]. split; [vm_compute; reflexivity|]. split; vm_compute; reflexivity.
Qed.
Print Assumptions c131_same_on_all_targets_refuted.

(** The same key on 16, 32 and 64 bits; with [2^32] added to the length on 16 and 32 bits, with [2^16] added
    only on 16 bits. *)
Example c131_case :
  let c := skipn 2 (der (subject_public_key_info (der (rsa_public_key [77] [7])))) in
  let file data := {| pem_label := text "PUBLIC KEY"; pem_data := data |} in
  let k := Ok (ROk {| pub_n := [77]; pub_e := [7] |}) in
  let short n := Ok (RErr (KParse (TooLittleData 0x30 n 26))) in
  map (fun w => public_key_try_from_w w (file (0x30 :: 26 :: c))) [16; 32; 64] = [k; k; k] /\
  map (fun w => public_key_try_from_w w (file (beyond 32 0x30 c))) [16; 32; 64] = [k; k; short (2 ^ 32 + 26)] /\
  map (fun w => public_key_try_from_w w (file (beyond 16 0x30 c))) [16; 32; 64] = [k; short (2 ^ 16 + 26); short (2 ^ 16 + 26)].
Proof. cbv zeta. do 2 (split; [vm_compute; reflexivity|]). vm_compute. reflexivity. Qed.
