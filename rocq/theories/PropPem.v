(** * Properties C61-C63, C67, C68: src/pem/mod.rs *)
From Coq Require Import String.
From Verif Require Import Base ModelPem SpecEndian SpecText SpecPem ProofBase64 ProofPem.
Local Open Scope N_scope.
Local Open Scope list_scope.

(** C61. *)
Theorem c61_roundtrip : forall p, bytes (pem_data p) -> ~ In 10 (pem_label p) ->
  decode_pem (pem_fmt p) = ROk p.
Proof. exact pem_roundtrip. Qed.

Theorem c61_line_feed : forall p, In 10 (pem_label p) -> forall s, decode_pem s <> ROk p.
Proof. exact pem_roundtrip_lf. Qed.

(** Whatever has been read is read again after printing. *)
Theorem c61_normalises : forall s p, decode_pem s = ROk p -> decode_pem (pem_fmt p) = ROk p.
Proof. exact pem_normalises. Qed.
Print Assumptions c61_normalises.

(** White space, dashes and carriage returns in labels are harmless. *)
Example c61_case :
  let p := {| pem_label := text " A----- " ++ [13; 32]; pem_data := [0; 255; 16; 32] |} in
  decode_pem (pem_fmt p) = ROk p /\ bytes (pem_data p) /\ ~ In 10 (pem_label p) /\
  decode_pem (pem_fmt {| pem_label := text "A" ++ [10] ++ text "B"; pem_data := [1] |}) =
    RErr InvalidBegin.
Proof.
  split; [vm_compute; reflexivity|]. split; [repeat constructor|].
  split; [|vm_compute; reflexivity].
  intros H. repeat (destruct H as [H|H]; [discriminate H|]). destruct H.
Qed.

(** C62. *)
Theorem c62_accepts : forall s label data,
  decode_pem s = ROk {| pem_label := label; pem_data := data |} <-> pem_text s label data.
Proof. exact decode_iff. Qed.

(** Every string has exactly one list of lines, so [pem_text] covers all. *)
Theorem c62_lines : forall s, exists ls, ls <> [] /\ s = join_lines ls /\ Forall no_lf ls.
Proof. exact join_lines_exists. Qed.
Theorem c62_lines_unique : forall ls ls', ls <> [] -> ls' <> [] ->
  Forall no_lf ls -> Forall no_lf ls' -> join_lines ls = join_lines ls' -> ls = ls'.
Proof. exact join_lines_unique. Qed.
Theorem c62_trimmed : forall l, exists t, trimmed l t /\ forall u, trimmed l u -> u = t.
Proof. exact trimmed_exists. Qed.

(** White space around lines does not change the result, be it a value or an error. *)
Theorem c62_white : forall ls ls', Forall no_lf ls -> Forall no_lf ls' ->
  Forall2 (fun l l' => exists t, trimmed l t /\ trimmed l' t) ls ls' ->
  decode_pem (join_lines ls) = decode_pem (join_lines ls').
Proof. exact decode_white. Qed.

(** mod.rs:113-199. *)
Example c62_case :
  let some := text "some data" in
  let lf := [10] in
  let data p := match p with ROk p => Some (pem_label p, pem_data p) | RErr _ => None end in
  data (decode_pem (text "-----BEGIN ABC-----" ++ lf ++ text "c29tZSBkYXRh" ++ lf ++ text "-----END ABC-----"))
    = Some (text "ABC", some) /\
  data (decode_pem (text "-----BEGIN ABC DEF-----" ++ lf ++ text "c29tZSBkYXRh" ++ lf ++ text "-----END ABC DEF-----"))
    = Some (text "ABC DEF", some) /\
  data (decode_pem (text "-----BEGIN ABC-----" ++ lf ++ text "c29t" ++ lf ++ text "ZSBkYX" ++ lf
                    ++ text "Rh" ++ lf ++ text "-----END ABC-----"))
    = Some (text "ABC", some) /\
  data (decode_pem (lf ++ lf ++ text "    -----BEGIN ABC-----   " ++ lf ++ text "   c29tZS" ++ lf
                    ++ text " BkYXRh   " ++ [13] ++ lf ++ text "    -----END ABC-----   " ++ lf ++ text "  "))
    = Some (text "ABC", some) /\
  data (decode_pem (lf ++ text "some info" ++ lf ++ lf ++ text "-----BEGIN ABC-----" ++ lf ++ text "c29tZSBkYXRh"
                    ++ lf ++ text "-----END ABC-----" ++ lf ++ text "hello" ++ lf))
    = Some (text "ABC", some) /\
  pem_text (text "-----BEGIN ABC-----" ++ lf ++ text "c29tZSBkYXRh" ++ lf ++ text "-----END ABC-----")
    (text "ABC") some.
Proof.
  cbv zeta. do 5 (split; [vm_compute; reflexivity|]). apply c62_accepts. vm_compute. reflexivity.
Qed.

(** C63. *)
Theorem c63_layout : forall p, bytes (pem_data p) -> exists full lst,
  pem_fmt p = join_lines ([begin_line (pem_label p)] ++ full ++ [lst] ++ [end_line (pem_label p)]) /\
  concat full ++ lst = base64 (pem_data p) /\
  Forall (fun l => length l = 64%nat) full /\ (length lst <= 64)%nat /\
  (pem_data p <> [] -> lst <> []).
Proof. exact pem_fmt_spec. Qed.

(** 48 bytes fill one line, 49 need a second one. *)
Example c63_case :
  map (@length N) (lines (pem_fmt {| pem_label := text "X"; pem_data := repeat 7 48 |}))
    = [17; 64; 15]%nat /\
  map (@length N) (lines (pem_fmt {| pem_label := text "X"; pem_data := repeat 7 49 |}))
    = [17; 64; 4; 15]%nat /\
  pem_fmt {| pem_label := text "X"; pem_data := [] |} =
    text "-----BEGIN X-----" ++ [10; 10] ++ text "-----END X-----".
Proof. do 2 (split; [vm_compute; reflexivity|]). vm_compute. reflexivity. Qed.

(** C67: which error is reported. *)
Theorem c67_errors : forall ls ts f, Forall no_lf ls -> Forall2 trimmed ls ts ->
  decode_pem (join_lines ls) = RErr (fault_error f) <-> faulty ts f.
Proof. exact decode_error. Qed.

Theorem c67_total : forall s, (exists p, decode_pem s = ROk p) \/
  (exists f, decode_pem s = RErr (fault_error f)).
Proof. exact decode_total. Qed.

(** mod.rs:201-209 and the other errors; a second PEM block is an error. *)
Example c67_case :
  let b := text "-----BEGIN A-----" ++ [10] in
  let e := text "-----END A-----" ++ [10] in
  let d := text "AAAA" ++ [10] in
  decode_pem (d ++ e) = RErr EndBeforeBegin /\
  decode_pem d = RErr MissingBegin /\
  decode_pem (b ++ d) = RErr MissingEnd /\
  decode_pem (b ++ d ++ b ++ e) = RErr MultipleBegin /\
  decode_pem (b ++ d ++ e ++ b ++ d ++ e) = RErr MultipleBegin /\
  decode_pem (b ++ d ++ e ++ e) = RErr MultipleEnd /\
  decode_pem (text "-----BEGIN A----" ++ [10] ++ d ++ e) = RErr InvalidBegin /\
  decode_pem (b ++ d ++ text "-----END A") = RErr InvalidEnd /\
  decode_pem (b ++ d ++ text "-----END B-----") = RErr LabelMismatch /\
  decode_pem (b ++ text "AAA" ++ [10] ++ e) = RErr BadBase64 /\
  decode_pem (b ++ text "AB==" ++ [10] ++ e) = RErr BadBase64.
Proof. cbv zeta. do 10 (split; [vm_compute; reflexivity|]). vm_compute. reflexivity. Qed.

(** C68: the base64 model. *)
Theorem c68_encode : forall d, bytes d -> b64_encode d = base64 d.
Proof. exact b64_encode_spec. Qed.

Theorem c68_decode : forall s d, b64_decode s = Some d <-> bytes d /\ s = base64 d.
Proof. exact b64_decode_iff. Qed.

Theorem c68_length : forall d, length (b64_encode d) = (4 * ((length d + 2) / 3))%nat.
Proof. exact b64_encode_length. Qed.

(** RFC 4648, section 10. *)
Example c68_case :
  base64 (text "") = text "" /\ base64 (text "f") = text "Zg==" /\
  base64 (text "fo") = text "Zm8=" /\ base64 (text "foo") = text "Zm9v" /\
  base64 (text "foob") = text "Zm9vYg==" /\ base64 (text "fooba") = text "Zm9vYmE=" /\
  base64 (text "foobar") = text "Zm9vYmFy" /\
  b64_decode (text "Zm9vYmE=") = Some (text "fooba") /\ b64_decode (text "Zm9vYmF=") = None.
Proof. do 8 (split; [vm_compute; reflexivity|]). vm_compute. reflexivity. Qed.

Print Assumptions c61_roundtrip.
Print Assumptions c61_line_feed.
Print Assumptions c62_accepts.
Print Assumptions c62_lines.
Print Assumptions c62_lines_unique.
Print Assumptions c62_trimmed.
Print Assumptions c62_white.
Print Assumptions c63_layout.
Print Assumptions c67_errors.
Print Assumptions c67_total.
Print Assumptions c68_encode.
Print Assumptions c68_decode.
Print Assumptions c68_length.
