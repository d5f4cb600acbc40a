(** * C121: PEM texts as UTF-8 bytes, src/pem/mod.rs *)
From Coq Require Import String.
From Verif Require Import Base BaseLemmas SpecText SpecPem SpecUtf8 ModelPem ModelUtf8 ProofUtf8.
Local Open Scope N_scope.
Local Open Scope list_scope.

(** The encoding is unambiguous, and the decoding functions of [core] invert it from both ends. *)
Theorem c121_injective : forall s t, Forall scalar s -> Forall scalar t -> utf8s s = utf8s t -> s = t.
Proof. exact utf8s_inj. Qed.
Print Assumptions c121_injective.

Theorem c121_next : forall c r, scalar c ->
  next_code_point (utf8 c ++ r) = Some (c, r) /\ next_code_point_reverse (rev (utf8 c) ++ r) = Some (c, r).
Proof. intros c r H. exact (conj (next_utf8 c r H) (next_utf8_reverse c r H)). Qed.
Print Assumptions c121_next.

(** Parsing the bytes of a string is parsing the string: the same errors, the same data and
    the bytes of the same label. *)
Theorem c121_decode : forall s, Forall scalar s ->
  decode_pem_utf8 (utf8s s) =
  match decode_pem s with
  | ROk p => ROk {| pem_label := utf8s (pem_label p); pem_data := pem_data p |}
  | RErr e => RErr e
  end.
Proof. exact decode_pem_utf8_ok. Qed.
Print Assumptions c121_decode.

(** Printing, too. *)
Theorem c121_print : forall p, bytes (pem_data p) ->
  utf8s (pem_fmt p) = pem_fmt {| pem_label := utf8s (pem_label p); pem_data := pem_data p |}.
Proof. exact pem_fmt_utf8. Qed.
Print Assumptions c121_print.

(** A label with characters of two, three and four bytes, and the white space U+00A0, U+3000 around a line. *)
Example c121_case :
  let s := [0x3000; 0xa0] ++ text "-----BEGIN " ++ [0xe9; 0x20ac; 0x1f511] ++ text "-----" ++ [0x3000; 0xa0; 13; 10]
             ++ [0x2003] ++ text "AQID" ++ [0x85; 10] ++ text "-----END " ++ [0xe9; 0x20ac; 0x1f511] ++ text "-----" in
  Forall scalar s /\
  decode_pem s = ROk {| pem_label := [0xe9; 0x20ac; 0x1f511]; pem_data := [1; 2; 3] |} /\
  decode_pem_utf8 (utf8s s) =
    ROk {| pem_label := [0xc3; 0xa9; 0xe2; 0x82; 0xac; 0xf0; 0x9f; 0x94; 0x91]; pem_data := [1; 2; 3] |}.
Proof.
  cbv zeta. split; [|split; vm_compute; reflexivity].
  apply Forall_forall. intros c H. assert (X : (c <? 0xd800) || ((0xe000 <=? c) && (c <? 0x110000)) = true).
  { revert c H. apply forallb_forall. vm_compute. reflexivity. }
  unfold scalar. rewrite Bool.orb_true_iff, Bool.andb_true_iff, !N.ltb_lt, N.leb_le in X. exact X.
Qed.
