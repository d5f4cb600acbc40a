(** * C119: texts with several PEM values, and text around them, src/pem/mod.rs *)
From Coq Require Import String.
From Verif Require Import Base BaseLemmas SpecText SpecPem ModelPem ProofPem ProofSeveral.
Local Open Scope N_scope.
Local Open Scope list_scope.

(** Two texts, each of which is accepted, are rejected if they are in one file. *)
Theorem c119_two_values : forall s1 s2 p1 p2, decode_pem s1 = ROk p1 -> decode_pem s2 = ROk p2 ->
  decode_pem (s1 ++ 10 :: s2) = RErr MultipleBegin.
Proof. exact two_values. Qed.
Print Assumptions c119_two_values.

(** Lines that do not look like BEGIN or END lines, before or after any text, change nothing. *)
Theorem c119_before : forall us s, us <> [] -> Forall no_lf us -> Forall (fun l => forall t, trimmed l t -> plain t) us ->
  decode_pem (join_lines us ++ 10 :: s) = decode_pem s.
Proof. exact text_before. Qed.
Print Assumptions c119_before.

Theorem c119_after : forall us s, us <> [] -> Forall no_lf us -> Forall (fun l => forall t, trimmed l t -> plain t) us ->
  decode_pem (s ++ 10 :: join_lines us) = decode_pem s.
Proof. exact text_after. Qed.
Print Assumptions c119_after.

Example c119_case :
  let k := pem_fmt {| pem_label := text "K"; pem_data := [1; 2; 3] |} in
  let l := pem_fmt {| pem_label := text "L"; pem_data := [4] |} in
  decode_pem k = ROk {| pem_label := text "K"; pem_data := [1; 2; 3] |} /\
  decode_pem l = ROk {| pem_label := text "L"; pem_data := [4] |} /\
  decode_pem (k ++ 10 :: l) = RErr MultipleBegin /\
  decode_pem (text "Bag Attributes" ++ 10 :: text " BEGIN" ++ 10 :: k ++ 10 :: text "-----BEGIN" ++ 10 :: []) =
    ROk {| pem_label := text "K"; pem_data := [1; 2; 3] |}.
Proof. cbv zeta. do 3 (split; [vm_compute; reflexivity|]). vm_compute. reflexivity. Qed.
