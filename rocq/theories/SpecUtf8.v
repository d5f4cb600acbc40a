(** * UTF-8 (RFC 3629, section 3) *)
From Coq Require Import List NArith.
Import ListNotations.
Open Scope N_scope.

(** Unicode scalar values: what a [char] can be. *)
Definition scalar (c : N) : Prop := c < 0xd800 \/ 0xe000 <= c < 0x110000.

Definition utf8 (c : N) : list N :=
  if c <? 0x80 then [c]
  else if c <? 0x800 then [0xc0 + c / 2 ^ 6; 0x80 + c mod 2 ^ 6]
  else if c <? 0x10000 then [0xe0 + c / 2 ^ 12; 0x80 + c / 2 ^ 6 mod 2 ^ 6; 0x80 + c mod 2 ^ 6]
  else [0xf0 + c / 2 ^ 18; 0x80 + c / 2 ^ 12 mod 2 ^ 6; 0x80 + c / 2 ^ 6 mod 2 ^ 6; 0x80 + c mod 2 ^ 6].

Definition utf8s (s : list N) : list N := concat (map utf8 s).

(** RFC 3629, section 7: "A" U+2262 U+0391 "."; and U+233B4. *)
Example utf8_case :
  utf8s [0x41; 0x2262; 0x391; 0x2e] = [0x41; 0xe2; 0x89; 0xa2; 0xce; 0x91; 0x2e] /\
  utf8s [0x233b4] = [0xf0; 0xa3; 0x8e; 0xb4].
Proof. split; vm_compute; reflexivity. Qed.
