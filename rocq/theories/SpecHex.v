(** * Hexadecimal text *)
From Coq Require Import String.
From Verif Require Import Base SpecText.
Local Open Scope N_scope.
Local Open Scope list_scope.

Definition hex_digits : list N := text "0123456789abcdef".

(** Two digits per byte. *)
Definition hex_print (bs : list N) : list N :=
  concat (map (fun b => [nth (N.to_nat (b / 16)) hex_digits 0; nth (N.to_nat (b mod 16)) hex_digits 0]) bs).

(** The letters [A] to [F] in lower case. *)
Definition hex_lower (c : N) : N := if (65 <=? c) && (c <=? 70) then c + 32 else c.

(** Digits, and letters of either case. *)
Definition hex_digit (c : N) : Prop := 48 <= c <= 57 \/ 65 <= c <= 70 \/ 97 <= c <= 102.

Example hex_print_case : hex_print [0; 255; 0x1a] = text "00ff1a".
Proof. reflexivity. Qed.
Example hex_lower_case : map hex_lower (text "09AFafGz") = text "09afafGz".
Proof. reflexivity. Qed.
