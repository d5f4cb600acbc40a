(** * ASCII texts as byte sequences *)
From Coq Require Import Ascii String.
From Verif Require Import Base.

Definition text (s : string) : list N := map N_of_ascii (list_ascii_of_string s).

Example text_case : text "Az09 " = [0x41; 0x7a; 0x30; 0x39; 0x20].
Proof. reflexivity. Qed.
