(** * Turning the columns of an AES state *)
From Coq Require Import List NArith.
Import ListNotations.
Open Scope N_scope.

(** The first column becomes the last (a column is four consecutive bytes). *)
Definition turn (s : list N) : list N := skipn 4 s ++ firstn 4 s.

(** All four columns are equal. *)
Definition symmetric (s : list N) : Prop := turn s = s.
