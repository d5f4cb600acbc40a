(** * Messages that a key leaves as they are *)
From Coq Require Import List NArith.
Local Open Scope N_scope.

Definition unconcealed (n e : N) : list N :=
  filter (fun m => m ^ e mod n =? m) (map N.of_nat (seq 0 (N.to_nat n))).
