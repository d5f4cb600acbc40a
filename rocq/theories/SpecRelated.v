(** * Two messages with a known relation, exponent three (Franklin and Reiter 1996)

    If the second message is [a m + b], where [m] is the first, the ciphertexts [c1] and [c2]
    satisfy the linear equation [related_factor * m = related_value] modulo [n]. *)
From Coq Require Import ZArith.
Local Open Scope Z_scope.

Definition related_factor (a b c1 c2 : Z) : Z := a * (c2 - a ^ 3 * c1 + 2 * b ^ 3).
Definition related_value (a b c1 c2 : Z) : Z := b * (c2 + 2 * a ^ 3 * c1 - b ^ 3).
