(** * Model of src/pad.rs *)
From Verif Require Import Base.

Section Profile.
Context {P : profile}.

(** [BitPadding::pad], src/pad.rs:6-15. [n] is the const parameter [N]. *)
Definition bit_pad (n : nat) (partial_block : list N) : res (list N) :=
  if (n <=? length partial_block)%nat then Panic PExplicit
  else
    let new_block := repeat 0 n in
    let* new_block := copy_range new_block 0 (length partial_block) partial_block in
    upd new_block (length partial_block) 0x80.

(** [BitPadding::unpad], src/pad.rs:17-25. *)
Definition bit_unpad (n : nat) (last_block : list N) : res (list N * nat) :=
  let* len := unwrap (rposition (fun b => b =? 0x80) last_block) in
  let* block := fill_range last_block len (length last_block) 0 in
  Ok (block, len).

(** [PkcsPadding::pad], src/pad.rs:31-43. [(N - len) as u8] truncates. *)
Definition pkcs_pad (n : nat) (partial_block : list N) : res (list N) :=
  let len := length partial_block in
  if (n <=? len)%nat then Panic PExplicit
  else
    let new_block := repeat 0 n in
    let* new_block := copy_range new_block 0 len partial_block in
    fill_range new_block len n (N.of_nat (n - len) mod 256).

(** [PkcsPadding::unpad], src/pad.rs:45-51. [block[N-1]]: [N - 1] overflows
    for [N = 0]. *)
Definition pkcs_unpad (n : nat) (block : list N) : res nat :=
  let* i := nsub n 1 in
  let* amt := idx block i in
  if (n <? ix amt)%nat then Panic PExplicit
  else nsub n (ix amt).

End Profile.
