(** * The state of MD2 between blocks *)
From Verif Require Import Base ModelMd.
Local Open Scope N_scope.

(** What Rust's types say of a hasher that holds a whole chunk. *)
Definition md2_full (h : md2_hasher) : Prop :=
  length (md2_chunk h) = 16%nat /\ bytes (md2_chunk h) /\ length (ModelMd.md2_checksum h) = 16%nat /\
  bytes (ModelMd.md2_checksum h) /\ md2_l h < 256 /\ length (md2_x h) = 48%nat /\ bytes (md2_x h).

(** The hasher after some data: the loop of md2.rs:1-7. *)
Definition md2_absorb (data : list N) : res md2_hasher := forM data (fun b h => md2_consume h b) md2_new.

