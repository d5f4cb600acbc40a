(** * C123: pseudo-collisions of the compression function of MD5, src/md/md5.rs *)
From Verif Require Import Base BaseLemmas ModelMd SpecEndian SpecMd SpecFixed SpecPseudo ProofPseudo.
Local Open Scope N_scope.

(** Two states that differ in the four top bits keep this difference through all operations
    exactly if the operations get what they ask for. *)
Theorem c123_path : forall x a b c d, a < 2 ^ 32 -> b < 2 ^ 32 -> c < 2 ^ 32 -> d < 2 ^ 32 ->
  let st := (a, b, c, d) in
  ((forall i, (i <= 64)%nat -> after x (flip4 st) i = flip4 (after x st i)) <-> good_path x st = true).
Proof. exact path4. Qed.
Print Assumptions c123_path.

(** The code then takes both to the same state. *)
Theorem c123_collision : forall n b h0 h1 h2 h3, length b = 64%nat -> is_state 32 4 [h0; h1; h2; h3] ->
  good_path (map le_num (groups 4 b)) (h0, h1, h2, h3) = true ->
  md_chunk md5_process n [flip_top h0; flip_top h1; flip_top h2; flip_top h3] b =
  md_chunk md5_process n [h0; h1; h2; h3] b.
Proof. exact pseudo_collision. Qed.
Print Assumptions c123_collision.

(** Such a block and state. *)
Definition pseudo_block : list N := concat (map (le_bytes 4) [
  0xb523751e; 0x060820fa; 0x984171f4; 0x884cbccc; 0xe61a2a37; 0x2b53824e; 0xb10094d1; 0xb9bb72f7;
  0x623676b7; 0xa23e3d4e; 0x9f577c51; 0xcd8466fb; 0xa3cda754; 0x8bdeac98; 0x0f4befc5; 0x9da8cf52]).
Example c123_case :
  length pseudo_block = 64%nat /\
  good_path (map le_num (groups 4 pseudo_block)) (0x37547651, 0x7c6f9499, 0x166c7722, 0x55fca5d0) = true /\
  md_chunk md5_process 64 [0x37547651; 0x7c6f9499; 0x166c7722; 0x55fca5d0] pseudo_block =
    Ok [0x7185569b; 0xe204f802; 0x57d4c8a7; 0xe7761845] /\
  md_chunk md5_process 64 [0xb7547651; 0xfc6f9499; 0x966c7722; 0xd5fca5d0] pseudo_block =
    Ok [0x7185569b; 0xe204f802; 0x57d4c8a7; 0xe7761845].
Proof. do 3 (split; [vm_compute; reflexivity|]). vm_compute. reflexivity. Qed.

(** So the compression function is not injective in the state, with the block fixed. *)
Theorem c123_injective_refuted : exists n b h h' r, length b = 64%nat /\ bytes b /\
  is_state 32 4 h /\ is_state 32 4 h' /\ h <> h' /\
  md_chunk md5_process n h b = Ok r /\ md_chunk md5_process n h' b = Ok r.
Proof.
  exists 64, pseudo_block, [0x37547651; 0x7c6f9499; 0x166c7722; 0x55fca5d0],
    [0xb7547651; 0xfc6f9499; 0x966c7722; 0xd5fca5d0], [0x7185569b; 0xe204f802; 0x57d4c8a7; 0xe7761845].
  split; [exact (proj1 c123_case)|]. split; [apply Forall_forall; intros v Hv; vm_compute in Hv;
    repeat (destruct Hv as [<-|Hv]; [reflexivity|]); destruct Hv|].
  split; [split; [reflexivity|repeat (apply Forall_cons; [reflexivity|]); apply Forall_nil]|].
  split; [split; [reflexivity|repeat (apply Forall_cons; [reflexivity|]); apply Forall_nil]|].
  split; [discriminate|]. exact (proj2 (proj2 c123_case)).
Qed.
Print Assumptions c123_injective_refuted.
