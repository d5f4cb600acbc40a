(** * Differences of two message schedules *)
From Verif Require Import Base SpecWord SpecSha.
Local Open Scope N_scope.

(** The number of positions in which two lists of [n] words differ. *)
Definition word_differences (n : nat) (v w : list N) : nat :=
  length (filter (fun t => negb (nth t v 0 =? nth t w 0)) (seq 0 n)).

(** The compression functions with the words of the schedule as an argument: the block enters only
    through them. *)
Definition sha1_from_words (w h : list N) : list N :=
  match h with
  | [h0; h1; h2; h3; h4] =>
      let '(a, b, c, d, e) := fold_left (sha1_round w) (seq 0 80) (h0, h1, h2, h3, h4) in
      [plus_w 32 h0 a; plus_w 32 h1 b; plus_w 32 h2 c; plus_w 32 h3 d; plus_w 32 h4 e]
  | _ => []
  end.
Definition sha2_from_words (k : sha2_kind) (w h : list N) : list N :=
  match h with
  | [h0; h1; h2; h3; h4; h5; h6; h7] =>
      let '(a, b, c, d, e, f, g, h) :=
        fold_left (sha2_round k) (combine (sha2_k k) w) (h0, h1, h2, h3, h4, h5, h6, h7) in
      let n := s2_bits k in
      [plus_w n h0 a; plus_w n h1 b; plus_w n h2 c; plus_w n h3 d;
       plus_w n h4 e; plus_w n h5 f; plus_w n h6 g; plus_w n h7 h]
  | _ => []
  end.
