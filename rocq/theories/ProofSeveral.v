(** * Texts with several PEM values, and text around them *)
From Coq Require Import String.
From Verif Require Import Base BaseLemmas SpecText SpecPem ModelPem ProofPem.
Local Open Scope N_scope.
Local Open Scope list_scope.

Lemma join_lines_app l1 : forall l2, l1 <> [] -> l2 <> [] -> join_lines (l1 ++ l2) = join_lines l1 ++ 10 :: join_lines l2.
Proof.
  induction l1 as [|l l1 IH]; intros l2 H1 H2; [easy|]. destruct l1 as [|l' l1].
  - cbn [app join_lines]. destruct l2; [easy|reflexivity].
  - change (l ++ 10 :: join_lines ((l' :: l1) ++ l2) = (l ++ 10 :: join_lines (l' :: l1)) ++ 10 :: join_lines l2).
    rewrite IH by easy. rewrite <- app_assoc. reflexivity.
Qed.

Lemma two_values s1 s2 p1 p2 : decode_pem s1 = ROk p1 -> decode_pem s2 = ROk p2 ->
  decode_pem (s1 ++ 10 :: s2) = RErr MultipleBegin.
Proof.
  destruct p1 as [b1 d1], p2 as [b2 d2]. intros H1 H2. apply decode_iff in H1, H2.
  destruct H1 as (ls1 & pre1 & mid1 & post1 & -> & L1 & T1 & P1 & M1 & Q1 & _).
  destruct H2 as (ls2 & pre2 & mid2 & post2 & -> & L2 & T2 & P2 & M2 & Q2 & _).
  rewrite <- join_lines_app.
  - apply (decode_error (ls1 ++ ls2)
      (pre1 ++ begin_line b1 :: mid1 ++ end_line b1 :: (post1 ++ pre2) ++
        (text "-----BEGIN " ++ b2 ++ text "-----") :: mid2 ++ [end_line b2] ++ post2) FMultipleBegin).
    + apply Forall_app. now split.
    + replace (pre1 ++ _) with ((pre1 ++ [begin_line b1] ++ mid1 ++ [end_line b1] ++ post1) ++
        (pre2 ++ [begin_line b2] ++ mid2 ++ [end_line b2] ++ post2)).
      * now apply Forall2_app.
      * change (text "-----BEGIN " ++ b2 ++ text "-----") with (begin_line b2).
        repeat (rewrite <- app_assoc; cbn [app]). reflexivity.
    + apply f_begin_after_end; [exact P1|exact M1|]. apply Forall_app. now split.
  - intros ->. inversion T1 as [E|]. now destruct pre1.
  - intros ->. inversion T2 as [E|]. now destruct pre2.
Qed.

(** ** Text around a PEM value *)

Lemma plain_lines us : Forall no_lf us -> Forall (fun l => forall t, trimmed l t -> plain t) us -> Forall is_plain (map trim us).
Proof.
  intros _ H. induction H as [|l us Hl _ IH]; cbn [map]; constructor; [|exact IH].
  apply is_plain_iff, Hl, trim_trimmed.
Qed.

Lemma text_before us s : us <> [] -> Forall no_lf us -> Forall (fun l => forall t, trimmed l t -> plain t) us ->
  decode_pem (join_lines us ++ 10 :: s) = decode_pem s.
Proof.
  intros N L H. destruct (join_lines_exists s) as (ls & Nl & -> & Ll). rewrite <- join_lines_app by easy.
  rewrite !decode_join by (try (apply Forall_app; split); assumption). unfold decode_lines.
  rewrite pem_lines_app, pem_lines_plain by now apply plain_lines. reflexivity.
Qed.

Lemma text_after us s : us <> [] -> Forall no_lf us -> Forall (fun l => forall t, trimmed l t -> plain t) us ->
  decode_pem (s ++ 10 :: join_lines us) = decode_pem s.
Proof.
  intros N L H. destruct (join_lines_exists s) as (ls & Nl & -> & Ll). rewrite <- join_lines_app by easy.
  rewrite !decode_join by (try (apply Forall_app; split); assumption). unfold decode_lines.
  rewrite pem_lines_app. destruct (pem_lines ls None [] None) as [[[b d] e]|x]; [|reflexivity].
  rewrite pem_lines_plain by now apply plain_lines. now destruct b, e.
Qed.
