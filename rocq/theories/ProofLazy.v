(** * The lazy stream cipher *)
From Verif Require Import Base BaseLemmas ModelBlock SpecBlock SpecLazy ProofBlock.

Section Lazy.
Context {D K : Type} (nd : key_iter D) (nk : key_iter K).

(** As long as both iterators deliver. *)
Lemma pull_prefix ds : forall d d' k ks k' n, yields nd d ds d' -> yields nk k ks k' ->
  length ks = length ds -> (length ds <= n)%nat ->
  pull (sc_next nd nk) n (d, k) =
  let (bs, r) := pull (sc_next nd nk) (n - length ds) (d', k') in (xor_bytes ks ds ++ bs, r).
Proof.
  induction ds as [|b ds IH]; intros d d' k ks k' n Hd Hk L Ln.
  - destruct ks; [|discriminate L]. inversion Hd; inversion Hk; subst.
    cbn [length xor_bytes app]. rewrite Nat.sub_0_r. now destruct (pull _ _ _).
  - destruct ks as [|c ks]; [discriminate L|]. inversion_clear Hd as [|? ? d1 ? ? E1 Hd1].
    inversion_clear Hk as [|? ? k1 ? ? E2 Hk1]. destruct n as [|n]; cbn [length] in *; [lia|].
    cbn [pull sc_next]. rewrite E1. cbn [bind]. rewrite E2. cbn [bind unwrap Nat.sub].
    rewrite (IH d1 d' k1 ks k' n) by (auto; lia).
    destruct (pull _ _ _) as [bs r]. reflexivity.
Qed.

Lemma pull_exact n ds d d' k ks k' : yields nd d ds d' -> yields nk k ks k' ->
  length ds = n -> length ks = n ->
  pull (sc_next nd nk) n (d, k) = (xor_bytes ks ds, Ok (d', k')).
Proof.
  intros Hd Hk Ld Lk. rewrite (pull_prefix ds d d' k ks k') by (auto; congruence || lia).
  replace (n - length ds)%nat with 0%nat by lia. cbn [pull]. now rewrite app_nil_r.
Qed.

Lemma pull_data_end n ds d d' d'' k ks k' : yields nd d ds d' -> yields nk k ks k' ->
  length ks = length ds -> (length ds < n)%nat -> nd d' = Ok (None, d'') ->
  pull (sc_next nd nk) n (d, k) = (xor_bytes ks ds, Ok (d'', k')).
Proof.
  intros Hd Hk L Ln E. rewrite (pull_prefix ds d d' k ks k') by (auto; lia).
  destruct (n - length ds)%nat as [|j] eqn:J; [lia|]. cbn [pull sc_next]. rewrite E. cbn [bind].
  now rewrite app_nil_r.
Qed.

Lemma pull_keys_end n ds d d' b d'' k ks k' k'' : yields nd d ds d' -> yields nk k ks k' ->
  length ks = length ds -> (length ds < n)%nat ->
  nd d' = Ok (Some b, d'') -> nk k' = Ok (None, k'') ->
  pull (sc_next nd nk) n (d, k) = (xor_bytes ks ds, Panic PUnwrap).
Proof.
  intros Hd Hk L Ln E1 E2. rewrite (pull_prefix ds d d' k ks k') by (auto; lia).
  destruct (n - length ds)%nat as [|j] eqn:J; [lia|]. cbn [pull sc_next]. rewrite E1. cbn [bind].
  rewrite E2. cbn [bind unwrap]. now rewrite app_nil_r.
Qed.

Lemma pull_panics n ds d d' k ks k' r : yields nd d ds d' -> yields nk k ks k' ->
  length ks = length ds -> (length ds < n)%nat ->
  nd d' = Panic r \/ (exists b d'', nd d' = Ok (Some b, d'')) /\ nk k' = Panic r ->
  pull (sc_next nd nk) n (d, k) = (xor_bytes ks ds, Panic r).
Proof.
  intros Hd Hk L Ln E. rewrite (pull_prefix ds d d' k ks k') by (auto; lia).
  destruct (n - length ds)%nat as [|j] eqn:J; [lia|]. cbn [pull sc_next].
  destruct E as [E|[(b & d'' & E1) E2]].
  - rewrite E. cbn [bind]. now rewrite app_nil_r.
  - rewrite E1. cbn [bind]. rewrite E2. cbn [bind]. now rewrite app_nil_r.
Qed.

(** One of the cases always applies. *)
Lemma pull_cases n : forall d k, exists ds d' ks k', yields nd d ds d' /\ yields nk k ks k' /\
  length ks = length ds /\ (length ds <= n)%nat /\
  (length ds = n \/
   (exists d'', nd d' = Ok (None, d'')) \/
   (exists b d'' k'', nd d' = Ok (Some b, d'') /\ nk k' = Ok (None, k'')) \/
   (exists r, nd d' = Panic r \/ (exists b d'', nd d' = Ok (Some b, d'')) /\ nk k' = Panic r)).
Proof.
  induction n as [|n IH]; intros d k.
  - exists [], d, [], k. repeat split; auto; constructor.
  - destruct (nd d) as [[[b|] d1]|r] eqn:E1.
    + destruct (nk k) as [[[c|] k1]|r] eqn:E2.
      * destruct (IH d1 k1) as (ds & d' & ks & k' & Hd & Hk & L & Ln & C).
        exists (b :: ds), d', (c :: ks), k'. split; [econstructor; eauto|]. split; [econstructor; eauto|].
        cbn [length]. split; [congruence|]. split; [lia|]. destruct C as [C|C]; [left; lia|auto].
      * exists [], d, [], k. split; [constructor|]. split; [constructor|]. split; [reflexivity|]. split; [cbn; lia|]. right. right. left. eauto.
      * exists [], d, [], k. split; [constructor|]. split; [constructor|]. split; [reflexivity|]. split; [cbn; lia|]. right. right. right. exists r. right. eauto.
    + exists [], d, [], k. split; [constructor|]. split; [constructor|]. split; [reflexivity|]. split; [cbn; lia|]. right. left. eauto.
    + exists [], d, [], k. split; [constructor|]. split; [constructor|]. split; [reflexivity|]. split; [cbn; lia|]. right. right. right. exists r. auto.
Qed.
End Lazy.

(** Collecting everything is [sc_encrypt]. *)
Lemma pull_all {K} (nk : key_iter K) data : forall k n, (length data < n)%nat ->
  sc_encrypt nk k data =
  match pull (sc_next list_iter nk) n (data, k) with
  | (bs, Ok (_, k')) => Ok (bs, k')
  | (_, Panic r) => Panic r
  end.
Proof.
  induction data as [|b data IH]; intros k n Ln; (destruct n as [|n]; [cbn in Ln; lia|]); cbn [length] in Ln.
  - reflexivity.
  - cbn [sc_encrypt pull sc_next list_iter bind].
    destruct (nk k) as [[[c|] k1]|r]; cbn [bind unwrap]; auto.
    rewrite (IH k1 n) by lia. destruct (pull _ n (data, k1)) as [bs [[d' k']|r]]; reflexivity.
Qed.

(** Pulling a prefix is encrypting a prefix. *)
Lemma list_yields l1 l2 : yields list_iter (l1 ++ l2) l1 l2.
Proof. induction l1; cbn [app]; econstructor; eauto. reflexivity. Qed.

Lemma pull_firstn {K} (nk : key_iter K) data k n c k' : (n <= length data)%nat ->
  sc_encrypt nk k (firstn n data) = Ok (c, k') ->
  pull (sc_next list_iter nk) n (data, k) = (c, Ok (skipn n data, k')).
Proof.
  intros Ln E. destruct (proj1 (sc_encrypt_ok_iff nk k (firstn n data))) as (ks & k'' & Y & L); [eauto|].
  rewrite (sc_encrypt_eq nk k ks k'') in E by auto. apply Ok_inj in E. injection E as <- <-.
  apply pull_exact; auto.
  - rewrite <- (firstn_skipn n data) at 1. apply list_yields.
  - rewrite firstn_length. lia.
  - rewrite L, firstn_length. lia.
Qed.
