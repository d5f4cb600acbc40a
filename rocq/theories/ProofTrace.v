(** * Proofs for C125: the hash functions of SHA and MD4, MD5, and RC5, do the
    same for all data of the same length *)
From Verif Require Import Base BaseLemmas ModelBlock ModelSha ModelMd ModelRc ModelTrace ProofRc5.

(** ** Values that cannot be told apart by what they make visible *)

Class shape (A : Type) := alike : A -> A -> Prop.
#[local] Instance shape_N : shape N := fun _ _ => True.
#[local] Instance shape_nat : shape nat := fun a b => a = b.
#[local] Instance shape_unit : shape unit := fun _ _ => True.
#[local] Instance shape_list {A} `{shape A} : shape (list A) := Forall2 alike.
#[local] Instance shape_prod {A B} `{shape A} `{shape B} : shape (A * B) :=
  fun p q => alike (fst p) (fst q) /\ alike (snd p) (snd q).
#[local] Instance shape_option {A} `{shape A} : shape (option A) := fun p q =>
  match p, q with
  | Some a, Some b => alike a b
  | None, None => True
  | _, _ => False
  end.
#[local] Instance shape_md : shape md_hasher := fun h h' =>
  alike (md_unprocessed_bytes h) (md_unprocessed_bytes h') /\
  md_bytes_consumed h = md_bytes_consumed h'.
#[local] Instance shape_rc5 : shape rc5 := fun c c' =>
  alike (rc5_s c) (rc5_s c') /\ rc5_r c = rc5_r c'.

(** Runs that show the same and end alike. *)
Definition simR {A} (R : A -> A -> Prop) (m m' : tr A) : Prop :=
  fst m = fst m' /\
  match snd m, snd m' with
  | Ok a, Ok b => R a b
  | Panic p, Panic q => p = q
  | _, _ => False
  end.
Notation sim := (simR alike).

Lemma sim_bindR {A B} (R : A -> A -> Prop) (Q : B -> B -> Prop) m m' (f f' : A -> tr B) :
  simR R m m' -> (forall a a', R a a' -> simR Q (f a) (f' a')) ->
  simR Q (tbind m f) (tbind m' f').
Proof.
  intros [H1 H2] H. destruct m as [e [a|p]], m' as [e' [a'|p']]; cbn [fst snd] in H1, H2;
    try contradiction; subst; unfold tbind.
  - specialize (H a a' H2). destruct H as [H3 H4].
    destruct (f a) as [u r], (f' a') as [u' r']. cbn [fst snd] in *. subst.
    split; cbn [fst snd]; [reflexivity|exact H4].
  - split; reflexivity.
Qed.
Lemma sim_bind {A B} `{shape A} `{shape B} m m' (f f' : A -> tr B) :
  sim m m' -> (forall a a', alike a a' -> sim (f a) (f' a')) ->
  sim (tbind m f) (tbind m' f').
Proof. apply sim_bindR. Qed.
Lemma sim_ret {A} (R : A -> A -> Prop) (a b : A) : R a b -> simR R (tret a) (tret b).
Proof. intros H; split; [reflexivity|exact H]. Qed.
Lemma sim_panic {A} (R : A -> A -> Prop) r : simR R (tpanic r) (tpanic r).
Proof. split; reflexivity. Qed.
Lemma sim_if {A} (R : A -> A -> Prop) (c c' : bool) m m' k k' :
  c = c' -> simR R m m' -> simR R k k' -> simR R (tif c m k) (tif c' m' k').
Proof.
  intros <- H K. unfold tif. apply (sim_bindR (fun _ _ => True)).
  - split; [reflexivity|exact I].
  - intros _ _ _. now destruct c.
Qed.

Lemma sim_forM {A S} `{shape A} `{shape S} (l l' : list A) (f f' : A -> S -> tr S) :
  alike l l' ->
  (forall a a' s s', alike a a' -> alike s s' -> sim (f a s) (f' a' s')) ->
  forall s s', alike s s' -> sim (t_forM l f s) (t_forM l' f' s').
Proof.
  intros HL HF. induction HL as [|a a' l l' Ha HL IH]; intros s s' Hs; cbn [t_forM].
  - apply (sim_bindR (fun _ _ => True)); [split; [reflexivity|exact I]|].
    intros _ _ _. now apply sim_ret.
  - apply (sim_bindR (fun _ _ => True)); [split; [reflexivity|exact I]|].
    intros _ _ _. eapply sim_bind; [now apply HF|]. intros. now apply IH.
Qed.
Lemma sim_mapM {A B} `{shape A} `{shape B} (l l' : list A) (f f' : A -> tr B) :
  alike l l' -> (forall a a', alike a a' -> sim (f a) (f' a')) ->
  sim (t_mapM f l) (t_mapM f' l').
Proof.
  intros HL HF. induction HL as [|a a' l l' Ha HL IH]; cbn [t_mapM].
  - apply (sim_bindR (fun _ _ => True)); [split; [reflexivity|exact I]|].
    intros _ _ _. apply sim_ret. constructor.
  - apply (sim_bindR (fun _ _ => True)); [split; [reflexivity|exact I]|].
    intros _ _ _. eapply sim_bind; [now apply HF|]. intros b b' Hb.
    eapply sim_bind; [exact IH|]. intros bs bs' Hbs. apply sim_ret. now constructor.
Qed.

(** ** Lists *)

Lemma alike_N (a b : N) : alike a b. Proof. exact I. Qed.
Lemma alike_len {A} `{shape A} (l l' : list A) : alike l l' -> length l = length l'.
Proof. induction 1; cbn [length]; congruence. Qed.
Lemma alike_bytes (l l' : list N) : length l = length l' -> alike l l'.
Proof.
  revert l'. induction l as [|a l IH]; intros [|a' l'] HL; try discriminate; constructor.
  - exact I.
  - apply IH. now injection HL.
Qed.
Lemma alike_nats (l : list nat) : alike l l.
Proof. induction l; constructor; [reflexivity|assumption]. Qed.
Lemma alike_firstn {A} `{shape A} (n : nat) (l l' : list A) :
  alike l l' -> alike (firstn n l) (firstn n l').
Proof.
  intros HL. revert n. induction HL; intros [|n]; cbn [firstn]; constructor; auto.
  all: apply IHHL.
Qed.
Lemma alike_skipn {A} `{shape A} (n : nat) (l l' : list A) :
  alike l l' -> alike (skipn n l) (skipn n l').
Proof.
  intros HL. revert n. induction HL; intros [|n]; cbn [skipn]; try constructor; auto.
  all: apply IHHL.
Qed.
Lemma alike_app {A} `{shape A} (l l' k k' : list A) :
  alike l l' -> alike k k' -> alike (l ++ k) (l' ++ k').
Proof. apply Forall2_app. Qed.
Lemma alike_cons {A} `{shape A} (a a' : A) (l l' : list A) :
  alike a a' -> alike l l' -> alike (a :: l) (a' :: l').
Proof. intros. now constructor. Qed.
Lemma alike_nil {A} `{shape A} : alike (@nil A) (@nil A).
Proof. constructor. Qed.
Lemma alike_enumerate {A} `{shape A} (l l' : list A) : alike l l' ->
  alike (enumerate l) (enumerate l').
Proof.
  intros HL. unfold enumerate. generalize 0%nat.
  induction HL; intros i; cbn [enumerate_from]; constructor.
  - split; [reflexivity|assumption].
  - apply IHHL.
Qed.

Lemma sim_idx {A} `{shape A} (l l' : list A) (i i' : nat) :
  i = i' -> alike l l' -> sim (t_idx l i) (t_idx l' i').
Proof.
  intros <- HL. split; [reflexivity|]. cbn [snd t_idx tlog]. unfold idx. revert i.
  induction HL as [|a a' l l' Ha HL IH]; intros [|i]; cbn [nth_error];
    [reflexivity|reflexivity|exact Ha|apply IH].
Qed.
Lemma sim_upd {A} `{shape A} (l l' : list A) (i i' : nat) v v' :
  i = i' -> alike l l' -> alike v v' -> sim (t_upd l i v) (t_upd l' i' v').
Proof.
  intros <- HL Hv. split; [reflexivity|]. cbn [snd t_upd tlog]. unfold upd.
  rewrite <- (alike_len l l' HL). destruct (i <? length l)%nat; [|reflexivity].
  apply alike_app; [now apply alike_firstn|].
  apply alike_cons; [assumption|now apply alike_skipn].
Qed.
Lemma sim_slice {A} `{shape A} (l l' : list A) a b a' b' :
  a = a' -> b = b' -> alike l l' -> sim (t_slice l a b) (t_slice l' a' b').
Proof.
  intros <- <- HL. split; [reflexivity|]. cbn [snd t_slice tlog]. unfold slice.
  rewrite <- (alike_len l l' HL). destruct ((a <=? b) && (b <=? length l))%nat%bool;
    [|reflexivity].
  now apply alike_firstn, alike_skipn.
Qed.
Lemma sim_slice_to {A} `{shape A} (l l' : list A) b b' :
  b = b' -> alike l l' -> sim (t_slice_to l b) (t_slice_to l' b').
Proof.
  intros <- HL. split; [reflexivity|]. cbn [snd t_slice_to tlog]. unfold slice_to.
  rewrite <- (alike_len l l' HL). destruct (b <=? length l)%nat; [|reflexivity].
  now apply alike_firstn.
Qed.
Lemma sim_slice_from {A} `{shape A} (l l' : list A) a a' :
  a = a' -> alike l l' -> sim (t_slice_from l a) (t_slice_from l' a').
Proof.
  intros <- HL. split; cbn [fst snd t_slice_from tlog];
    [now rewrite <- (alike_len l l' HL)|]. unfold slice_from.
  rewrite <- (alike_len l l' HL). destruct (a <=? length l)%nat; [|reflexivity].
  now apply alike_skipn.
Qed.
Lemma sim_copy_range {A} `{shape A} (l l' : list A) a b a' b' s s' :
  a = a' -> b = b' -> alike l l' -> alike s s' ->
  sim (t_copy_range l a b s) (t_copy_range l' a' b' s').
Proof.
  intros <- <- HL HS. split; cbn [fst snd t_copy_range tlog];
    [now rewrite <- (alike_len s s' HS)|]. unfold copy_range.
  rewrite <- (alike_len l l' HL), <- (alike_len s s' HS).
  destruct ((a <=? b) && (b <=? length l))%nat%bool; [|reflexivity].
  destruct (length s =? b - a)%nat; [|reflexivity].
  apply alike_app; [now apply alike_firstn|].
  apply alike_app; [assumption|now apply alike_skipn].
Qed.
Lemma sim_to_array {A} `{shape A} n (l l' : list A) :
  alike l l' -> sim (t_to_array n l) (t_to_array n l').
Proof.
  intros HL. split; cbn [fst snd t_to_array tlog]; [now rewrite <- (alike_len l l' HL)|].
  unfold to_array. rewrite <- (alike_len l l' HL). now destruct (length l =? n)%nat.
Qed.
Lemma alike_chunks {A} `{shape A} fuel n : forall (l l' : list A), alike l l' ->
  alike (chunks_exact_fuel fuel n l) (chunks_exact_fuel fuel n l').
Proof.
  induction fuel as [|fuel IH]; intros l l' HL; cbn [chunks_exact_fuel].
  - split; [constructor|assumption].
  - rewrite <- (alike_len l l' HL). destruct (n <=? length l)%nat.
    + specialize (IH _ _ (alike_skipn n l l' HL)).
      destruct (chunks_exact_fuel fuel n (skipn n l)) as [cs r],
        (chunks_exact_fuel fuel n (skipn n l')) as [cs' r']. destruct IH as [I1 I2].
      split; cbn [fst snd] in *; [|assumption].
      constructor; [now apply alike_firstn|assumption].
    + split; [constructor|assumption].
Qed.
Lemma sim_chunks_exact {A} `{shape A} n (l l' : list A) :
  alike l l' -> sim (t_chunks_exact n l) (t_chunks_exact n l').
Proof.
  intros HL. split; cbn [fst snd t_chunks_exact tlog];
    [now rewrite <- (alike_len l l' HL)|].
  unfold chunks_exact. destruct n; [reflexivity|].
  rewrite <- (alike_len l l' HL). now apply alike_chunks.
Qed.
Lemma sim_chunks {A} `{shape A} n (l l' : list A) :
  alike l l' -> sim (t_chunks n l) (t_chunks n l').
Proof.
  intros HL. split; cbn [fst snd t_chunks tlog]; [now rewrite <- (alike_len l l' HL)|].
  unfold chunks, chunks_exact. destruct n; [reflexivity|].
  rewrite <- (alike_len l l' HL).
  pose proof (alike_chunks (length l) (S n) l l' HL) as HC.
  destruct (chunks_exact_fuel (length l) (S n) l) as [cs r],
    (chunks_exact_fuel (length l) (S n) l') as [cs' r']. destruct HC as [I1 I2].
  cbn [fst snd bind] in *.
  destruct I2; [assumption|]. apply alike_app; [assumption|].
  apply alike_cons; [now constructor|constructor].
Qed.

Lemma sim_log {A} (R : A -> A -> Prop) e e' (r r' : res A) : e = e' -> r = r' ->
  (forall a, R a a) -> simR R (tlog e r) (tlog e' r').
Proof. intros <- <- HR. split; [reflexivity|]. cbn [snd tlog]. destruct r; auto. Qed.

(** ** The functions *)

Ltac lens := repeat match goal with
  | H : @alike (list _) _ _ _ |- _ => apply alike_len in H
  end; rewrite ?app_length, ?to_le_length, ?to_be_length, ?repeat_length; cbn [length];
  congruence.
Ltac al := first [assumption | lazymatch goal with
  | |- @alike N _ _ _ => exact I
  | |- @alike nat _ _ _ => hnf; congruence
  | |- @alike unit _ _ _ => exact I
  | |- @alike (_ * _) _ _ _ => split; cbn [fst snd]; al
  | |- @alike (list (nat * _)) _ (enumerate _) (enumerate _) => apply alike_enumerate; al
  | |- @alike (list nat) _ _ _ => apply alike_nats
  | |- @alike (list N) _ _ _ => apply alike_bytes; lens
  | |- @alike (list _) _ [] [] => apply alike_nil
  | |- @alike (list _) _ (_ :: _) (_ :: _) => apply alike_cons; al
  | |- @alike (option _) _ (Some _) (Some _) => unfold alike, shape_option; al
  | |- @alike (option _) _ None None => exact I
  end].
Ltac destr := repeat (cbv beta iota; lazymatch goal with
  | H : @alike (_ * _) _ ?p ?q |- _ =>
      let H1 := fresh in let H2 := fresh in
      destruct p, q; destruct H as [H1 H2]; cbn [fst snd] in H1, H2
  | H : @alike nat _ ?p ?q |- _ => hnf in H; subst
  | H : @alike N _ ?p ?q |- _ => clear H
  end).
Ltac sim_step := cbv beta iota zeta; lazymatch goal with
  | |- simR _ (tbind _ _) (tbind _ _) => eapply sim_bind; [|intros; destr]
  | |- simR _ (tif _ _ _) (tif _ _ _) =>
      apply sim_if; [first [reflexivity | lens | f_equal; lens]| |]
  | |- simR _ (t_forM _ _ _) (t_forM _ _ _) => apply sim_forM; [al|intros; destr|al]
  | |- simR _ (t_mapM _ _) (t_mapM _ _) => apply sim_mapM; [al|intros; destr]
  | |- simR _ (t_idx _ _) (t_idx _ _) => apply sim_idx; [congruence|al]
  | |- simR _ (t_upd _ _ _) (t_upd _ _ _) => apply sim_upd; [first [congruence|lens]|al|al]
  | |- simR _ (t_slice _ _ _) (t_slice _ _ _) => apply sim_slice; [congruence|congruence|al]
  | |- simR _ (t_slice_to _ _) (t_slice_to _ _) => apply sim_slice_to; [congruence|al]
  | |- simR _ (t_slice_from _ _) (t_slice_from _ _) => apply sim_slice_from; [congruence|al]
  | |- simR _ (t_copy_range _ _ _ _) (t_copy_range _ _ _ _) =>
      apply sim_copy_range; [congruence|first [congruence|lens]|al|al]
  | |- simR _ (t_to_array _ _) (t_to_array _ _) => apply sim_to_array; al
  | |- simR _ (t_chunks_exact _ _) (t_chunks_exact _ _) => apply sim_chunks_exact; al
  | |- simR _ (t_chunks _ _) (t_chunks _ _) => apply sim_chunks; al
  | |- simR _ (tret _) (tret _) => apply sim_ret; al
  | |- simR _ (tpanic _) (tpanic _) => apply sim_panic
  end.
Ltac sims := repeat sim_step.

Section Profile.
Context {P : profile}.

Lemma sim_cmul w a b a' b' : a = a' -> b = b' ->
  simR (fun x y => x = y) (t_cmul w a b) (t_cmul w a' b').
Proof. intros <- <-. apply sim_log; reflexivity. Qed.
Lemma sim_cadd w a b a' b' : a = a' -> b = b' ->
  simR (fun x y => x = y) (t_cadd w a b) (t_cadd w a' b').
Proof. intros <- <-. apply sim_log; reflexivity. Qed.
Lemma sim_nsub a b a' b' : a = a' -> b = b' -> sim (t_nsub a b) (t_nsub a' b').
Proof. intros <- <-. apply sim_log; reflexivity. Qed.

Lemma sim_u32s_to_bytes b w w' : alike w w' -> sim (t_u32s_to_bytes b w) (t_u32s_to_bytes b w').
Proof. intros H. unfold t_u32s_to_bytes. sims. Qed.
Lemma sim_u64s_to_bytes b w w' : alike w w' -> sim (t_u64s_to_bytes b w) (t_u64s_to_bytes b w').
Proof. intros H. unfold t_u64s_to_bytes. sims. Qed.

Lemma sim_sha1_padding s s' n : alike s s' -> sim (t_sha1_padding s n) (t_sha1_padding s' n).
Proof.
  intros H. unfold t_sha1_padding. sims.
  all: apply sim_log; [reflexivity|reflexivity|intros; exact I].
Qed.
Lemma sim_sha2_padding_big s s' n :
  alike s s' -> sim (t_sha2_padding_big s n) (t_sha2_padding_big s' n).
Proof.
  intros H. unfold t_sha2_padding_big. sims.
  all: apply sim_log; [reflexivity|reflexivity|intros; exact I].
Qed.

Lemma sim_sha1_process_chunk h h' c c' : alike h h' -> alike c c' ->
  sim (t_sha1_process_chunk h c) (t_sha1_process_chunk h' c').
Proof.
  intros H H0. unfold t_sha1_process_chunk. sims.
  do 6 (destruct H as [|? ? ? ? _ H]; [sims; fail|]). sims.
Qed.
Lemma sim_sha2_process_chunk h h' c c' : alike h h' -> alike c c' ->
  sim (t_sha2_process_chunk h c) (t_sha2_process_chunk h' c').
Proof.
  intros H H0. unfold t_sha2_process_chunk. sims.
  do 9 (destruct H as [|? ? ? ? _ H]; [sims; fail|]). sims.
Qed.
Lemma sim_sha2_process_big_chunk h h' c c' : alike h h' -> alike c c' ->
  sim (t_sha2_process_big_chunk h c) (t_sha2_process_big_chunk h' c').
Proof.
  intros H H0. unfold t_sha2_process_big_chunk. sims.
  do 9 (destruct H as [|? ? ? ? _ H]; [sims; fail|]). sims.
Qed.

Lemma sim_sha_chunk_loop n f cs cs' l l' e e' h h' :
  (forall h h' c c', alike h h' -> alike c c' -> sim (f h c) (f h' c')) ->
  alike cs cs' -> alike l l' -> alike e e' -> alike h h' ->
  sim (t_sha_chunk_loop n f cs l e h) (t_sha_chunk_loop n f cs' l' e' h').
Proof.
  intros F H1 H2 H3 H4. unfold t_sha_chunk_loop. sims.
  - now apply F.
  - now apply F.
  - destruct e as [e|], e' as [e'|]; try contradiction; [now apply F|now apply sim_ret].
Qed.

Lemma sim_sha1 m m' : length m = length m' -> sim (t_sha1 m) (t_sha1 m').
Proof.
  intros HL. pose proof (alike_bytes m m' HL) as H. unfold t_sha1. sims.
  - rewrite <- HL. now apply sim_sha1_padding.
  - apply sim_sha_chunk_loop; try assumption; [apply sim_sha1_process_chunk|].
    now apply alike_bytes.
  - now apply sim_u32s_to_bytes.
Qed.
Lemma sim_sha224 m m' : length m = length m' -> sim (t_sha224 m) (t_sha224 m').
Proof.
  intros HL. pose proof (alike_bytes m m' HL) as H. unfold t_sha224. sims.
  - rewrite <- HL. now apply sim_sha1_padding.
  - apply sim_sha_chunk_loop; try assumption; [apply sim_sha2_process_chunk|].
    now apply alike_bytes.
  - now apply sim_u32s_to_bytes.
Qed.
Lemma sim_sha256 m m' : length m = length m' -> sim (t_sha256 m) (t_sha256 m').
Proof.
  intros HL. pose proof (alike_bytes m m' HL) as H. unfold t_sha256. sims.
  - rewrite <- HL. now apply sim_sha1_padding.
  - apply sim_sha_chunk_loop; try assumption; [apply sim_sha2_process_chunk|].
    now apply alike_bytes.
  - now apply sim_u32s_to_bytes.
Qed.
Lemma sim_sha384 m m' : length m = length m' -> sim (t_sha384 m) (t_sha384 m').
Proof.
  intros HL. pose proof (alike_bytes m m' HL) as H. unfold t_sha384. sims.
  - rewrite <- HL. now apply sim_sha2_padding_big.
  - apply sim_sha_chunk_loop; try assumption; [apply sim_sha2_process_big_chunk|].
    now apply alike_bytes.
  - now apply sim_u64s_to_bytes.
Qed.
Lemma sim_sha512 m m' : length m = length m' -> sim (t_sha512 m) (t_sha512 m').
Proof.
  intros HL. pose proof (alike_bytes m m' HL) as H. unfold t_sha512. sims.
  - rewrite <- HL. now apply sim_sha2_padding_big.
  - apply sim_sha_chunk_loop; try assumption; [apply sim_sha2_process_big_chunk|].
    now apply alike_bytes.
  - now apply sim_u64s_to_bytes.
Qed.

(** MD4 and MD5. *)
Lemma sim_md_from_slice c c' : alike c c' -> sim (t_md_from_slice c) (t_md_from_slice c').
Proof. intros H. unfold t_md_from_slice. sims. Qed.

Section Process.
Context (f : t_md_process)
  (F : forall x x' a a' b b' c c' d d', alike x x' -> sim (f x a b c d) (f x' a' b' c' d')).

Lemma sim_md_process_block h h' : alike h h' ->
  sim (t_md_process_block f h) (t_md_process_block f h').
Proof using F.
  intros [H1 H2]. unfold t_md_process_block. eapply sim_bind; [now apply sim_md_from_slice|].
  intros x x' Hx. eapply sim_bind; [now apply F|]. intros; destr.
  apply sim_ret. split; cbn [md_unprocessed_bytes md_bytes_consumed]; [constructor|exact H2].
Qed.
Lemma sim_md_consume h h' b b' : alike h h' ->
  sim (t_md_consume f h b) (t_md_consume f h' b').
Proof using F.
  intros [H1 H2]. unfold t_md_consume.
  eapply sim_bindR; [now apply sim_cadd|]. intros n _ <-. cbv zeta.
  assert (A : alike (md_unprocessed_bytes h ++ [b]) (md_unprocessed_bytes h' ++ [b'])) by al.
  apply sim_if.
  - cbn [md_unprocessed_bytes]. now rewrite (alike_len _ _ A).
  - apply sim_md_process_block. split; [exact A|reflexivity].
  - apply sim_ret. split; [exact A|reflexivity].
Qed.
Lemma sim_md_finish h h' : alike h h' -> sim (t_md_finish f h) (t_md_finish f h').
Proof using F.
  intros HH. destruct HH as [H1 H2] eqn:E. clear E. unfold t_md_finish.
  eapply sim_bindR; [now apply sim_cmul|]. intros n _ <-. cbv zeta.
  eapply sim_bind.
  { apply sim_if.
    - now rewrite (alike_len _ _ H1).
    - apply sim_ret. reflexivity.
    - eapply sim_bind; [apply sim_nsub; [reflexivity|now apply alike_len]|].
      intros k k' <-. apply sim_ret. reflexivity. }
  intros p _ <-.
  eapply sim_bind; [now apply sim_md_consume|]. intros h1 h1' Hh1.
  eapply sim_bind; [now apply sim_nsub|]. intros k _ <-.
  eapply sim_bind.
  { apply sim_forM; [al|intros; now apply sim_md_consume|exact Hh1]. }
  intros h2 h2' Hh2. eapply sim_bind.
  { apply sim_forM; [al|intros; now apply sim_md_consume|exact Hh2]. }
  intros h3 h3' Hh3. sims.
Qed.
Lemma sim_md_hash m m' : length m = length m' -> sim (t_md_hash f m) (t_md_hash f m').
Proof using F.
  intros HL. pose proof (alike_bytes m m' HL) as H. unfold t_md_hash.
  eapply sim_bind.
  { apply sim_forM; [exact H|intros; now apply sim_md_consume|split; [constructor|reflexivity]]. }
  intros h h' Hh. now apply sim_md_finish.
Qed.
End Process.

Lemma sim_md4_ff x x' a a' b b' c c' d d' i s : alike x x' ->
  sim (t_md4_ff x a b c d i s) (t_md4_ff x' a' b' c' d' i s).
Proof. intros H. unfold t_md4_ff. sims. Qed.
Lemma sim_md4_gg x x' a a' b b' c c' d d' i s : alike x x' ->
  sim (t_md4_gg x a b c d i s) (t_md4_gg x' a' b' c' d' i s).
Proof. intros H. unfold t_md4_gg. sims. Qed.
Lemma sim_md4_hh x x' a a' b b' c c' d d' i s : alike x x' ->
  sim (t_md4_hh x a b c d i s) (t_md4_hh x' a' b' c' d' i s).
Proof. intros H. unfold t_md4_hh. sims. Qed.
Lemma sim_md4_process x x' a a' b b' c c' d d' : alike x x' ->
  sim (t_md4_process x a b c d) (t_md4_process x' a' b' c' d').
Proof.
  intros H. unfold t_md4_process.
  repeat (eapply sim_bind;
    [first [now apply sim_md4_ff | now apply sim_md4_gg | now apply sim_md4_hh]
    |intros ? ? _]).
  apply sim_ret. al.
Qed.
Lemma sim_md4_hash m m' : length m = length m' -> sim (t_md4_hash m) (t_md4_hash m').
Proof. apply sim_md_hash. intros. now apply sim_md4_process. Qed.

Lemma sim_md5_ff x x' a a' b b' c c' d d' r : alike x x' ->
  sim (t_md5_ff x a b c d r) (t_md5_ff x' a' b' c' d' r).
Proof.
  intros H. unfold t_md5_ff. destruct r as [[k s] i]. sims.
  now apply sim_nsub.
Qed.
Lemma sim_md5_gg x x' a a' b b' c c' d d' r : alike x x' ->
  sim (t_md5_gg x a b c d r) (t_md5_gg x' a' b' c' d' r).
Proof.
  intros H. unfold t_md5_gg. destruct r as [[k s] i]. sims.
  now apply sim_nsub.
Qed.
Lemma sim_md5_hh x x' a a' b b' c c' d d' r : alike x x' ->
  sim (t_md5_hh x a b c d r) (t_md5_hh x' a' b' c' d' r).
Proof.
  intros H. unfold t_md5_hh. destruct r as [[k s] i]. sims.
  now apply sim_nsub.
Qed.
Lemma sim_md5_ii x x' a a' b b' c c' d d' r : alike x x' ->
  sim (t_md5_ii x a b c d r) (t_md5_ii x' a' b' c' d' r).
Proof.
  intros H. unfold t_md5_ii. destruct r as [[k s] i]. sims.
  now apply sim_nsub.
Qed.

(** A loop over the same list. *)
Lemma sim_forM_same {A S} `{shape S} (l : list A) (f f' : A -> S -> tr S) :
  (forall a s s', alike s s' -> sim (f a s) (f' a s')) ->
  forall s s', alike s s' -> sim (t_forM l f s) (t_forM l f' s').
Proof.
  intros HF. induction l as [|a l IH]; intros s s' Hs; cbn [t_forM].
  - apply (sim_bindR (fun _ _ => True)); [split; [reflexivity|exact I]|].
    intros _ _ _. now apply sim_ret.
  - apply (sim_bindR (fun _ _ => True)); [split; [reflexivity|exact I]|].
    intros _ _ _. eapply sim_bind; [now apply HF|]. intros. now apply IH.
Qed.
Lemma sim_idx_same {A} (l : list A) (i : nat) : simR (fun x y => x = y) (t_idx l i) (t_idx l i).
Proof. apply sim_log; reflexivity. Qed.

Lemma sim_md5_process x x' a a' b b' c c' d d' : alike x x' ->
  sim (t_md5_process x a b c d) (t_md5_process x' a' b' c' d').
Proof.
  intros H. unfold t_md5_process.
  do 4 (eapply sim_bind; [apply sim_forM_same; [|al]; intros; destr;
    repeat lazymatch goal with
    | |- simR _ (tbind (t_idx _ _) _) _ =>
        eapply sim_bindR; [apply sim_idx_same|intros ? _ <-]
    | |- simR _ (tbind (t_md5_ff _ _ _ _ _ _) _) _ =>
        eapply sim_bind; [now apply sim_md5_ff|intros ? ? _]
    | |- simR _ (tbind (t_md5_gg _ _ _ _ _ _) _) _ =>
        eapply sim_bind; [now apply sim_md5_gg|intros ? ? _]
    | |- simR _ (tbind (t_md5_hh _ _ _ _ _ _) _) _ =>
        eapply sim_bind; [now apply sim_md5_hh|intros ? ? _]
    | |- simR _ (tbind (t_md5_ii _ _ _ _ _ _) _) _ =>
        eapply sim_bind; [now apply sim_md5_ii|intros ? ? _]
    end; apply sim_ret; al|intros; destr]).
  apply sim_ret. al.
Qed.
Lemma sim_md5_hash m m' : length m = length m' -> sim (t_md5_hash m) (t_md5_hash m').
Proof. apply sim_md_hash. intros. now apply sim_md5_process. Qed.

(** RC5. *)
Lemma sim_rc5_key_words k k' : alike k k' -> sim (t_rc5_key_words k) (t_rc5_key_words k').
Proof. intros H. unfold t_rc5_key_words. sims. Qed.
Lemma sim_rc5_expand_key k k' r : alike k k' ->
  sim (t_rc5_expand_key k r) (t_rc5_expand_key k' r).
Proof.
  intros H. unfold t_rc5_expand_key. rewrite (alike_len _ _ H).
  eapply sim_bind; [now apply sim_rc5_key_words|]. intros l l' Hl. cbv zeta.
  eapply sim_bind.
  { apply sim_forM; [al|intros; destr|al]. eapply sim_bind; [now apply sim_nsub|].
    intros; destr. sims. }
  intros s s' Hs. eapply sim_bind; [|intros; destr; apply sim_ret; al].
  apply sim_forM; [al|intros; destr|al].
  do 4 (eapply sim_bind; [sim_step|intros; destr]).
  eapply sim_bind; [|intros; destr; apply sim_ret; al].
  destruct ((length k' + 3) / 4)%nat; [apply sim_panic|apply sim_ret; al].
Qed.
Lemma sim_rc5_new k k' r : length k = length k' -> sim (t_rc5_new k r) (t_rc5_new k' r).
Proof.
  intros HL. pose proof (alike_bytes k k' HL) as H. unfold t_rc5_new. rewrite HL.
  apply sim_if; [reflexivity| |apply sim_panic].
  eapply sim_bind; [now apply sim_rc5_expand_key|]. intros s s' Hs.
  apply sim_ret. split; [exact Hs|reflexivity].
Qed.
Lemma sim_rc5_encrypt_32 c c' p p' : alike c c' ->
  sim (t_rc5_encrypt_32 c p) (t_rc5_encrypt_32 c' p').
Proof.
  intros [H1 H2]. destruct p as [a b], p' as [a' b']. unfold t_rc5_encrypt_32.
  rewrite H2. sims.
Qed.
Lemma sim_rc5_decrypt_32 c c' p p' : alike c c' ->
  sim (t_rc5_decrypt_32 c p) (t_rc5_decrypt_32 c' p').
Proof.
  intros [H1 H2]. destruct p as [a b], p' as [a' b']. unfold t_rc5_decrypt_32.
  rewrite H2. sims.
Qed.
Lemma sim_rc5_load b b' : alike b b' -> sim (t_rc5_load b) (t_rc5_load b').
Proof. intros H. unfold t_rc5_load. sims. Qed.
Lemma sim_rc5_store p p' : sim (t_rc5_store p) (t_rc5_store p').
Proof. destruct p, p'. unfold t_rc5_store. sims. Qed.
Lemma sim_rc5_encrypt c c' b b' : alike c c' -> alike b b' ->
  sim (t_rc5_encrypt c b) (t_rc5_encrypt c' b').
Proof.
  intros H1 H2. unfold t_rc5_encrypt.
  eapply sim_bind; [now apply sim_rc5_load|]. intros p p' _.
  eapply sim_bind; [now apply sim_rc5_encrypt_32|]. intros q q' _. apply sim_rc5_store.
Qed.
Lemma sim_rc5_decrypt c c' b b' : alike c c' -> alike b b' ->
  sim (t_rc5_decrypt c b) (t_rc5_decrypt c' b').
Proof.
  intros H1 H2. unfold t_rc5_decrypt.
  eapply sim_bind; [now apply sim_rc5_load|]. intros p p' _.
  eapply sim_bind; [now apply sim_rc5_decrypt_32|]. intros q q' _. apply sim_rc5_store.
Qed.

(** What the properties say. *)
Lemma sim_events {A} {S : shape A} (x y : tr A) : sim x y -> fst x = fst y.
Proof using. now intros [H _]. Qed.

Lemma events_rc5_encrypt c c' b b' : rc5_r c = rc5_r c' ->
  length (rc5_s c) = length (rc5_s c') -> length b = length b' ->
  fst (t_rc5_encrypt c b) = fst (t_rc5_encrypt c' b').
Proof using.
  intros H1 H2 H3. apply sim_events, sim_rc5_encrypt; [split; [|exact H1]|];
    now apply alike_bytes.
Qed.
Lemma events_rc5_decrypt c c' b b' : rc5_r c = rc5_r c' ->
  length (rc5_s c) = length (rc5_s c') -> length b = length b' ->
  fst (t_rc5_decrypt c b) = fst (t_rc5_decrypt c' b').
Proof using.
  intros H1 H2 H3. apply sim_events, sim_rc5_decrypt; [split; [|exact H1]|];
    now apply alike_bytes.
Qed.
End Profile.

(** Two ciphers that were set up with as many rounds. *)
Lemma events_rc5_keys k k' r c c' b b' : rc5_new k r = Ok c -> rc5_new k' r = Ok c' ->
  length b = length b' ->
  fst (t_rc5_encrypt c b) = fst (t_rc5_encrypt c' b') /\
  fst (t_rc5_decrypt c b) = fst (t_rc5_decrypt c' b').
Proof.
  assert (G : forall k c, rc5_new k r = Ok c ->
    rc5_r c = r /\ length (rc5_s c) = (2 * (ix r + 1))%nat).
  { clear. intros k c E. destruct (Nat.eq_dec (length k) 0) as [L|L].
    { destruct k; [|discriminate L]. rewrite rc5_new_empty in E. discriminate E. }
    destruct (Nat.le_gt_cases (length k) 255) as [L'|L'].
    - rewrite rc5_new_ok in E by lia. injection E as <-. cbn [rc5_r rc5_s].
      split; [reflexivity|]. now apply rc5_expand_key_eq; lia.
    - rewrite rc5_new_long in E by lia. discriminate E. }
  intros E E' L. destruct (G _ _ E) as [H1 H2]. destruct (G _ _ E') as [H1' H2'].
  split; [apply events_rc5_encrypt|apply events_rc5_decrypt]; congruence.
Qed.
