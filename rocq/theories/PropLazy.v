(** * C77: the iterator returned by [StreamCipher::encrypt] *)
From Verif Require Import Base BaseLemmas ModelBlock SpecBlock SpecLazy ProofLazy.
Local Open Scope N_scope.

(** C77. Bytes are encrypted when they are asked for: [n] calls of [next] use [n]
    bytes of the data and [n] of the keys. *)
Theorem c77_pull : forall D K (nd : key_iter D) (nk : key_iter K) n ds d d' k ks k',
  yields nd d ds d' -> yields nk k ks k' -> length ds = n -> length ks = n ->
  pull (sc_next nd nk) n (d, k) = (xor_bytes ks ds, Ok (d', k')).
Proof. exact (@pull_exact). Qed.

(** The end of the data leaves the keys where they are. *)
Theorem c77_data_end : forall D K (nd : key_iter D) (nk : key_iter K) n ds d d' d'' k ks k',
  yields nd d ds d' -> yields nk k ks k' -> length ks = length ds -> (length ds < n)%nat ->
  nd d' = Ok (None, d'') ->
  pull (sc_next nd nk) n (d, k) = (xor_bytes ks ds, Ok (d'', k')).
Proof. exact (@pull_data_end). Qed.

(** The end of the keys is a panic, after the bytes for which there were keys. *)
Theorem c77_keys_end : forall D K (nd : key_iter D) (nk : key_iter K) n ds d d' b d'' k ks k' k'',
  yields nd d ds d' -> yields nk k ks k' -> length ks = length ds -> (length ds < n)%nat ->
  nd d' = Ok (Some b, d'') -> nk k' = Ok (None, k'') ->
  pull (sc_next nd nk) n (d, k) = (xor_bytes ks ds, Panic PUnwrap).
Proof. exact (@pull_keys_end). Qed.

(** A panic of the data or of the keys is passed on. *)
Theorem c77_panics : forall D K (nd : key_iter D) (nk : key_iter K) n ds d d' k ks k' r,
  yields nd d ds d' -> yields nk k ks k' -> length ks = length ds -> (length ds < n)%nat ->
  nd d' = Panic r \/ (exists b d'', nd d' = Ok (Some b, d'')) /\ nk k' = Panic r ->
  pull (sc_next nd nk) n (d, k) = (xor_bytes ks ds, Panic r).
Proof. exact (@pull_panics). Qed.

(** There are no other cases. *)
Theorem c77_cases : forall D K (nd : key_iter D) (nk : key_iter K) n d k,
  exists ds d' ks k', yields nd d ds d' /\ yields nk k ks k' /\
  length ks = length ds /\ (length ds <= n)%nat /\
  (length ds = n \/
   (exists d'', nd d' = Ok (None, d'')) \/
   (exists b d'' k'', nd d' = Ok (Some b, d'') /\ nk k' = Ok (None, k'')) \/
   (exists r, nd d' = Panic r \/ (exists b d'', nd d' = Ok (Some b, d'')) /\ nk k' = Panic r)).
Proof. exact (@pull_cases). Qed.

(** Collecting all of it is the function of C11; taking [n] bytes is that function
    on [n] bytes of data. *)
Theorem c77_collect : forall K (nk : key_iter K) data k n, (length data < n)%nat ->
  sc_encrypt nk k data =
  match pull (sc_next list_iter nk) n (data, k) with
  | (bs, Ok (_, k')) => Ok (bs, k')
  | (_, Panic r) => Panic r
  end.
Proof. exact (@pull_all). Qed.

Theorem c77_take : forall K (nk : key_iter K) data k n c k', (n <= length data)%nat ->
  sc_encrypt nk k (firstn n data) = Ok (c, k') ->
  pull (sc_next list_iter nk) n (data, k) = (c, Ok (skipn n data, k')).
Proof. exact (@pull_firstn). Qed.

(** Five keys for seven bytes. *)
Example c77_case :
  yields list_iter [1; 2; 3; 4; 5] [1; 2] [3; 4; 5] /\
  pull (sc_next list_iter list_iter) 2 ([7; 7; 7; 7; 7; 7; 7], [1; 2; 3; 4; 5]) =
    ([6; 5], Ok ([7; 7; 7; 7; 7], [3; 4; 5])) /\
  pull (sc_next list_iter list_iter) 9 ([7; 7], [1; 2; 3; 4; 5]) = ([6; 5], Ok ([], [3; 4; 5])) /\
  pull (sc_next list_iter list_iter) 9 ([7; 7; 7; 7; 7; 7; 7], [1; 2; 3; 4; 5]) =
    ([6; 5; 4; 3; 2], Panic PUnwrap) /\
  sc_encrypt list_iter [1; 2; 3; 4; 5] [7; 7; 7; 7; 7; 7; 7] = Panic PUnwrap.
Proof. split; [exact (list_yields [1; 2] [3; 4; 5])|]. repeat split. Qed.

Print Assumptions c77_pull.
Print Assumptions c77_data_end.
Print Assumptions c77_keys_end.
Print Assumptions c77_panics.
Print Assumptions c77_cases.
Print Assumptions c77_collect.
Print Assumptions c77_take.
