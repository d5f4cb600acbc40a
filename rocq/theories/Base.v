(** * Rust semantics shared by all model files

    Everything here models the Rust language or its standard library (no line
    of /repo in particular, except where a definition says so); the model files
    built on it cite the lines of /repo they model.  No proofs in this file. *)

From Coq Require Export List Arith NArith ZArith Lia Bool.
Export ListNotations.
Open Scope N_scope.

(** ** Panics *)

(** Why a Rust program panicked.  [PFuel] is not a Rust panic: it says that the
    fuel given to the model of a [while] loop ran out, i.e. that the model
    makes no claim. Theorems conclude [Ok] or a specific panic, never [PFuel]. *)
Inductive panic_reason : Set :=
| PIndex      (* array index or slice range out of bounds *)
| PSliceLen   (* copy_from_slice with different lengths *)
| POverflow   (* arithmetic overflow (overflow-checks semantics) *)
| PDivZero    (* division or remainder by zero *)
| PUnwrap     (* unwrap/expect on None or Err *)
| PAssert     (* assert!, assert_eq! *)
| PExplicit   (* panic!("...") *)
| PFuel.

Inductive res (A : Type) : Type :=
| Ok (a : A)
| Panic (r : panic_reason).
Arguments Ok {A} a.
Arguments Panic {A} r.

Definition bind {A B} (m : res A) (f : A -> res B) : res B :=
  match m with Ok a => f a | Panic r => Panic r end.

Notation "'let*' x ':=' m 'in' k" := (bind m (fun x => k))
  (at level 200, x pattern, m at level 100, k at level 200, right associativity).

(** [Option::unwrap]/[expect]. *)
Definition unwrap {A} (o : option A) : res A :=
  match o with Some a => Ok a | None => Panic PUnwrap end.

(** Rust's [Result], as data. *)
Inductive result (A E : Type) : Type :=
| ROk (a : A)
| RErr (e : E).
Arguments ROk {A E} a.
Arguments RErr {A E} e.

(** [Result::unwrap]. *)
Definition runwrap {A E} (r : result A E) : res A :=
  match r with ROk a => Ok a | RErr _ => Panic PUnwrap end.

(** ** Arrays and slices *)

(** [l[i]] as a value. *)
Definition idx {A} (l : list A) (i : nat) : res A :=
  match nth_error l i with Some a => Ok a | None => Panic PIndex end.

(** [l[i] = v]. *)
Definition upd {A} (l : list A) (i : nat) (v : A) : res (list A) :=
  if (i <? length l)%nat then Ok (firstn i l ++ v :: skipn (S i) l)
  else Panic PIndex.

(** [l[a..b]]: panics unless [a <= b <= l.len()]. *)
Definition slice {A} (l : list A) (a b : nat) : res (list A) :=
  if ((a <=? b) && (b <=? length l))%nat%bool
  then Ok (firstn (b - a) (skipn a l)) else Panic PIndex.

(** [l[..b]]. *)
Definition slice_to {A} (l : list A) (b : nat) : res (list A) :=
  if (b <=? length l)%nat then Ok (firstn b l) else Panic PIndex.

(** [l[a..]]. *)
Definition slice_from {A} (l : list A) (a : nat) : res (list A) :=
  if (a <=? length l)%nat then Ok (skipn a l) else Panic PIndex.

(** [l[a..b].copy_from_slice(src)]. *)
Definition copy_range {A} (l : list A) (a b : nat) (src : list A) : res (list A) :=
  if ((a <=? b) && (b <=? length l))%nat%bool
  then if (length src =? b - a)%nat
       then Ok (firstn a l ++ src ++ skipn b l)
       else Panic PSliceLen
  else Panic PIndex.

(** [l[a..b].fill(v)], also [for x in &mut l[a..b] { *x = v; }]. *)
Definition fill_range {A} (l : list A) (a b : nat) (v : A) : res (list A) :=
  if ((a <=? b) && (b <=? length l))%nat%bool
  then Ok (firstn a l ++ repeat v (b - a) ++ skipn b l)
  else Panic PIndex.

(** [<[T; N]>::try_from(slice).unwrap()]. *)
Definition to_array {A} (n : nat) (l : list A) : res (list A) :=
  if (length l =? n)%nat then Ok l else Panic PUnwrap.

(** [l.swap(i, j)]. *)
Definition swap {A} (l : list A) (i j : nat) : res (list A) :=
  let* a := idx l i in
  let* b := idx l j in
  let* l := upd l i b in
  upd l j a.

(** [iter().position(p)]. *)
Fixpoint position {A} (p : A -> bool) (l : list A) : option nat :=
  match l with
  | [] => None
  | a :: l' => if p a then Some O else option_map S (position p l')
  end.

(** [iter().rposition(p)]: index of the last element satisfying [p]. *)
Fixpoint rposition {A} (p : A -> bool) (l : list A) : option nat :=
  match l with
  | [] => None
  | a :: l' => match rposition p l' with
               | Some i => Some (S i)
               | None => if p a then Some O else None
               end
  end.

(** [l.last()]. *)
Definition last_opt {A} (l : list A) : option A := nth_error l (length l - 1).

(** [l.chunks_exact(n)] and its [remainder()].  The fuel is the length of the
    slice, which suffices for [n >= 1]; [chunks_exact] checks [n]. *)
Fixpoint chunks_exact_fuel {A} (fuel n : nat) (l : list A) : list (list A) * list A :=
  match fuel with
  | O => ([], l)
  | S fuel' =>
      if (n <=? length l)%nat
      then let (cs, r) := chunks_exact_fuel fuel' n (skipn n l) in (firstn n l :: cs, r)
      else ([], l)
  end.

(** Panics for a chunk size of zero, as the standard library does. *)
Definition chunks_exact {A} (n : nat) (l : list A) : res (list (list A) * list A) :=
  match n with
  | O => Panic PExplicit
  | _ => Ok (chunks_exact_fuel (length l) n l)
  end.

(** [l.chunks(n)]: the last chunk may be shorter, there is no empty chunk. *)
Definition chunks {A} (n : nat) (l : list A) : res (list (list A)) :=
  let* cr := chunks_exact n l in
  let (cs, r) := cr in
  Ok (match r with [] => cs | _ => cs ++ [r] end).

(** ** Loops *)

(** [for a in l { s = f(a, s) }]. *)
Fixpoint forM {A S} (l : list A) (f : A -> S -> res S) (s : S) : res S :=
  match l with
  | [] => Ok s
  | a :: l' => let* s' := f a s in forM l' f s'
  end.

(** The range [a..b]. *)
Definition range (a b : nat) : list nat := seq a (b - a).

(** [l.iter().enumerate()]. *)
Fixpoint enumerate_from {A} (i : nat) (l : list A) : list (nat * A) :=
  match l with
  | [] => []
  | a :: l' => (i, a) :: enumerate_from (S i) l'
  end.
Definition enumerate {A} (l : list A) : list (nat * A) := enumerate_from O l.

(** [iter.map(f).collect()] for a closure that may panic. *)
Fixpoint mapM {A B} (f : A -> res B) (l : list A) : res (list B) :=
  match l with
  | [] => Ok []
  | a :: l' => let* b := f a in let* bs := mapM f l' in Ok (b :: bs)
  end.

(** ** Machine integers of [w] bits, as [N] *)

Definition wadd (w a b : N) : N := (a + b) mod 2 ^ w.            (* wrapping_add *)
Definition wsub (w a b : N) : N := (a + 2 ^ w - b) mod 2 ^ w.    (* wrapping_sub *)
Definition wneg (w a : N) : N := (2 ^ w - a) mod 2 ^ w.          (* wrapping_neg *)
Definition wnot (w a : N) : N := N.lxor a (N.ones w).            (* ! *)
Definition wshl (w a k : N) : N := N.shiftl a k mod 2 ^ w.       (* <<, k < w *)
Definition wshr (a k : N) : N := N.shiftr a k.                   (* >>, k < w *)
(** [rotate_left]/[rotate_right] take any [u32] and use it modulo the width. *)
Definition rotl (w a k : N) : N :=
  let k := k mod w in N.lor (wshl w a k) (wshr a (w - k)).
Definition rotr (w a k : N) : N :=
  let k := k mod w in N.lor (wshr a k) (wshl w a (w - k)).

(** The compiler profile: are arithmetic overflows checked? The dev profile
    panics on overflow, the release profile wraps around. *)
Class profile := { overflow_checks : bool }.
Definition debug : profile := {| overflow_checks := true |}.
Definition release : profile := {| overflow_checks := false |}.

(** [+], [-], [*]. *)
Definition cadd {P : profile} (w a b : N) : res N :=
  if a + b <? 2 ^ w then Ok (a + b)
  else if overflow_checks then Panic POverflow else Ok ((a + b) mod 2 ^ w).
Definition csub {P : profile} (w a b : N) : res N :=
  if b <=? a then Ok (a - b)
  else if overflow_checks then Panic POverflow else Ok ((a + 2 ^ w - b) mod 2 ^ w).
Definition cmul {P : profile} (w a b : N) : res N :=
  if a * b <? 2 ^ w then Ok (a * b)
  else if overflow_checks then Panic POverflow else Ok ((a * b) mod 2 ^ w).
(** The same for [usize] values that the model keeps as [nat] (lengths,
    indices): only subtraction can overflow for sizes that fit in memory. *)
Definition nsub {P : profile} (a b : nat) : res nat :=
  if (b <=? a)%nat then Ok (a - b)%nat
  else if overflow_checks then Panic POverflow
  else Ok (N.to_nat ((N.of_nat a + 2 ^ 64 - N.of_nat b) mod 2 ^ 64)).

(** ** Endian conversions *)

(** [to_le_bytes] of a [k]-byte integer. *)
Fixpoint to_le (k : nat) (x : N) : list N :=
  match k with
  | O => []
  | S k' => x mod 256 :: to_le k' (x / 256)
  end.
(** [to_be_bytes]. *)
Definition to_be (k : nat) (x : N) : list N := rev (to_le k x).
(** [from_le_bytes]. *)
Fixpoint from_le (l : list N) : N :=
  match l with
  | [] => 0
  | b :: l' => b + 256 * from_le l'
  end.
(** [from_be_bytes]. *)
Definition from_be (l : list N) : N := from_le (rev l).

(** [b as usize] used as an index. *)
Definition ix (b : N) : nat := N.to_nat b.

(** ** Programs that emit bytes through a callback [FnMut(u8)]

    The emitted bytes are kept also when the program panics afterwards. *)
Definition out (A : Type) : Type := (list N * res A)%type.
Definition oret {A} (a : A) : out A := ([], Ok a).
Definition olift {A} (r : res A) : out A := ([], r).
Definition oemit (bs : list N) : out unit := (bs, Ok tt).
Definition obind {A B} (m : out A) (f : A -> out B) : out B :=
  match m with
  | (e, Ok a) => let (e', r) := f a in (e ++ e', r)
  | (e, Panic p) => (e, Panic p)
  end.
Notation "'let!' x ':=' m 'in' k" := (obind m (fun x => k))
  (at level 200, x pattern, m at level 100, k at level 200, right associativity).

(** [for a in l { s = f(a, s) }] with emission. *)
Fixpoint forO {A S} (l : list A) (f : A -> S -> out S) (s : S) : out S :=
  match l with
  | [] => oret s
  | a :: l' => let! s' := f a s in forO l' f s'
  end.

(** ** Well-formed data: Rust's types guarantee these *)

Definition byte (b : N) : Prop := b < 256.
Definition bytes (l : list N) : Prop := Forall byte l.
