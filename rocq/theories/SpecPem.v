(** * Base64 (RFC 4648) and the PEM text format *)
From Coq Require Import String.
From Verif Require Import Base SpecEndian SpecText.
From Verif Require ModelPem.
Local Open Scope N_scope.
Local Open Scope list_scope.

(** ** Base64 *)

(** RFC 4648, table 1. *)
Definition alphabet : list N :=
  text "ABCDEFGHIJKLMNOPQRSTUVWXYZabcdefghijklmnopqrstuvwxyz0123456789+/".

(** The bits of a byte and the number of a bit string, most significant first. *)
Definition byte_bits (b : N) : list bool :=
  map (fun i => N.testbit b (N.of_nat (7 - i))) (seq 0 8).
Definition bits_num (bs : list bool) : N :=
  fold_left (fun a (b : bool) => 2 * a + if b then 1 else 0) bs 0.

(** RFC 4648, section 4: the bits of the data, with zero bits added to fill the
    last sextet, in groups of six, each written as a letter; then '=' up to a
    multiple of four letters. *)
Definition base64 (d : list N) : list N :=
  let pad := ((3 - length d mod 3) mod 3)%nat in
  let bits := concat (map byte_bits d) ++ repeat false (2 * pad) in
  map (fun g => nth (N.to_nat (bits_num g)) alphabet 0) (groups 6 bits) ++ repeat 61 pad.

(** ** Lines *)

(** Lines joined by line feeds. *)
Fixpoint join_lines (ls : list (list N)) : list N :=
  match ls with
  | [] => []
  | [l] => l
  | l :: ls' => l ++ 10 :: join_lines ls'
  end.

(** Code points with the Unicode property White_Space. *)
Definition white_space : list N :=
  [0x9; 0xa; 0xb; 0xc; 0xd; 0x20; 0x85; 0xa0; 0x1680;
   0x2000; 0x2001; 0x2002; 0x2003; 0x2004; 0x2005; 0x2006; 0x2007; 0x2008; 0x2009; 0x200a;
   0x2028; 0x2029; 0x202f; 0x205f; 0x3000].
Definition white (c : N) : Prop := In c white_space.

(** [t] is [l] without the white space around it. *)
Definition trimmed (l t : list N) : Prop :=
  exists a b, l = a ++ t ++ b /\ Forall white a /\ Forall white b /\
    (forall c r, t = c :: r -> ~ white c) /\ (forall c r, t = r ++ [c] -> ~ white c).

(** ** PEM *)

Definition begin_line (label : list N) : list N := text "-----BEGIN " ++ label ++ text "-----".
Definition end_line (label : list N) : list N := text "-----END " ++ label ++ text "-----".

(** Lines that do not look like a BEGIN or END line. *)
Definition plain (l : list N) : Prop :=
  (forall r, l <> text "-----BEGIN " ++ r) /\ (forall r, l <> text "-----END " ++ r).

(** The texts accepted: one BEGIN line and one END line with the same label, the
    base64 encoding of the data on the lines between them, nothing that looks
    like a BEGIN or END line elsewhere; white space around lines ignored. *)
Definition pem_text (s label data : list N) : Prop :=
  exists ls pre mid post,
    s = join_lines ls /\ Forall (fun l => ~ In 10 l) ls /\
    Forall2 trimmed ls (pre ++ [begin_line label] ++ mid ++ [end_line label] ++ post) /\
    Forall plain pre /\ Forall plain mid /\ Forall plain post /\
    bytes data /\ concat mid = base64 data.

(** Why a text is rejected, by its trimmed lines: the first line in order that
    cannot be part of a PEM text decides, then missing lines, then the label,
    then the data. [RErr]'s argument is named as in the code. *)
Inductive pem_fault := 
| FMissingBegin | FEndBeforeBegin | FInvalidBegin | FMissingEnd | FMultipleBegin
| FInvalidEnd | FMultipleEnd | FLabelMismatch | FBadBase64.

Definition unclosed (r : list N) : Prop := forall q, r <> q ++ text "-----".

Inductive faulty : list (list N) -> pem_fault -> Prop :=
| f_missing_begin pre : Forall plain pre -> faulty pre FMissingBegin
| f_end_before_begin pre r post : Forall plain pre ->
    faulty (pre ++ (text "-----END " ++ r) :: post) FEndBeforeBegin
| f_invalid_begin pre r post : Forall plain pre -> unclosed r ->
    faulty (pre ++ (text "-----BEGIN " ++ r) :: post) FInvalidBegin
| f_missing_end pre b mid : Forall plain pre -> Forall plain mid ->
    faulty (pre ++ begin_line b :: mid) FMissingEnd
| f_second_begin pre b mid r post : Forall plain pre -> Forall plain mid ->
    faulty (pre ++ begin_line b :: mid ++ (text "-----BEGIN " ++ r) :: post) FMultipleBegin
| f_invalid_end pre b mid r post : Forall plain pre -> Forall plain mid -> unclosed r ->
    faulty (pre ++ begin_line b :: mid ++ (text "-----END " ++ r) :: post) FInvalidEnd
| f_begin_after_end pre b mid e rest r post :
    Forall plain pre -> Forall plain mid -> Forall plain rest ->
    faulty (pre ++ begin_line b :: mid ++ end_line e :: rest ++ (text "-----BEGIN " ++ r) :: post)
      FMultipleBegin
| f_second_end pre b mid e rest r post :
    Forall plain pre -> Forall plain mid -> Forall plain rest ->
    faulty (pre ++ begin_line b :: mid ++ end_line e :: rest ++ (text "-----END " ++ r) :: post)
      FMultipleEnd
| f_label pre b mid e rest :
    Forall plain pre -> Forall plain mid -> Forall plain rest -> e <> b ->
    faulty (pre ++ begin_line b :: mid ++ end_line e :: rest) FLabelMismatch
| f_data pre b mid rest :
    Forall plain pre -> Forall plain mid -> Forall plain rest ->
    (forall d, bytes d -> concat mid <> base64 d) ->
    faulty (pre ++ begin_line b :: mid ++ end_line b :: rest) FBadBase64.

(** The error the program reports for each fault. *)
Definition fault_error (f : pem_fault) : ModelPem.pem_error :=
  match f with
  | FMissingBegin => ModelPem.MissingBegin
  | FEndBeforeBegin => ModelPem.EndBeforeBegin
  | FInvalidBegin => ModelPem.InvalidBegin
  | FMissingEnd => ModelPem.MissingEnd
  | FMultipleBegin => ModelPem.MultipleBegin
  | FInvalidEnd => ModelPem.InvalidEnd
  | FMultipleEnd => ModelPem.MultipleEnd
  | FLabelMismatch => ModelPem.LabelMismatch
  | FBadBase64 => ModelPem.BadBase64
  end.

(** A line. *)
Definition no_lf (l : list N) : Prop := ~ In 10 l.
