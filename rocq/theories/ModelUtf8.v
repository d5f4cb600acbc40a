(** * src/pem/mod.rs on the bytes of a string

    The functions of [ModelPem] on lists of characters once more, on the UTF-8 bytes that
    a [str] holds. [lines], [strip_prefix] and [strip_suffix] with ASCII patterns compare bytes: they
    are the functions of [ModelPem], applied to bytes. [trim] decodes characters. *)
From Verif Require Import Base ModelPem.
Local Open Scope N_scope.

(** [core::str::validations::next_code_point]. *)
Definition next_code_point (s : list N) : option (N * list N) :=
  match s with
  | [] => None
  | x :: s =>
      if x <? 128 then Some (x, s)
      else match s with
      | [] => None
      | y :: s =>
          let init := N.land x 0x1f in
          if x <? 0xe0 then Some (N.lor (N.shiftl init 6) (N.land y 0x3f), s)
          else match s with
          | [] => None
          | z :: s =>
              let y_z := N.lor (N.shiftl (N.land y 0x3f) 6) (N.land z 0x3f) in
              if x <? 0xf0 then Some (N.lor (N.shiftl init 12) y_z, s)
              else match s with
              | [] => None
              | w :: s => Some (N.lor (N.shiftl (N.land init 7) 18) (N.lor (N.shiftl y_z 6) (N.land w 0x3f)), s)
              end
          end
      end
  end.

(** [utf8_is_cont_byte]. *)
Definition is_cont_byte (b : N) : bool := (128 <=? b) && (b <? 192).

(** [core::str::validations::next_code_point_reverse], for the bytes in reverse. *)
Definition next_code_point_reverse (s : list N) : option (N * list N) :=
  let add ch b := N.lor (N.shiftl ch 6) (N.land b 0x3f) in
  match s with
  | [] => None
  | w :: s =>
      if w <? 128 then Some (w, s)
      else match s with
      | [] => None
      | z :: s =>
          if negb (is_cont_byte z) then Some (add (N.land z 0x1f) w, s)
          else match s with
          | [] => None
          | y :: s =>
              if negb (is_cont_byte y) then Some (add (add (N.land y 0xf) z) w, s)
              else match s with
              | [] => None
              | x :: s => Some (add (add (add (N.land x 7) y) z) w, s)
              end
          end
      end
  end.

(** The two halves of [str::trim]; the second for the bytes in reverse. A character has at least
    one byte, so that as many steps as there are bytes suffice. *)
Fixpoint trim_with (next : list N -> option (N * list N)) (fuel : nat) (s : list N) : list N :=
  match fuel with
  | O => s
  | S fuel' =>
      match next s with
      | Some (c, s') => if is_whitespace c then trim_with next fuel' s' else s
      | None => s
      end
  end.
Definition trim_utf8 (s : list N) : list N :=
  let s := trim_with next_code_point (length s) s in
  rev (trim_with next_code_point_reverse (length s) (rev s)).

(** The line loop of [extract_pem_pieces], mod.rs:46-74. *)
Fixpoint pem_lines_utf8 (ls : list (list N)) (begin_label : option (list N))
    (data_lines : list (list N)) (end_label : option (list N))
    : result (option (list N) * list (list N) * option (list N)) pem_error :=
  match ls with
  | [] => ROk (begin_label, data_lines, end_label)
  | l :: ls' =>
      let l := trim_utf8 l in
      match strip_prefix begin_prefix l with
      | Some l =>
          match begin_label with
          | Some _ => RErr MultipleBegin
          | None =>
              match strip_suffix dashes l with
              | Some l => pem_lines_utf8 ls' (Some l) data_lines end_label
              | None => RErr InvalidBegin
              end
          end
      | None =>
          match strip_prefix end_prefix l with
          | Some l =>
              match begin_label with
              | None => RErr EndBeforeBegin
              | Some _ =>
                  match end_label with
                  | Some _ => RErr MultipleEnd
                  | None =>
                      match strip_suffix dashes l with
                      | Some l => pem_lines_utf8 ls' begin_label data_lines (Some l)
                      | None => RErr InvalidEnd
                      end
                  end
              end
          | None =>
              match begin_label, end_label with
              | Some _, None => pem_lines_utf8 ls' begin_label (data_lines ++ [l]) end_label
              | _, _ => pem_lines_utf8 ls' begin_label data_lines end_label
              end
          end
      end
  end.

(** [extract_pem_pieces], mod.rs:41-86. *)
Definition extract_pem_pieces_utf8 (s : list N) : result (list N * list (list N)) pem_error :=
  match pem_lines_utf8 (lines s) None [] None with
  | RErr e => RErr e
  | ROk (begin_label, data_lines, end_label) =>
      match begin_label with
      | None => RErr MissingBegin
      | Some begin_label =>
          match end_label with
          | None => RErr MissingEnd
          | Some end_label =>
              if negb (str_eqb end_label begin_label) then RErr LabelMismatch
              else ROk (begin_label, data_lines)
          end
      end
  end.

(** [decode_pem], mod.rs:96-105; [parse_pem_data] decodes bytes. *)
Definition decode_pem_utf8 (s : list N) : result pem pem_error :=
  match extract_pem_pieces_utf8 s with
  | RErr e => RErr e
  | ROk (label, data_base64_lines) =>
      match parse_pem_data data_base64_lines with
      | RErr e => RErr e
      | ROk data => ROk {| pem_label := label; pem_data := data |}
      end
  end.
