(** * The parser of src/pem/asn1.rs again, with the number of calls of [parse_from_bytes]

    The same code as [asn1_elements] and [parse_from_bytes] of [ModelPem], which also counts the
    calls: one for this call and those made by the SEQUENCE case. *)
From Verif Require Import Base ModelPem.
Local Open Scope N_scope.

Section Profile.
Context {P : profile}.

(** asn1.rs:45-49. *)
Fixpoint elements_calls (parse : list N -> nat * res (result (asn1 * list N) asn1_error))
    (fuel : nat) (lft : list N) (elements : list asn1) : nat * res (result (list asn1) asn1_error) :=
  match lft with
  | [] => (0%nat, Ok (ROk elements))
  | _ =>
      match fuel with
      | O => (0%nat, Panic PFuel)
      | S fuel' =>
          let (n, r) := parse lft in
          match r with
          | Panic p => (n, Panic p)
          | Ok (RErr e) => (n, Ok (RErr (InSequence e)))
          | Ok (ROk (a, rest)) =>
              let (k, r) := elements_calls parse fuel' rest (elements ++ [a]) in
              ((n + k)%nat, r)
          end
      end
  end.

(** asn1.rs:12-56. *)
Fixpoint parse_calls (fuel : nat) (bytes : list N) : nat * res (result (asn1 * list N) asn1_error) :=
  match fuel with
  | O => (1%nat, Panic PFuel)
  | S fuel' =>
    match asn1_header bytes with
    | Panic p => (1%nat, Panic p)
    | Ok (RErr e) => (1%nat, Ok (RErr e))
    | Ok (ROk (tag, rest, len)) =>
      if N.of_nat (length rest) <? len then
        (1%nat, Ok (RErr (TooLittleData tag len (length rest))))
      else
        let ln := ix len in
        let (k, r) :=
          if tag =? 0x02 then (0%nat, let* b := slice_to rest ln in Ok (ROk (Integer b)))
          else if tag =? 0x04 then (0%nat, let* b := slice_to rest ln in Ok (ROk (OctetString b)))
          else if tag =? 0x03 then
            (0%nat, let* b := slice rest 1 ln in
                    let* u := idx rest 0 in
                    Ok (ROk (BitString b u)))
          else if tag =? 0x05 then (0%nat, Ok (ROk Null))
          else if tag =? 0x06 then
            (0%nat, let* b := slice_to rest ln in Ok (ROk (ObjectIdentifier b)))
          else if tag =? 0x30 then
            match slice_to rest ln with
            | Panic p => (0%nat, Panic p)
            | Ok lft =>
                let (k, es) := elements_calls (parse_calls fuel') ln lft [] in
                (k, let* es := es in Ok (match es with RErr e => RErr e | ROk es => ROk (Sequence es) end))
            end
          else (0%nat, Ok (RErr (UnknownTag tag))) in
        (S k, let* r := r in
              match r with
              | RErr e => Ok (RErr e)
              | ROk a => let* rest := slice_from rest ln in Ok (ROk (a, rest))
              end)
    end
  end.

(** The calls made for [asn1_try_from], asn1.rs:62. *)
Definition try_from_calls (bytes : list N) : nat := fst (parse_calls (S (length bytes)) bytes).

End Profile.
