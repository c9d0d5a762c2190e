(** Specification vocabulary for the primitive codecs (C67-C70). *)
From Coq Require Import List NArith Bool.
From Verif Require Import Base CodecModel SectionModel.
Import ListNotations.
Open Scope N_scope.

(** The Unicode standard: scalar values (code points that are not surrogates) and the bytes
    UTF-8 writes for one of them, always the shortest form. *)
Definition scalar (c : N) : Prop := c < 55296 \/ (57344 <= c /\ c < 1114112).
Definition utf8_bytes (c : N) : bytes :=
  if c <? 128 then [c]
  else if c <? 2048 then [192 + c / 64; 128 + c mod 64]
  else if c <? 65536 then [224 + c / 4096; 128 + (c / 64) mod 64; 128 + c mod 64]
  else [240 + c / 262144; 128 + (c / 4096) mod 64; 128 + (c / 64) mod 64; 128 + c mod 64].

(** The last element of a list with a given kind. *)
Fixpoint last_of_kind (k : section_kind) (l : list section) : option section :=
  match l with
  | [] => None
  | s :: r => match last_of_kind k r with
              | Some x => Some x
              | None => if kind_eqb k (section_kind_of s) then Some s else None
              end
  end.
