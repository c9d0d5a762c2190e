(** What a node needs of a message to store its template, and of a module to answer. *)
From Coq Require Import String List NArith Bool.
From Verif Require Import Base CodecModel SectionModel SectionSpec ProgramModel ProgramSpec AcceptSpec.
Import ListNotations.
Open Scope list_scope.
Open Scope N_scope.

(** Sections that can be read but not written again: 255 constructors, a layout of 65535
    variables, a section of 4 GiB. *)
Definition storable_section (s : section) : Prop :=
  section_size s < 4294967295 /\
  match s with
  | SCtors cs => nlen cs <> 255
  | SData ls => Forall (fun l => nlen (LayoutModel.fl_vars l) < 65535) ls
  | _ => True
  end.
Definition storable (l : sections) : Prop := Forall storable_section l.
(** The limit covers 1000 per byte of the message. *)
Definition affords (limit : option N) (m : bytes) : Prop := match limit with Some n => 1000 * nlen m <= n | None => True end.

(** Among the exports, after some in order, one has a required name but designates no function of
    the module, whose code is otherwise fine up to here. *)
Definition foreign_export (md : wmodule) : Prop :=
  exists code l name i r t, m_code md = Some code /\ function_imports md <= 65535 /\ float_free code /\
    entries (m_exports md) = l ++ (name, IntFunction i) :: r /\ Forall (good_export md) l /\
    required name t /\ forall t', ~ export_type md (IntFunction i) t'.
