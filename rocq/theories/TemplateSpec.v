(** Specification vocabulary for templates in memory and genesis (C107, C108). *)
From Coq Require Import List NArith Bool.
From Verif Require Import Base CodecModel CodecSpec LayoutModel SectionModel SectionSpec StorageModel StorageSpec GlobalModel GlobalSpec TemplateModel.
Import ListNotations.
Open Scope N_scope.

(** A template seen from outside: for every kind, the section of that kind, if any. *)
Definition held := section_kind -> option section.
Definition nothing : held := fun _ => None.
Definition put (s : section) (h : held) : held :=
  fun k => if kind_eqb k (section_kind_of s) then Some s else h k.
Definition drop (k : section_kind) (h : held) : held :=
  fun k' => if kind_eqb k' k then None else h k'.

(** What each edit answers, and the template it leaves; [None] = it panics. *)
Definition edited (o : edit) (h : held) : option (option section * held) :=
  match o with
  | EInsert s => Some (None, put s h)
  | ETake k => Some (h k, drop k h)
  | EHeader (Some x) => Some (None, put (SHeader x) h)
  | EDeploy (Some x) => Some (None, put (SDeploy x) h)
  | EHeader None | EDeploy None => Some (None, h)
  | ESetDeploy d => match h KDeploy with Some _ => None | None => Some (None, put (SDeploy d) h) end
  end.
Fixpoint edited_all (os : list edit) (h : held) : option (list (option section) * held) :=
  match os with
  | [] => Some ([], h)
  | o :: r =>
    match edited o h with
    | Some (a, h1) => match edited_all r h1 with Some (rs, h2) => Some (a :: rs, h2) | None => None end
    | None => None
    end
  end.

(** [l] is a collection that shows exactly [h], each kind at most once. *)
Definition shows_held (l : sections) (h : held) : Prop :=
  NoDup (map section_kind_of l) /\ (forall k, get_section k l = h k)
  /\ (forall k, In k (sections_kinds l) <-> h k <> None).

(** The template with its empty layout written the way it is read back. *)
Definition sct_canonical (wasm : bytes) : sections :=
  [SCode (mkCode 0 wasm 0 Fixed); SData [mkLayout (Some 0) []]; SCtors []].

(** Genesis templates: distinct addresses, well-formed, with the mandatory sections. *)
Definition is_mandatory (s : section) : bool :=
  match section_kind_of s with KCode | KData | KCtors => true | _ => false end.
Definition mandatory (l : sections) : Prop :=
  forall k, In k [KCode; KData; KCtors] -> In k (map section_kind_of l).
Definition genesis_wf (ts : list (bytes * sections)) : Prop :=
  NoDup (map fst ts) /\ Forall (fun t => array_wf 20 (fst t) /\ sections_wf (snd t) /\ mandatory (snd t)) ts.

(** What reading the template at [addr] gives in layer [l]; [None]: now. *)
Definition template_at (e : env) (addr : bytes) (l : option N) (g : gstate) :=
  fst (template_sections e addr (at_layer l g)).
