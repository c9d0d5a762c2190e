(** Model of templates in memory (crates/host/types/src/template/{mod,section}.rs), of the
    genesis configuration (crates/host/genesis-config/src/lib.rs) and of the message builders
    for tests (crates/host/runtime-testing/src/lib.rs).  [Sections] and what inserts into,
    looks up in and removes from them is in SectionModel.v. *)
From Coq Require Import List NArith Bool.
From Verif Require Import Base CodecModel LayoutModel SectionModel StorageModel GlobalModel RuntimeModel.
Import ListNotations.
Open Scope N_scope.

(** types/src/template/section.rs:237-240 default *)
Definition no_sections : sections := [].
(** section.rs:251-253 len, 266-268 kinds *)
Definition sections_len (l : sections) : N := nlen l.
Definition sections_kinds (l : sections) : list section_kind := map section_kind_of l.
(** section.rs:298-300 try_take: the section and the collection afterwards; 291-293 take
    panics where this is [None] *)
Definition try_take (k : section_kind) (l : sections) : option section * sections :=
  match take_section k l with
  | Some (x, l') => (Some x, l')
  | None => (None, l)
  end.

(** types/src/template/mod.rs:75-77 from_sections; 56-67 new *)
Definition from_sections (l : sections) : option sections := Some l.
Definition template_new (c : code_section) (d : list fixed_layout) (t : list bytes) : option sections :=
  from_sections (insert_section (SCtors t) (insert_section (SData d) (insert_section (SCode c) no_sections))).

(** mod.rs:107-110 header_section, 117-120 code_section, 137-140 data_section, 157-160
    ctors_section, 204-207 deploy_section; [None] = panic *)
Definition header_section_of (l : sections) : option header_section :=
  match get_section KHeader l with Some (SHeader x) => Some x | _ => None end.
Definition code_section_of (l : sections) : option code_section :=
  match get_section KCode l with Some (SCode x) => Some x | _ => None end.
Definition data_section_of (l : sections) : option (list fixed_layout) :=
  match get_section KData l with Some (SData x) => Some x | _ => None end.
Definition ctors_section_of (l : sections) : option (list bytes) :=
  match get_section KCtors l with Some (SCtors x) => Some x | _ => None end.
Definition deploy_section_of (l : sections) : option deploy_section :=
  match get_section KDeploy l with Some (SDeploy x) => Some x | _ => None end.
(** types/src/template/code.rs:3 and 45-47 exec_flags, 72-74 is_exec *)
Definition exec_flags : N := 1.
Definition is_exec (c : code_section) : bool := negb (N.land (cs_flags c) exec_flags =? 0).
(** mod.rs:143-150 fixed_layout, 127-130 code, 214-217 template_addr *)
Definition fixed_layout_of (l : sections) : option fixed_layout :=
  let? d := data_section_of l in nth_error d 0.
Definition code_bytes_of (l : sections) : option bytes := option_map cs_code (code_section_of l).
Definition deployed_addr_of (l : sections) : option bytes := option_map ds_template (deploy_section_of l).

(** Edits of a collection of sections (section.rs:256-258, 298-300) and of a template
    (mod.rs:80-95, 193-197) by its owner, in any order. *)
Inductive edit :=
| EInsert (s : section) | ETake (k : section_kind)
| EHeader (h : option header_section) | EDeploy (d : option deploy_section)
| ESetDeploy (d : deploy_section).
(** What the edit returns; [None] = panic. *)
Definition run_edit (o : edit) (l : sections) : option (option section * sections) :=
  match o with
  | EInsert s => Some (None, insert_section s l)
  | ETake k => Some (try_take k l)
  | EHeader h => Some (None, with_header l h)
  | EDeploy d => Some (None, with_deploy l d)
  | ESetDeploy d => let? l' := set_deploy_section l d in Some (None, l')
  end.
Fixpoint run_edits (os : list edit) (l : sections) : option (list (option section) * sections) :=
  match os with
  | [] => Some ([], l)
  | o :: r =>
    let? (a, l1) := run_edit o l in
    let? (rs, l2) := run_edits r l1 in
    Some (a :: rs, l2)
  end.

(* ------------------------------------------------------------------------------------ *)
(** * Genesis *)

(** genesis-config/src/lib.rs:36-58 sct; [wasm] stands for the bytes of
    simple_coin_transfer_template.wasm, which are not in the repository. *)
Definition sct_sections (wasm : bytes) : sections :=
  insert_section (SCtors []) (insert_section (SData [default_layout])
    (insert_section (SCode (mkCode 0 wasm 0 Fixed)) no_sections)).
Definition sct (e : env) (wasm : bytes) : bytes * sections := (template_addr e wasm, sct_sections wasm).
(** lib.rs:19-26 mainnet *)
Definition mainnet (e : env) (wasm : bytes) : list (bytes * sections) := [sct e wasm].
(** lib.rs:31-33 *)
Definition genesis_templates_deployer_addr : bytes := repeat 0 20.

(* ------------------------------------------------------------------------------------ *)
(** * Building messages *)

(** runtime-testing/src/lib.rs:55-71 build_deploy, on a wasm binary; [None] = panic *)
Definition build_deploy (code_version : N) (name : bytes) (layout : fixed_layout) (ctors : list bytes)
    (wasm : bytes) : option bytes :=
  let? t := template_new (mkCode 0 wasm exec_flags Fixed) [layout] ctors in
  enc_sections (with_header t (Some (mkHeader code_version name []))).
(** lib.rs:74-77 build_spawn, 80-90 build_call *)
Definition build_spawn (template name ctor calldata : bytes) : option bytes :=
  enc_spawn (mkSpawn 0 template name ctor calldata).
Definition build_call (target func calldata : bytes) : option bytes :=
  enc_transaction (mkTransaction 0 target func [] calldata).
