(** Model of crates/host/codec/src/{template.rs,section/*} and the section types of
    crates/host/types/src/template/*. *)
From Coq Require Import List NArith Bool.
From Verif Require Import Base CodecModel LayoutModel.
Import ListNotations.
Open Scope N_scope.

(** types/src/template/code.rs:6-13 [CodeSection]; [CodeKind] has the single value Wasm.
    types/src/gas/mod.rs:10-17 [GasMode]. *)
Inductive gas_mode := Fixed | Metering.
Record code_section := mkCode {
  cs_svm_version : N;
  cs_code : bytes;
  cs_flags : N;
  cs_gas_mode : gas_mode
}.

(** types/src/template/header.rs [HeaderSection]. *)
Record header_section := mkHeader { hs_version : N; hs_name : bytes; hs_desc : bytes }.

(** types/src/template/deploy.rs [DeploySection]. *)
Record deploy_section := mkDeploy {
  ds_tx_id : bytes; ds_layer : N; ds_deployer : bytes; ds_template : bytes
}.

(** types/src/template/section.rs:19-40 [Section].  Schema and Api sections carry nothing:
    their codec is [todo!()]. *)
Inductive section :=
| SHeader (h : header_section)
| SCode (c : code_section)
| SData (layouts : list fixed_layout)
| SCtors (ctors : list bytes)
| SSchema
| SApi
| SDeploy (d : deploy_section).

(** types/src/template/section.rs:44-54 [Section::kind]. *)
Definition section_kind_of (s : section) : section_kind :=
  match s with
  | SHeader _ => KHeader | SCode _ => KCode | SData _ => KData | SCtors _ => KCtors
  | SSchema => KSchema | SApi => KApi | SDeploy _ => KDeploy
  end.

Definition kind_eqb (a b : section_kind) : bool := section_kind_code a =? section_kind_code b.

(** types/src/template/section.rs:232-234 [Sections]: an IndexMap from kinds to sections,
    i.e. the list of sections in insertion order. *)
Definition sections := list section.

(** IndexMap::insert (section.rs:256-258): replaces in place or appends. *)
Fixpoint insert_section (x : section) (l : sections) : sections :=
  match l with
  | [] => [x]
  | y :: r => if kind_eqb (section_kind_of x) (section_kind_of y) then x :: r
              else y :: insert_section x r
  end.

(** section.rs:282-284 [try_get], 261-263 [contains]. *)
Definition get_section (k : section_kind) (l : sections) : option section :=
  find (fun s => kind_eqb k (section_kind_of s)) l.
Definition has_section (k : section_kind) (l : sections) : bool :=
  existsb (fun s => kind_eqb k (section_kind_of s)) l.

(* ------------------------------------------------------------------------- *)
(** * Codec of each section *)

(** sections/code.rs:60-76 [GasMode]: Metering is [todo!()], unknown modes [unreachable!()]. *)
Definition enc_gas_mode : encoder gas_mode := fun m =>
  match m with Fixed => enc_u64 1 | Metering => None end.
Definition dec_gas_mode : decoder gas_mode := fun bs =>
  let* (n, r) := dec_u64 bs in
  if n =? 1 then Ok (Fixed, r) else Panic.

(** sections/code.rs:43-58 [CodeKind]. *)
Definition enc_code_kind : option bytes := enc_u16 1.
Definition dec_code_kind : decoder unit := fun bs =>
  let* (n, r) := dec_u16 bs in
  if n =? 1 then Ok (tt, r) else Err InvalidSection.

(** sections/code.rs:24-40. *)
Definition enc_code : encoder code_section := fun c =>
  let? a := enc_code_kind in
  let? b := enc_u64 (cs_flags c) in
  let? m := enc_gas_mode (cs_gas_mode c) in
  let? v := enc_u32 (cs_svm_version c) in
  let? d := enc_data 4 (cs_code c) in
  Some (a ++ b ++ m ++ v ++ d).
Definition dec_code : decoder code_section := fun bs =>
  let* (_, r) := dec_code_kind bs in
  let* (f, r) := dec_u64 r in
  let* (m, r) := dec_gas_mode r in
  let* (v, r) := dec_u32 r in
  let* (c, r) := dec_data 4 r in
  Ok (mkCode v c f m, r).

(** sections/ctors.rs:20-44: at most 254 ctors. *)
Definition enc_ctors : encoder (list bytes) := fun l =>
  if nlen l <? 255 then
    let? b := enc_seq enc_string l in Some (nlen l :: b)
  else None.
Definition dec_ctors : decoder (list bytes) := fun bs =>
  let* (n, r) := read_byte bs in dec_seq dec_string (N.to_nat n) r.

(** sections/data.rs:140-160 [LayoutKind], [decode_var_byte_size]. *)
Definition dec_layout_kind : decoder unit := fun bs =>
  let* (n, r) := dec_u16 bs in
  if n =? 1 then Ok (tt, r) else Panic.

(** sections/data.rs:85-108 [Layout::encode]: [byte_size as u16] truncates (line 103). *)
Definition enc_size : encoder N := fun s => enc_u16 (s mod 65536).
Definition enc_layout : encoder fixed_layout := fun l =>
  let? k := enc_u16 1 in
  if nlen (fl_vars l) <? 65535 then
    let? n := enc_u16 (nlen (fl_vars l)) in
    if 0 <? nlen (fl_vars l) then
      let? first := fl_first l in
      let? f := enc_u32 first in
      let? b := enc_seq enc_size (map rv_size (fl_vars l)) in
      Some (k ++ n ++ f ++ b)
    else Some (k ++ n)
  else None.

(** sections/data.rs:110-137 [Layout::decode]. *)
Definition dec_layout : decoder fixed_layout := fun bs =>
  let* (_, r) := dec_layout_kind bs in
  let* (n, r) := dec_u16 r in
  let* (fs, r) :=
    (if 0 <? n then
      let* (first, r) := dec_u32 r in
      let* (sizes, r) := dec_seq dec_u16 (N.to_nat n) r in
      Ok ((first, sizes), r)
    else Ok ((0, []), r)) in
  match from_byte_sizes (fst fs) (snd fs) with
  | Some l => Ok (l, r)
  | None => Panic
  end.

(** sections/data.rs:58-79 [DataSection]. *)
Definition enc_data_section : encoder (list fixed_layout) := fun l =>
  if nlen l <=? u16_max then
    let? b := enc_seq enc_layout l in Some (be_bytes 2 (nlen l) ++ b)
  else None.
Definition dec_data_section : decoder (list fixed_layout) := fun bs =>
  let* (n, r) := dec_u16 bs in dec_seq dec_layout (N.to_nat n) r.

(** sections/header.rs:19-31. *)
Definition enc_header : encoder header_section := fun h =>
  let? a := enc_u32 (hs_version h) in
  let? b := enc_string (hs_name h) in
  let? c := enc_string (hs_desc h) in
  Some (a ++ b ++ c).
Definition dec_header_section : decoder header_section := fun bs =>
  let* (a, r) := dec_u32 bs in
  let* (b, r) := dec_string r in
  let* (c, r) := dec_string r in
  Ok (mkHeader a b c, r).

(** sections/deploy.rs:19-33. *)
Definition enc_deploy : encoder deploy_section := fun d =>
  let? a := enc_array (ds_tx_id d) in
  let? b := enc_u64 (ds_layer d) in
  let? c := enc_array (ds_deployer d) in
  let? e := enc_array (ds_template d) in
  Some (a ++ b ++ c ++ e).
Definition dec_deploy : decoder deploy_section := fun bs =>
  let* (a, r) := dec_array TXID_LEN bs in
  let* (b, r) := dec_u64 r in
  let* (c, r) := dec_array ADDRESS_LEN r in
  let* (e, r) := dec_array ADDRESS_LEN r in
  Ok (mkDeploy a b c e, r).

(* ------------------------------------------------------------------------- *)
(** * Collections of sections *)

(** section/encode.rs:69-82 [encode_section], sections/{schema,api}.rs ([todo!()]). *)
Definition enc_section : encoder section := fun s =>
  match s with
  | SHeader h => enc_header h
  | SCode c => enc_code c
  | SData d => enc_data_section d
  | SCtors c => enc_ctors c
  | SSchema => None
  | SApi => None
  | SDeploy d => enc_deploy d
  end.

(** section/encode.rs:84-93 [section_buf_mut] followed by the write: appends to the buffer
    of the kind, creating it if absent. *)
Fixpoint buf_append (k : section_kind) (b : bytes) (l : list (section_kind * bytes)) :=
  match l with
  | [] => [(k, b)]
  | (k', b') :: r => if kind_eqb k k' then (k', b' ++ b) :: r else (k', b') :: buf_append k b r
  end.

(** section/encode.rs:33-37 [SectionsEncoder::encode]. *)
Fixpoint enc_buffers (l : sections) (acc : list (section_kind * bytes)) : option (list (section_kind * bytes)) :=
  match l with
  | [] => Some acc
  | s :: r =>
      let? b := enc_section s in
      enc_buffers r (buf_append (section_kind_of s) b acc)
  end.

(** section/preview.rs:32-41 [SectionPreview]. *)
Definition enc_preview (k : section_kind) (size : N) : option bytes :=
  let? a := enc_section_kind k in
  let? b := enc_u32 size in
  Some (a ++ b).
Definition dec_preview : decoder (section_kind * N) := fun bs =>
  let* (k, r) := dec_section_kind bs in
  let* (n, r) := dec_u32 r in
  Ok ((k, n), r).

(** section/encode.rs:40-67 [finish]. *)
Definition enc_buf : encoder (section_kind * bytes) := fun kb =>
  let (k, b) := kb in
  if nlen b <? u32_max then
    let? p := enc_preview k (nlen b) in Some (p ++ b)
  else None.
Definition finish (bufs : list (section_kind * bytes)) : option bytes :=
  if nlen bufs <? u16_max then
    let? b := enc_seq enc_buf bufs in Some (be_bytes 2 (nlen bufs) ++ b)
  else None.

(** template.rs:57-66 [encode]; section/mod.rs:17-21. *)
Definition enc_sections : encoder sections := fun l =>
  let? bufs := enc_buffers l [] in finish bufs.

(** section/decode.rs:73-92 [decode_section]. *)
Definition dec_section (k : section_kind) : decoder section := fun bs =>
  match k with
  | KHeader => let* (x, r) := dec_header_section bs in Ok (SHeader x, r)
  | KCode => let* (x, r) := dec_code bs in Ok (SCode x, r)
  | KData => let* (x, r) := dec_data_section bs in Ok (SData x, r)
  | KCtors => let* (x, r) := dec_ctors bs in Ok (SCtors x, r)
  | KSchema => Panic
  | KApi => Panic
  | KDeploy => let* (x, r) := dec_deploy bs in Ok (SDeploy x, r)
  end.

(** section/decode.rs:130-141, the loop of [decode_sections] with [next_preview],
    [decode_section], [skip_section]; a decoded section's announced size is not used. *)
Fixpoint dec_sections_loop (wanted : section_kind -> bool) (n : nat) (acc : sections) : decoder sections :=
  fun bs =>
  match n with
  | O => Ok (acc, bs)
  | S n' =>
      let* (p, r) := dec_preview bs in
      if wanted (fst p) then
        let* (s, r) := dec_section (fst p) r in
        dec_sections_loop wanted n' (insert_section s acc) r
      else
        let* (_, r) := read_bytes (N.to_nat (snd p)) r in
        dec_sections_loop wanted n' acc r
  end.

(** section/decode.rs:118-144 [decode_sections]; [None] = every kind. *)
Definition wants (interests : option (list section_kind)) (k : section_kind) : bool :=
  match interests with
  | None => true
  | Some l => existsb (kind_eqb k) l
  end.
Definition dec_sections (interests : option (list section_kind)) : decoder sections := fun bs =>
  let* (n, r) := dec_u16 bs in
  dec_sections_loop (wants interests) (N.to_nat n) [] r.

(** template.rs:73-88 [decode]: Code, Data and Ctors are mandatory. *)
Definition dec_template (interests : option (list section_kind)) : decoder sections := fun bs =>
  let* (l, r) := dec_sections interests bs in
  if has_section KCode l && has_section KData l && has_section KCtors l then Ok (l, r)
  else Err InvalidSection.

(** types/src/template/section.rs:311-318 [remove_noncore]: what stays in place
    (core) and what it returns (noncore); [None] = panic when a core section is missing.
    IndexMap::remove is a swap-remove: the last section takes the place of the removed one. *)
Fixpoint replace_at (n : nat) (y : section) (l : sections) : sections :=
  match l, n with
  | [], _ => []
  | _ :: r, O => y :: r
  | x :: r, S n' => x :: replace_at n' y r
  end.
Fixpoint find_index (k : section_kind) (l : sections) : option nat :=
  match l with
  | [] => None
  | x :: r => if kind_eqb k (section_kind_of x) then Some O
              else let? i := find_index k r in Some (S i)
  end.
Definition take_section (k : section_kind) (l : sections) : option (section * sections) :=
  let? i := find_index k l in
  let? x := nth_error l i in
  let? z := nth_error l (length l - 1) in
  Some (x, if Nat.eqb i (length l - 1) then removelast l else replace_at i z (removelast l)).
Definition remove_noncore (l : sections) : option (sections * sections) :=
  let? (c, l) := take_section KCode l in
  let? (t, l) := take_section KCtors l in
  let? (d, l) := take_section KData l in
  Some ([c; t; d], l).

(** types/src/template/mod.rs:75-95 [from_sections], [with_header], [with_deploy],
    192-197 [set_deploy_section] ([None] = debug_assert failure). *)
Definition with_header (l : sections) (h : option header_section) : sections :=
  match h with Some x => insert_section (SHeader x) l | None => l end.
Definition with_deploy (l : sections) (d : option deploy_section) : sections :=
  match d with Some x => insert_section (SDeploy x) l | None => l end.
Definition set_deploy_section (l : sections) (d : deploy_section) : option sections :=
  if has_section KDeploy l then None else Some (insert_section (SDeploy d) l).

(** types/src/template/mod.rs:177-180 [is_ctor]; [None] = panic (no Ctors section). *)
Definition ctors_of (l : sections) : option (list bytes) :=
  match get_section KCtors l with Some (SCtors c) => Some c | _ => None end.
