(** Model of the [#[template]] macro (crates/wasm/sdk-macros/src), of the JSON description it
    writes, and of the command that turns that description and the compiled code into a deploy
    message (crates/host/cli/src/subcmd_craft_deploy).  Paths are under crates/wasm/sdk-macros/src
    unless they start with cli.

    Simplified: a template is given as its parsed items.  Tokens, spans and the text of error
    messages are left out; [None] is a compile error, returned or by an abort of the macro. *)
From Coq Require Import String List NArith ZArith Bool.
From Verif Require Import Base Text CodecModel ReceiptModel LayoutModel SectionModel SdkModel AbiModel JsonModel.
Import ListNotations.
Open Scope list_scope.
Open Scope N_scope.

(* ------------------------------------------------------------------------- *)
(** * What the author writes *)

(** type.rs:5-8, 67-97: a primitive type, and whether it is written with the prefix [svm_sdk::];
    the prefix is accepted before [Amount] and [Address] only. *)
Record written : Type := mkWritten { wt_type : prim_type; wt_prefix : bool }.
Definition prim_name (t : prim_type) : bytes :=
  match t with
  | TBool => txt "bool" | TAmount => txt "Amount" | TAddress => txt "Address"
  | TI8 => txt "i8" | TU8 => txt "u8" | TI16 => txt "i16" | TU16 => txt "u16"
  | TI32 => txt "i32" | TU32 => txt "u32" | TI64 => txt "i64" | TU64 => txt "u64"
  end.
Definition prefixable (t : prim_type) : bool := match t with TAmount | TAddress => true | _ => false end.
(** [PrimType::as_str] (type.rs:21-23): the tokens separated by blanks. *)
Definition written_str (w : written) : bytes :=
  if wt_prefix w then txt "svm_sdk :: " ++ prim_name (wt_type w) else prim_name (wt_type w).
(** type.rs:26-39.  Paths that are no primitive are refused (type.rs:90-95) and not represented. *)
Inductive base_type : Type :=
| BPrim (w : written)
| BArray (w : written) (length : N).
Inductive mtype : Type :=
| MBase (b : base_type)
| MTuple (elems : list base_type).
(** type.rs:67-97, 149-166 *)
Definition written_new (w : written) : option unit := ensure (negb (wt_prefix w) || prefixable (wt_type w)).
Definition base_new (b : base_type) : option unit :=
  match b with
  | BPrim w => written_new w
  | BArray w n => let? _ := written_new w in ensure (n <=? u32_max)
  end.
(** type.rs:51-65, 112-133 *)
Fixpoint bases_new (bs : list base_type) : option unit :=
  match bs with
  | [] => Some tt
  | b :: bs' => let? _ := base_new b in bases_new bs'
  end.
Definition type_new (t : mtype) : option unit := match t with MBase b => base_new b | MTuple bs => bases_new bs end.

(** A raw attribute: its path and what stands in parentheses behind it. *)
Inductive attr_args : Type :=
| NoArgs                    (** nothing *)
| EmptyArgs                 (** [()] *)
| DocArg (s : bytes)        (** [(doc = "s")] *)
| IdentArg (s : bytes)      (** [(s)] *)
| OtherArgs.
Record raw_attr : Type := mkRaw { ra_name : bytes; ra_args : attr_args }.
(** An item function.  [fn_odd]: it is const, async, unsafe, extern, generic, variadic, takes
    [self], or a parameter is no plain [name: type] or has attributes. *)
Record mfunction : Type := mkFunction {
  fn_name : bytes;
  fn_attrs : list raw_attr;
  fn_odd : bool;
  fn_params : list (bytes * mtype);
  fn_output : option mtype
}.
(** An item struct.  [ms_odd]: its fields have no names or have attributes. *)
Record mstruct : Type := mkStruct {
  ms_storage : bool;
  ms_odd : bool;
  ms_fields : list (bytes * mtype)
}.
(** template.rs:11-19; other items than functions, structs, [use] and [type] are refused
    (template.rs:111-163) and not represented. *)
Record template : Type := mkTemplate { tp_functions : list mfunction; tp_structs : list mstruct }.

(* ------------------------------------------------------------------------- *)
(** * function/attr.rs *)

(** attr.rs:58-64 *)
Inductive func_attr : Type :=
| ACtor (doc : option bytes)
| AEndpoint (doc : option bytes)
| AFundable (hook : option bytes)
| AHook (default : bool)
| AOther.
(** attr.rs:49-55, 66-76 *)
Inductive attr_kind : Type := KindCtor | KindEndpoint | KindFundable | KindHook | KindOther.
Definition attr_kind_of (a : func_attr) : attr_kind :=
  match a with
  | ACtor _ => KindCtor | AEndpoint _ => KindEndpoint | AFundable _ => KindFundable
  | AHook _ => KindHook | AOther => KindOther
  end.
Definition attr_kind_eqb (a b : attr_kind) : bool :=
  match a, b with
  | KindCtor, KindCtor | KindEndpoint, KindEndpoint | KindFundable, KindFundable
  | KindHook, KindHook | KindOther, KindOther => true
  | _, _ => false
  end.
(** attr.rs:132-155 *)
Definition kind_of_name (s : bytes) : attr_kind :=
  if bytes_eqb s (txt "ctor") then KindCtor
  else if bytes_eqb s (txt "endpoint") then KindEndpoint
  else if bytes_eqb s (txt "fundable") then KindFundable
  else if bytes_eqb s (txt "fundable_hook") then KindHook
  else KindOther.
(** attr.rs:29-46, 90-96 *)
Definition parse_doc (a : attr_args) : option (option bytes) :=
  match a with
  | NoArgs | EmptyArgs => Some None
  | DocArg s => Some (Some s)
  | _ => None
  end.
(** attr.rs:89-130 *)
Definition parse_attr (a : raw_attr) : option func_attr :=
  match kind_of_name (ra_name a) with
  | KindCtor => let? d := parse_doc (ra_args a) in Some (ACtor d)
  | KindEndpoint => let? d := parse_doc (ra_args a) in Some (AEndpoint d)
  | KindHook =>
      match ra_args a with
      | NoArgs => Some (AHook false)
      | IdentArg _ => Some (AHook true)
      | _ => None
      end
  | KindFundable =>
      match ra_args a with
      | NoArgs => Some (AFundable None)
      | IdentArg s => Some (AFundable (Some s))
      | _ => None
      end
  | KindOther => Some AOther
  end.
(** attr.rs:78-87 *)
Definition func_attrs (f : mfunction) : option (list func_attr) := all_some parse_attr (fn_attrs f).
(** attr.rs:189-191, 193-205 *)
Definition has_attr (l : list func_attr) (k : attr_kind) : bool := existsb (fun a => attr_kind_eqb (attr_kind_of a) k) l.
Definition find_attr (l : list func_attr) (k : attr_kind) : option func_attr :=
  find (fun a => attr_kind_eqb (attr_kind_of a) k) l.
(** attr.rs:173-183 *)
Definition has_default_hook (l : list func_attr) : bool :=
  existsb (fun a => match a with AHook d => d | _ => false end) l.

(* ------------------------------------------------------------------------- *)
(** * function/mod.rs: which annotations go together *)

(** The four flags of the loops. *)
Record seen_attrs : Type := mkSeen { se_ctor : bool; se_endpoint : bool; se_fundable : bool; se_hook : bool }.
Definition nothing_seen : seen_attrs := mkSeen false false false false.
(** mod.rs:119-171 *)
Fixpoint no_dups (l : list func_attr) (s : seen_attrs) : option unit :=
  match l with
  | [] => Some tt
  | a :: l' =>
      match attr_kind_of a with
      | KindCtor => if se_ctor s then None else no_dups l' (mkSeen true (se_endpoint s) (se_fundable s) (se_hook s))
      | KindEndpoint => if se_endpoint s then None else no_dups l' (mkSeen (se_ctor s) true (se_fundable s) (se_hook s))
      | KindHook => if se_hook s then None else no_dups l' (mkSeen (se_ctor s) (se_endpoint s) (se_fundable s) true)
      | KindFundable => if se_fundable s then None else no_dups l' (mkSeen (se_ctor s) (se_endpoint s) true (se_hook s))
      | KindOther => no_dups l' s
      end
  end.
(** mod.rs:173-219 *)
Definition usage (l : list func_attr) : option unit :=
  let ctor := has_attr l KindCtor in
  let endpoint := has_attr l KindEndpoint in
  let fundable := has_attr l KindFundable in
  let hook := has_attr l KindHook in
  let? _ := ensure (negb (ctor && endpoint)) in
  let? _ := ensure (negb (endpoint && hook)) in
  let? _ := ensure (negb (fundable && hook)) in
  ensure (negb (fundable && negb endpoint && negb ctor)).
(** mod.rs:221-252 *)
Fixpoint order (l : list func_attr) (ctor endpoint : bool) : option unit :=
  match l with
  | [] => Some tt
  | a :: l' =>
      match attr_kind_of a with
      | KindCtor => order l' true endpoint
      | KindEndpoint => order l' ctor true
      | KindFundable => if ctor then None else if endpoint then None else order l' ctor endpoint
      | KindHook | KindOther => order l' ctor endpoint
      end
  end.
(** mod.rs:87-93 *)
Definition validate_attrs (l : list func_attr) : option unit :=
  let? _ := no_dups l nothing_seen in
  let? _ := usage l in
  order l false false.

(* ------------------------------------------------------------------------- *)
(** * Expanding the functions *)

(** What a function becomes. *)
Inductive item : Type :=
| IEntry (name : bytes) (hook : option bytes)  (** exported, without parameters: endpoint.rs:40-52 *)
| IHook (name : bytes)                         (** fundable_hook.rs:20-27 *)
| IPlain (name : bytes).                       (** mod.rs:113-117 *)
(** endpoint.rs:168-216, 218-230 and the types of validate_arg_type (endpoint.rs:232-278) and
    validate_ret_type (endpoint.rs:280-327) that are represented *)
Definition validate_sig (f : mfunction) : option unit :=
  let? _ := ensure (negb (fn_odd f)) in
  ensure (forallb (fun p => match snd p with MTuple _ => false | MBase _ => true end) (fn_params f)).
(** fundable.rs:9-24 *)
Definition fundable_hook (l : list func_attr) (default : option bytes) : option bytes :=
  match find_attr l KindFundable with
  | Some (AFundable None) => Some (match default with Some h => h | None => txt "svm_fund" end)
  | Some (AFundable (Some h)) => Some h
  | _ => None
  end.
(** endpoint.rs:10-55, ctor.rs:7-13 *)
Definition expand_endpoint (f : mfunction) (l : list func_attr) (default : option bytes) : option item :=
  let? _ := validate_sig f in
  if has_attr l KindFundable then
    let? h := fundable_hook l default in Some (IEntry (fn_name f) (Some h))
  else Some (IEntry (fn_name f) None).
(** fundable_hook.rs:10-30, 41-51 *)
Definition expand_hook (f : mfunction) : option item :=
  match fn_params f, fn_output f with
  | [], None => Some (IHook (fn_name f))
  | _, _ => None
  end.
(** mod.rs:67-85 *)
Definition expand_function (default : option bytes) (f : mfunction) : option item :=
  let? l := func_attrs f in
  let? _ := validate_attrs l in
  if has_attr l KindCtor then expand_endpoint f l default
  else if has_attr l KindEndpoint then expand_endpoint f l default
  else if has_attr l KindHook then expand_hook f
  else Some (IPlain (fn_name f)).
(** template.rs:187-210; [seen]: the default found so far *)
Fixpoint default_hook (fs : list mfunction) (seen : option bytes) : option (option bytes) :=
  match fs with
  | [] => Some seen
  | f :: fs' =>
      let? l := func_attrs f in
      if has_default_hook l then
        match seen with Some _ => None | None => default_hook fs' (Some (fn_name f)) end
      else default_hook fs' seen
  end.

(* ------------------------------------------------------------------------- *)
(** * Storage *)

(** struct/var.rs:8-24, with the name and the type as written *)
Record mvar : Type := mkMvar { mv_name : bytes; mv_written : written; mv_var : svar }.
(** struct/storage.rs:62-109: the type of a field; tuples are refused. *)
Definition field_of (p : bytes * mtype) : option (bytes * written * field_type) :=
  let? _ := type_new (snd p) in
  match snd p with
  | MBase (BPrim w) => Some (fst p, w, FPrim (wt_type w))
  | MBase (BArray w n) => Some (fst p, w, FArray (wt_type w) n)
  | MTuple _ => None
  end.
(** struct/storage.rs:33-60; [storage_vars] of SdkModel gives ids, offsets and sizes. *)
Definition struct_vars (s : mstruct) : option (list mvar) :=
  let? _ := ensure (negb (ms_odd s)) in
  let? fs := all_some field_of (ms_fields s) in
  let? vs := storage_vars (map snd fs) in
  Some (map (fun x => mkMvar (fst (fst (fst x))) (snd (fst (fst x))) (snd x)) (combine fs vs)).
(** meta.rs:124-136 *)
Definition template_schema (t : template) : option (list mvar) :=
  match find ms_storage (tp_structs t) with
  | Some s => struct_vars s
  | None => Some []
  end.
(** template.rs:230-252; [seen]: a storage struct was found *)
Fixpoint validate_structs (l : list mstruct) (seen : bool) : option unit :=
  match l with
  | [] => Some tt
  | s :: l' =>
      if ms_storage s then if seen then None else validate_structs l' true
      else validate_structs l' seen
  end.
(** struct/mod.rs:37-48: a struct that is not the storage is [todo!()]; struct/storage.rs:11-31 *)
Definition expand_struct (s : mstruct) : option (list mvar) := if ms_storage s then struct_vars s else None.
(** template.rs:212-228 *)
Definition expand_structs (l : list mstruct) : option (list (list mvar)) :=
  let? _ := validate_structs l false in
  all_some expand_struct l.

(* ------------------------------------------------------------------------- *)
(** * meta.rs *)

(** meta.rs:18-30 Export with its Signature *)
Record export : Type := mkExport {
  ex_ctor : bool;
  ex_fundable : bool;
  ex_name : bytes;
  ex_wasm_name : bytes;
  ex_params : list (bytes * mtype);
  ex_output : option mtype;
  ex_doc : bytes
}.
(** meta.rs:12-16; the map of the exports as a list, in the order of [HashMap::values] *)
Record meta : Type := mkMeta { me_schema : list mvar; me_exports : list export }.
(** meta.rs:171-194 *)
Definition function_sig (f : mfunction) : option unit :=
  let? _ := all_some (fun p => type_new (snd p)) (fn_params f) in
  match fn_output f with Some t => type_new t | None => Some tt end.
(** meta.rs:138-169; mod.rs:58-64: the name of the export on the machine that runs the macro *)
Definition export_schema (f : mfunction) : option export :=
  let? l := func_attrs f in
  let? a := find_attr l (if has_attr l KindCtor then KindCtor else KindEndpoint) in
  let? doc := match a with
    | ACtor d | AEndpoint d => Some (match d with Some s => s | None => [] end)
    | _ => None
    end in
  let? _ := function_sig f in
  Some (mkExport (has_attr l KindCtor) (has_attr l KindFundable) (fn_name f) (fn_name f)
    (fn_params f) (fn_output f) doc).
(** meta.rs:66-69: [HashMap::insert]; [order] below is the order of the map *)
Fixpoint insert_export (x : export) (l : list export) : list export :=
  match l with
  | [] => [x]
  | y :: l' => if bytes_eqb (ex_name y) (ex_name x) then x :: l' else y :: insert_export x l'
  end.
Definition is_entry (l : list func_attr) : bool := has_attr l KindEndpoint || has_attr l KindCtor.
Fixpoint exports_of (fs : list mfunction) (acc : list export) : option (list export) :=
  match fs with
  | [] => Some acc
  | f :: fs' =>
      let? l := func_attrs f in
      if is_entry l then
        let? x := export_schema f in exports_of fs' (insert_export x acc)
      else exports_of fs' acc
  end.
(** meta.rs:96-122; [order] stands for the order of the map's values *)
Definition template_meta (order : list export -> list export) (t : template) : option meta :=
  let? schema := template_schema t in
  let? exports := exports_of (tp_functions t) [] in
  Some (mkMeta schema (order exports)).

(* ------------------------------------------------------------------------- *)
(** * template.rs:55-83 expand, 254-276 expand_functions *)

(** What is generated: the functions, whether the implicit [svm_fund] is among them, and the
    variables of the storage struct.  The exports [svm_alloc] and [svm_verify] are always
    there. *)
Record generated : Type := mkGenerated { ge_items : list item; ge_fund : bool; ge_storage : list (list mvar) }.
Definition macro_expand (order : list export -> list export) (t : template) : option (generated * meta) :=
  let? default := default_hook (tp_functions t) None in
  let? m := template_meta order t in
  let? structs := expand_structs (tp_structs t) in
  let? items := all_some (expand_function default) (tp_functions t) in
  Some (mkGenerated items (match default with Some _ => false | None => true end) structs, m).
(** The names of the functions the compiled module exports: [#[no_mangle]] in endpoint.rs:29-37,
    template.rs:278-311 and fundable_hook.rs:32-39 *)
Definition wasm_exports (g : generated) : list bytes :=
  txt "svm_verify" :: txt "svm_alloc" ::
  flat_map (fun i => match i with IEntry n _ => [n] | _ => [] end) (ge_items g) ++
  (if ge_fund g then [txt "svm_fund"] else []).

(* ------------------------------------------------------------------------- *)
(** * json.rs: the description *)

(** json.rs:161-167 *)
Definition typify (w : written) : bytes :=
  if bytes_eqb (written_str w) (txt "svm_sdk :: Amount") then txt "Amount"
  else if bytes_eqb (written_str w) (txt "svm_sdk :: Address") then txt "Address"
  else written_str w.
Definition bracketed (s : bytes) : bytes := txt "[" ++ s ++ txt "]".
Definition num (n : N) : json := JNum (Z.of_N n).
(** json.rs:52-71; [None]: unreachable *)
Definition emit_param (p : bytes * mtype) : option json :=
  match snd p with
  | MBase (BPrim w) => Some (JObj [(txt "name", JStr (fst p)); (txt "type", JStr (written_str w))])
  | MBase (BArray w n) =>
      Some (JObj [(txt "length", num n); (txt "name", JStr (fst p)); (txt "type", JStr (bracketed (written_str w)))])
  | MTuple _ => None
  end.
(** json.rs:88-100 *)
Definition emit_base (b : base_type) : json :=
  match b with
  | BPrim w => JObj [(txt "type", JStr (written_str w))]
  | BArray w n => JObj [(txt "length", num n); (txt "type", JStr (written_str w))]
  end.
(** json.rs:73-86 *)
Definition emit_output (o : option mtype) : json :=
  match o with
  | Some (MBase b) => emit_base b
  | Some (MTuple bs) => JArr (map emit_base bs)
  | None => JObj []
  end.
(** json.rs:43-50 *)
Definition emit_signature (x : export) : option json :=
  let? ps := all_some emit_param (ex_params x) in
  Some (JObj [(txt "params", JArr ps); (txt "returns", emit_output (ex_output x))]).
(** json.rs:25-41 *)
Definition emit_export (x : export) : option json :=
  let? s := emit_signature x in
  Some (JObj [(txt "doc", JStr (ex_doc x)); (txt "is_ctor", JBool (ex_ctor x)); (txt "is_fundable", JBool (ex_fundable x));
    (txt "name", JStr (ex_name x)); (txt "signature", s); (txt "wasm_name", JStr (ex_wasm_name x))]).
(** json.rs:102-159 *)
Definition emit_var (v : mvar) : json :=
  let s := mv_var v in
  match sv_type s with
  | FPrim _ =>
      JObj [(txt "byte_count", num (sv_byte_count s)); (txt "id", num (sv_id s)); (txt "name", JStr (mv_name v));
        (txt "offset", num (sv_offset s)); (txt "type", JStr (typify (mv_written v)))]
  | FArray _ n =>
      JObj [(txt "byte_count", num (sv_byte_count s)); (txt "id", num (sv_id s)); (txt "length", num n);
        (txt "name", JStr (mv_name v)); (txt "offset", num (sv_offset s)); (txt "type", JStr (bracketed (typify (mv_written v))))]
  end.
(** json.rs:7-12 *)
Definition meta_json (m : meta) : option json :=
  let? api := all_some emit_export (me_exports m) in
  Some (JObj [(txt "api", JArr api); (txt "schema", JArr (map emit_var (me_schema m)))]).

(* ------------------------------------------------------------------------- *)
(** * cli subcmd_craft_deploy/meta.rs *)

(** meta.rs:44-77 the fields that are read later; all of them are checked when parsing. *)
Record craft_var : Type := mkCraftVar { cv_byte_count : N; cv_length : option N }.
Record craft_api : Type := mkCraftApi { ca_name : bytes; ca_ctor : bool }.
Record craft_meta : Type := mkCraft { cm_schema : list craft_var; cm_api : list craft_api }.
(** The derived deserializers: a missing or ill-typed field is an error, others are ignored, and
    an [Option] may be missing or null.  Simplified: serde also takes a struct from an array and
    refuses an object with a repeated key; the macro writes neither. *)
Definition must {A} (f : json -> option A) (name : string) (fields : list (bytes * json)) : option A :=
  let? v := assoc (txt name) fields in f v.
Definition may {A} (f : json -> option A) (name : string) (fields : list (bytes * json)) : option (option A) :=
  match assoc (txt name) fields with
  | None | Some JNull => Some None
  | Some v => let? a := f v in Some (Some a)
  end.
Definition u64_of_json (j : json) : option N :=
  match j with JNum z => if ((0 <=? z) && (z <=? 18446744073709551615))%Z then Some (Z.to_N z) else None | _ => None end.
Definition bool_of_json (j : json) : option bool := match j with JBool b => Some b | _ => None end.
(** meta.rs:44-53 *)
Definition craft_var_of (j : json) : option craft_var :=
  match j with
  | JObj fs =>
      let? _ := must u64_of_json "id" fs in
      let? _ := must string_of_json "name" fs in
      let? _ := must string_of_json "type" fs in
      let? _ := must u64_of_json "offset" fs in
      let? b := must u64_of_json "byte_count" fs in
      let? l := may u64_of_json "length" fs in
      Some (mkCraftVar b l)
  | _ => None
  end.
(** meta.rs:71-77 *)
Definition craft_param_of (j : json) : option unit :=
  match j with
  | JObj fs =>
      let? _ := must string_of_json "name" fs in
      let? _ := must string_of_json "type" fs in
      let? _ := may u64_of_json "length" fs in
      Some tt
  | _ => None
  end.
(** meta.rs:65-69 *)
Definition craft_sig_of (j : json) : option unit :=
  match j with
  | JObj fs =>
      let? _ := must (list_of_json craft_param_of) "params" fs in
      let? _ := must Some "returns" fs in
      Some tt
  | _ => None
  end.
(** meta.rs:55-63 *)
Definition craft_api_of (j : json) : option craft_api :=
  match j with
  | JObj fs =>
      let? n := must string_of_json "name" fs in
      let? _ := must string_of_json "wasm_name" fs in
      let? c := must bool_of_json "is_ctor" fs in
      let? _ := must bool_of_json "is_fundable" fs in
      let? _ := must string_of_json "doc" fs in
      let? _ := must craft_sig_of "signature" fs in
      Some (mkCraftApi n c)
  | _ => None
  end.
(** meta.rs:12-17 *)
Definition craft_meta_of (j : json) : option craft_meta :=
  match j with
  | JObj fs =>
      let? s := must (list_of_json craft_var_of) "schema" fs in
      let? a := must (list_of_json craft_api_of) "api" fs in
      Some (mkCraft s a)
  | _ => None
  end.
(** meta.rs:20-28 *)
Definition ctors_section (m : craft_meta) : list bytes := map ca_name (filter ca_ctor (cm_api m)).
(** meta.rs:30-41: [byte_count as u32]; [None] = overflow in the layout *)
Definition byte_sizes (m : craft_meta) : list N :=
  flat_map (fun v => repeat (cv_byte_count v mod 4294967296) (N.to_nat (match cv_length v with Some n => n | None => 1 end)))
    (cm_schema m).
Definition data_section (m : craft_meta) : option (list fixed_layout) :=
  let? l := from_byte_sizes 0 (byte_sizes m) in Some [l].

(* ------------------------------------------------------------------------- *)
(** * cli subcmd_craft_deploy/mod.rs *)

(** host/types/src/template/code.rs:3, 45-47 *)
Definition EXEC_FLAGS : N := 1.
(** mod.rs:46-83.  Simplified: files are their contents, and the two checks at the end, whose
    results are dropped, are left out.  [None]: an error or an abort. *)
Definition craft_deploy (smwasm : bytes) (description : json) : option bytes :=
  let? m := craft_meta_of description in
  let? data := data_section m in
  enc_sections (insert_section (SData data) (insert_section (SCtors (ctors_section m))
    (insert_section (SCode (mkCode 0 smwasm EXEC_FLAGS Fixed)) []))).

(** The way from a template to its deploy message: [compile] stands for the compiler, applied to
    what the macro generates. *)
Definition craft (order : list export -> list export) (compile : generated -> bytes) (t : template) : option bytes :=
  let? (g, m) := macro_expand order t in
  let? j := meta_json m in
  craft_deploy (compile g) j.
