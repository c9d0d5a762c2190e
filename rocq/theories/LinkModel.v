(** Model of the functions a contract imports and of those the runtime gives it:
    crates/host/runtime/src/vmcalls/mod.rs and runtime.rs on one side, the SDK's declarations
    (crates/wasm/sdk-host-ffi/src/ext.rs, sdk-storage-ffi/src/ext.rs, sdk-alloc/src/lib.rs,
    sdk-std/src/log.rs) on the other. *)
From Coq Require Import String List NArith Bool.
From Verif Require Import Base Text CodecModel ReceiptModel SectionModel ProgramModel MacroModel.
Import ListNotations.
Open Scope string_scope.
Open Scope list_scope.
Open Scope N_scope.

(* ------------------------------------------------------------------------- *)
(** * The runtime's side *)

Definition func_type := (list value_type * list value_type)%type.
(** vmcalls/mod.rs:32-50 wasmer_register; the types are those of static_alloc
    (vmcalls/alloc.rs:8), calldata_offset and calldata_len (calldata.rs:4, 9), set_returndata
    (returndata.rs:4), get32 to load160 (storage.rs:10-46), log (logs.rs:6) and svm_transfer
    (transfer.rs:19): wasm has one type of 32 and one of 64 bit integers, with or without
    sign. *)
Definition registered : list (bytes * func_type) :=
  [(txt "svm_static_alloc", ([I32], [I32]));
   (txt "svm_calldata_offset", ([], [I32]));
   (txt "svm_calldata_len", ([], [I32]));
   (txt "svm_set_returndata", ([I32; I32], []));
   (txt "svm_get32", ([I32], [I32]));
   (txt "svm_set32", ([I32; I32], []));
   (txt "svm_get64", ([I32], [I64]));
   (txt "svm_set64", ([I32; I64], []));
   (txt "svm_load160", ([I32; I32], []));
   (txt "svm_store160", ([I32; I32], []));
   (txt "svm_log", ([I32; I32], []));
   (txt "svm_transfer", ([I32; I32; I64], []))].
(** runtime/runtime.rs:301-313 create_import_object: one namespace *)
Definition import_object : list (bytes * list (bytes * func_type)) := [(txt "svm", registered)].

Fixpoint lookup {A} (k : bytes) (l : list (bytes * A)) : option A :=
  match l with
  | [] => None
  | (k', a) :: l => if bytes_eqb k k' then Some a else lookup k l
  end.
Definition func_type_eqb (a b : func_type) : bool :=
  value_types_eqb (fst a) (fst b) && value_types_eqb (snd a) (snd b).
(** wasmer's resolution of one import: the namespace has the name, with the same type. *)
Definition resolves (module name : bytes) (t : func_type) : bool :=
  match lookup module import_object with
  | None => false
  | Some ns => match lookup name ns with None => false | Some t' => func_type_eqb t t' end
  end.
(** Whether all imports of a module are resolved (runtime/runtime.rs:261-271 instantiate:
    otherwise [Instance::new] fails).  Tables, memories and globals are never given. *)
Definition links (m : wmodule) : bool :=
  forallb (fun i => match i with
    | (module, name, ExtFunction ty) =>
        match nth_error (entries (m_types m)) (N.to_nat ty) with
        | Some t => resolves module name t
        | None => false
        end
    | _ => false
    end) (entries (m_imports m)).

(* ------------------------------------------------------------------------- *)
(** * The SDK's side *)

(** The functions of the SDK that reach the host. *)
Inductive sdk_call : Type :=
| CAlloc | CCalldata | CSetReturndata | CValue | CBalance | CPrincipal | CTarget | CLayer
| CTransfer | CLog | CStdLog | CGet32 | CSet32 | CGet64 | CSet64 | CLoad160 | CStore160.
Definition wimport := (bytes * bytes * func_type)%type.
Definition from (module name : string) (params results : list value_type) : wimport :=
  (txt module, txt name, (params, results)).
(** sdk-alloc/src/lib.rs:67-71; sdk-host-ffi/src/ext.rs:18-38 and 47-71, used in 168-247, where
    principal and target allocate; sdk-storage-ffi/src/ext.rs:3-44; sdk-std/src/log.rs:4-9,
    whose [link_section] does not name an import module: the compiler's default is "env". *)
Definition imports_of (c : sdk_call) : list wimport :=
  let alloc := from "svm" "svm_static_alloc" [I32] [I32] in
  match c with
  | CAlloc => [alloc]
  | CCalldata => [from "svm" "svm_calldata_offset" [] [I32]; from "svm" "svm_calldata_len" [] [I32]]
  | CSetReturndata => [from "svm" "svm_set_returndata" [I32; I32] []]
  | CValue => [from "sm" "sm_value" [] [I64]]
  | CBalance => [from "sm" "sm_balance" [] [I64]]
  | CPrincipal => [alloc; from "sm" "sm_principal" [I32] []]
  | CTarget => [alloc; from "sm" "sm_target" [I32] []]
  | CLayer => [from "sm" "sm_layer" [] [I64]]
  | CTransfer => [from "sm" "sm_transfer" [I32; I64] []]
  | CLog => [from "svm" "svm_log" [I32; I32; I32] []]
  | CStdLog => [from "env" "svm_log" [I32; I32] []]
  | CGet32 => [from "svm" "svm_get32" [I32] [I32]]
  | CSet32 => [from "svm" "svm_set32" [I32; I32] []]
  | CGet64 => [from "svm" "svm_get64" [I32] [I64]]
  | CSet64 => [from "svm" "svm_set64" [I32; I64] []]
  | CLoad160 => [from "svm" "svm_load160" [I32; I32] []]
  | CStore160 => [from "svm" "svm_store160" [I32; I32] []]
  end.

(** What the macro's code around a function calls: sdk-macros/src/function/endpoint.rs:57-96
    (arguments), 120-157 (result), fundable.rs:26-42 (funds). *)
Definition around (f : mfunction) (i : item) : list sdk_call :=
  match i with
  | IEntry _ hook =>
      (match hook with Some _ => [CValue] | None => [] end) ++
      (match fn_params f with [] => [] | _ => [CCalldata] end) ++
      (match fn_output f with Some _ => [CAlloc; CSetReturndata] | None => [] end)
  | _ => []
  end.
(** The calls of a compiled contract: those of the exported [svm_alloc] (template.rs:288-296),
    those around its functions, and those of their bodies, which [body] gives by name. *)
Definition contract_calls (body : bytes -> list sdk_call) (t : template) (g : generated) : list sdk_call :=
  CAlloc ::
  flat_map (fun p => around (fst p) (snd p) ++ body (fn_name (fst p))) (combine (tp_functions t) (ge_items g)).
(** The function imports of a module, with their types. *)
Definition imports_in (m : wmodule) : list (bytes * bytes * option func_type) :=
  flat_map (fun i => match i with
    | (module, name, ExtFunction ty) => [(module, name, nth_error (entries (m_types m)) (N.to_nat ty))]
    | _ => []
    end) (entries (m_imports m)).
