(** What an author expects of the functions their contract imports. *)
From Coq Require Import String List NArith Bool.
From Verif Require Import Base Text CodecModel ReceiptModel SectionModel ProgramModel RuntimeModel MacroModel MacroSpec LinkModel.
Import ListNotations.
Open Scope string_scope.
Open Scope list_scope.
Open Scope N_scope.

(** The module has exactly the imports that the calls need, and imports nothing but
    functions. *)
Record compiled_with (m : wmodule) (calls : list sdk_call) : Prop := mkCompiledWith {
  cw_functions : forall module name e, In (module, name, e) (entries (m_imports m)) -> exists ty, e = ExtFunction ty;
  cw_imports : forall module name t, In (module, name, t) (imports_in m) <->
    exists c t', In c calls /\ In (module, name, t') (imports_of c) /\ t = Some t'
}.
(** The engine refuses a module with an import that is not resolved, as wasmer does. *)
Definition linking (en : engine) (parse : bytes -> option wmodule) : Prop :=
  forall code m, parse code = Some m -> links m = false -> exists msg, en_instantiate en code = WTrap msg.
(** An entry that accepts funds. *)
Definition takes_funds (f : mfunction) : Prop := entry f /\ annotated "fundable" f.
(** The functions of the SDK that work on chain. *)
Definition works (c : sdk_call) : Prop :=
  match c with
  | CAlloc | CCalldata | CSetReturndata => True
  | CGet32 | CSet32 | CGet64 | CSet64 | CLoad160 | CStore160 => True
  | CValue | CBalance | CPrincipal | CTarget | CLayer | CTransfer | CLog | CStdLog => False
  end.
(** Other names for the imports of a module. *)
Definition renamed (r : bytes * bytes -> bytes * bytes) (m : wmodule) : wmodule :=
  mkModule (m_types m) (option_map (map (fun '(module, name, e) => (r (module, name), e))) (m_imports m))
    (m_functions m) (m_exports m) (m_code m).
(** The host interface: what a contract may ask of the namespace [svm].  An offset or a length is
    a 32-bit integer, and so is a 32-bit variable; amounts and 64-bit variables are 64-bit. *)
Inductive provides : string -> list value_type -> list value_type -> Prop :=
| hi_alloc : provides "svm_static_alloc" [I32] [I32]
| hi_calldata_offset : provides "svm_calldata_offset" [] [I32]
| hi_calldata_len : provides "svm_calldata_len" [] [I32]
| hi_set_returndata : provides "svm_set_returndata" [I32; I32] []
| hi_get : forall w t, w = "32" /\ t = I32 \/ w = "64" /\ t = I64 -> provides ("svm_get" ++ w) [I32] [t]
| hi_set : forall w t, w = "32" /\ t = I32 \/ w = "64" /\ t = I64 -> provides ("svm_set" ++ w) [I32; t] []
| hi_blob : forall w, w = "load" \/ w = "store" -> provides ("svm_" ++ w ++ "160") [I32; I32] []
| hi_log : provides "svm_log" [I32; I32] []
| hi_transfer : provides "svm_transfer" [I32; I32; I64] [].
