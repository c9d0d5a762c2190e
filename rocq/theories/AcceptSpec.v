(** When a module is accepted as a program, when it is refused, and for which of the reasons,
    in terms of the contents of the module alone. *)
From Coq Require Import String List NArith Bool.
From Verif Require Import Base Text GraphSpec ProgramModel ProgramSpec.
Import ListNotations.
Open Scope string_scope.
Open Scope list_scope.
Open Scope N_scope.

(* ------------------------------------------------------------------------- *)
(** * Instructions *)

(** The instructions that no program may contain: those that produce a float, and those that
    have a float among two operands. *)
Definition banned (i : instr) : Prop :=
  match i with
  | Op o => produces_float o = true \/ (float_op o = true /\ (2 <= length (fst (op_type o)))%nat)
  | _ => False
  end.
Definition somewhere (code : list (list instr)) (i : instr) : Prop := exists body, In body code /\ In i body.
Definition float_free (code : list (list instr)) : Prop := forall i, somewhere code i -> ~ banned i.

(* ------------------------------------------------------------------------- *)
(** * Exports *)

(** The two functions that the node calls, and their types. *)
Inductive required : bytes -> list value_type * list value_type -> Prop :=
| required_alloc : required (txt "svm_alloc") ([I32], [I32])
| required_verify : required (txt "svm_verify") ([], [I32]).

(** An export with one of the two names must be a function of the module of that type. *)
Definition good_export (md : wmodule) (e : bytes * internal) : Prop :=
  forall t, required (fst e) t -> export_type md (snd e) t.
Definition exported (md : wmodule) (name : bytes) : Prop := In name (map fst (entries (m_exports md))).
Definition exports_ok (md : wmodule) : Prop :=
  Forall (good_export md) (entries (m_exports md)) /\ forall name t, required name t -> exported md name.

(** What is wrong with an export: it is no function, it has another type, or it designates
    an imported function or none at all, on which the node aborts. *)
Inductive export_fault (md : wmodule) : bytes * internal -> outcome program_error unit -> Prop :=
| fault_kind name t kind : required name t -> (forall i, kind <> IntFunction i) ->
    export_fault md (name, kind) (Err InvalidExportKind)
| fault_type name t i t' : required name t -> export_type md (IntFunction i) t' -> t' <> t ->
    export_fault md (name, IntFunction i) (Err (InvalidExportFunctionSignature name))
| fault_foreign name t i : required name t -> (forall t', ~ export_type md (IntFunction i) t') ->
    export_fault md (name, IntFunction i) Panic.

(** What is wrong with the exports of a module: the first faulty one, or a name that is missing. *)
Inductive exports_fault (md : wmodule) : outcome program_error unit -> Prop :=
| fault_first l e r o : entries (m_exports md) = l ++ e :: r -> Forall (good_export md) l ->
    export_fault md e o -> exports_fault md o
| fault_no_alloc : Forall (good_export md) (entries (m_exports md)) -> ~ exported md (txt "svm_alloc") ->
    exports_fault md (Err (FunctionNotFound (txt "svm_alloc")))
| fault_no_verify : Forall (good_export md) (entries (m_exports md)) -> exported md (txt "svm_alloc") ->
    ~ exported md (txt "svm_verify") -> exports_fault md (Err (FunctionNotFound (txt "svm_verify"))).

(* ------------------------------------------------------------------------- *)
(** * Modules *)

(** What a module must satisfy; the exports only count where templates are deployed ([v]). *)
Definition accepted (md : wmodule) (v : bool) (code : list (list instr)) : Prop :=
  m_code md = Some code /\ function_imports md <= 65535 /\ float_free code /\ (v = true -> exports_ok md) /\
  nlen code <= 65535.

(** The reasons, in the order in which they are looked for. *)
Inductive refused (v : bool) : option wmodule -> outcome program_error unit -> Prop :=
| refused_unreadable : refused v None (Err InvalidWasm)
| refused_no_code md : m_code md = None -> refused v (Some md) (Err MissingCodeSection)
| refused_imports md code : m_code md = Some code -> 65535 < function_imports md ->
    refused v (Some md) (Err TooManyFunctionImports)
| refused_floats md code i : m_code md = Some code -> function_imports md <= 65535 -> somewhere code i -> banned i ->
    refused v (Some md) (Err FloatsNotAllowed)
| refused_exports md code o : m_code md = Some code -> function_imports md <= 65535 -> float_free code ->
    v = true -> exports_fault md o -> refused v (Some md) o
| refused_functions md code : m_code md = Some code -> function_imports md <= 65535 -> float_free code ->
    (v = true -> exports_ok md) -> 65535 < nlen code -> refused v (Some md) (Err FunctionIndexTooLarge).

(** The contents of the program read from a module: its imported functions in order, its
    functions numbered after them, and for every name the last function exported under it. *)
Definition imported_functions (md : wmodule) : list (bytes * bytes * external) :=
  filter (fun e => match snd e with ExtFunction _ => true | _ => false end) (entries (m_imports md)).
Definition reads_as (md : wmodule) (code : list (list instr)) (p : program) : Prop :=
  p_imports p = map fst (imported_functions md) /\
  (forall f body, get_func p f = Some body <->
     exists n, f = function_imports md + N.of_nat n /\ nth_error code n = Some body) /\
  length (p_functions p) = length code /\
  NoDup (map fst (p_exports p)) /\
  (forall name i, In (name, i) (p_exports p) <->
     exists l r, entries (m_exports md) = l ++ (name, IntFunction i) :: r /\ forall j, ~ In (name, IntFunction j) r).

(* ------------------------------------------------------------------------- *)
(** * The fixed-gas rules *)

(** What is wrong with instruction number [offset] of function [f]. *)
Inductive offence (p : program) (f offset : N) : instr -> fixed_gas_error -> Prop :=
| offence_loop : offence p f offset Loop LoopNotAllowed
| offence_indirect t : offence p f offset (CallIndirect t) CallIndirectNotAllowed
| offence_far t : 65535 < t -> offence p f offset (Call t) LoopNotAllowed
| offence_self : f <= 65535 -> nlen (p_imports p) <= f -> offence p f offset (Call f) (RecursiveCall f offset).
Definition harmless (p : program) (fb : N * list instr) : Prop :=
  forall i offset e, In i (snd fb) -> ~ offence p (fst fb) offset i e.

(** The first offence, function by function and instruction by instruction; without any,
    functions that call each other in a circle. *)
Inductive breaks_rules (p : program) : fixed_gas_error -> Prop :=
| breaks_first before f pre i post after e : p_functions p = before ++ (f, pre ++ i :: post) :: after ->
    Forall (harmless p) before -> harmless p (f, pre) -> offence p f (nlen pre) i e -> breaks_rules p e
| breaks_circle f : Forall (harmless p) (p_functions p) -> leads (calls p) f f -> breaks_rules p (CallCycle []).

(* ------------------------------------------------------------------------- *)
(** * Deployable modules *)

(** Function [f] of the module calls its function [g], which is not imported. *)
Definition module_calls (md : wmodule) (code : list (list instr)) (f g : N) : Prop :=
  exists n body, f = function_imports md + N.of_nat n /\ nth_error code n = Some body /\ In (Call g) body /\
    function_imports md <= g.
Definition deployable (md : wmodule) : Prop :=
  exists code, accepted md true code /\
    ~ somewhere code Loop /\ (forall t, ~ somewhere code (CallIndirect t)) /\
    (forall t, somewhere code (Call t) -> t <= 65535) /\ acyclic (module_calls md code).
