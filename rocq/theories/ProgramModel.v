(** Model of crates/host/program/src/*.rs (the parsed, validated program) and
    crates/host/gas/src/validation.rs (the fixed-gas rules).

    The parity-wasm parser is not modelled: a parsed module is the input.  Strings are the
    lists of their bytes.  [usize] and [u32] indexes are [N]; the casts to u32 of program.rs:49
    are exact because a module with 2^32 functions cannot be parsed. *)
From Coq Require Import String List NArith Bool.
From Verif Require Import Base Text CodecModel ReceiptModel SectionModel GraphModel.
Import ListNotations.
Open Scope string_scope.
Open Scope list_scope.
Open Scope N_scope.

(* ------------------------------------------------------------------------- *)
(** * Instructions *)

(** parity_wasm::elements::Instruction (MVP, no optional feature): the instructions that
    neither change the control flow nor call.  Immediates are dropped: none is inspected. *)
Inductive opcode : Type :=
  | Nop | Drop | Select | GetLocal | SetLocal | TeeLocal | GetGlobal | SetGlobal | I32Load |
  I64Load | F32Load | F64Load | I32Load8S | I32Load8U | I32Load16S | I32Load16U | I64Load8S |
  I64Load8U | I64Load16S | I64Load16U | I64Load32S | I64Load32U | I32Store | I64Store | F32Store
  | F64Store | I32Store8 | I32Store16 | I64Store8 | I64Store16 | I64Store32 | CurrentMemory |
  GrowMemory | I32Const | I64Const | F32Const | F64Const | I32Eqz | I32Eq | I32Ne | I32LtS |
  I32LtU | I32GtS | I32GtU | I32LeS | I32LeU | I32GeS | I32GeU | I64Eqz | I64Eq | I64Ne | I64LtS
  | I64LtU | I64GtS | I64GtU | I64LeS | I64LeU | I64GeS | I64GeU | F32Eq | F32Ne | F32Lt | F32Gt
  | F32Le | F32Ge | F64Eq | F64Ne | F64Lt | F64Gt | F64Le | F64Ge | I32Clz | I32Ctz | I32Popcnt
  | I32Add | I32Sub | I32Mul | I32DivS | I32DivU | I32RemS | I32RemU | I32And | I32Or | I32Xor |
  I32Shl | I32ShrS | I32ShrU | I32Rotl | I32Rotr | I64Clz | I64Ctz | I64Popcnt | I64Add | I64Sub
  | I64Mul | I64DivS | I64DivU | I64RemS | I64RemU | I64And | I64Or | I64Xor | I64Shl | I64ShrS
  | I64ShrU | I64Rotl | I64Rotr | F32Abs | F32Neg | F32Ceil | F32Floor | F32Trunc | F32Nearest |
  F32Sqrt | F32Add | F32Sub | F32Mul | F32Div | F32Min | F32Max | F32Copysign | F64Abs | F64Neg
  | F64Ceil | F64Floor | F64Trunc | F64Nearest | F64Sqrt | F64Add | F64Sub | F64Mul | F64Div |
  F64Min | F64Max | F64Copysign | I32WrapI64 | I32TruncSF32 | I32TruncUF32 | I32TruncSF64 |
  I32TruncUF64 | I64ExtendSI32 | I64ExtendUI32 | I64TruncSF32 | I64TruncUF32 | I64TruncSF64 |
  I64TruncUF64 | F32ConvertSI32 | F32ConvertUI32 | F32ConvertSI64 | F32ConvertUI64 |
  F32DemoteF64 | F64ConvertSI32 | F64ConvertUI32 | F64ConvertSI64 | F64ConvertUI64 |
  F64PromoteF32 | I32ReinterpretF32 | I64ReinterpretF64 | F32ReinterpretI32 | F64ReinterpretI64.

(** parity_wasm::elements::Instruction: control flow and calls.  Block types are dropped;
    [BrTable] has its table and its default. *)
Inductive instr : Type :=
| Op (o : opcode)
| Unreachable | Block | Loop | If | Else | End
| Br (label : N) | BrIf (label : N) | BrTable (labels : list N) (default : N)
| Return | Call (target : N) | CallIndirect (ty : N).

(** parity_wasm::elements::ValueType *)
Inductive value_type : Type := I32 | I64 | F32 | F64.

Definition value_type_eqb (a b : value_type) : bool :=
  match a, b with
  | I32, I32 | I64, I64 | F32, F32 | F64, F64 => true
  | _, _ => false
  end.
Fixpoint value_types_eqb (a b : list value_type) : bool :=
  match a, b with
  | [], [] => true
  | x :: a, y :: b => value_type_eqb x y && value_types_eqb a b
  | _, _ => false
  end.

(* ------------------------------------------------------------------------- *)
(** * Modules *)

(** parity_wasm::elements::External and ::Internal *)
Inductive external : Type := ExtFunction (ty : N) | ExtTable | ExtMemory | ExtGlobal.
Inductive internal : Type := IntFunction (index : N) | IntTable | IntMemory | IntGlobal.

(** parity_wasm::elements::Module: the sections that the code reads, each may be absent. *)
Record wmodule := mkModule {
  m_types : option (list (list value_type * list value_type));
  m_imports : option (list (bytes * bytes * external));
  m_functions : option (list N);
  m_exports : option (list (bytes * internal));
  m_code : option (list (list instr)) }.

(** program/src/error.rs:7-32 *)
Inductive program_error : Type :=
| InvalidWasm
| FunctionNotFound (name : bytes)
| FloatsNotAllowed
| TooManyFunctionImports
| FunctionIndexTooLarge
| MissingCodeSection
| InvalidExportKind
| InvalidExportFunctionSignature (name : bytes).

(** program/src/import.rs:8-10 [Imports]: function [i] is the [i]-th pair of names
    (the IndexMap has the keys 0, 1, ...).
    program/src/exports.rs:8-10 [Exports]: an IndexMap by name.
    program/src/program.rs:30-34 [Program]. *)
Record program := mkProgram {
  p_imports : list (bytes * bytes);
  p_exports : list (bytes * N);
  p_functions : list (N * list instr) }.

(** program.rs:99-101 [is_imported], 114-117 [get_func]: unwraps. *)
Definition is_imported (p : program) (f : N) : bool := f <? nlen (p_imports p).
Fixpoint assoc {A} (k : N) (l : list (N * A)) : option A :=
  match l with
  | [] => None
  | (k', a) :: l => if k' =? k then Some a else assoc k l
  end.
Definition get_func (p : program) (f : N) : option (list instr) := assoc f (p_functions p).

(* ------------------------------------------------------------------------- *)
(** * Reading a module *)

(** import.rs:14-36 [Imports::read], 77-85 [module_import_count]. *)
Fixpoint import_names (l : list (bytes * bytes * external)) : list (bytes * bytes) :=
  match l with
  | [] => []
  | (m, f, ExtFunction _) :: l => (m, f) :: import_names l
  | _ :: l => import_names l
  end.
Definition read_imports (m : wmodule) : outcome program_error (list (bytes * bytes)) :=
  match m_imports m with
  | Some l => if nlen (import_names l) <=? u16_max then Ok (import_names l) else Err TooManyFunctionImports
  | None => Ok []
  end.

(** exports.rs:34-36 [insert] (IndexMap::insert), 13-33 [read] *)
Fixpoint insert_export (name : bytes) (i : N) (l : list (bytes * N)) : list (bytes * N) :=
  match l with
  | [] => [(name, i)]
  | (n, j) :: l => if bytes_eqb n name then (n, i) :: l else (n, j) :: insert_export name i l
  end.
Fixpoint read_exports (l : list (bytes * internal)) (acc : list (bytes * N)) : list (bytes * N) :=
  match l with
  | [] => acc
  | (name, IntFunction i) :: l => read_exports l (insert_export name i acc)
  | _ :: l => read_exports l acc
  end.

(** program.rs:46-53: the functions are numbered after the imports. *)
Fixpoint number_functions (i : N) (bodies : list (list instr)) : list (N * list instr) :=
  match bodies with
  | [] => []
  | b :: r => (i, b) :: number_functions (i + 1) r
  end.

(** program/src/lib.rs:35-97 [validate_opcode]: true when the instruction is refused. *)
Definition refused_opcode (o : opcode) : bool :=
  match o with
  | F32Load | F64Load | F32Store | F64Store | F32Const | F64Const | F32Eq | F32Ne | F32Lt |
  F32Gt | F32Le | F32Ge | F64Eq | F64Ne | F64Lt | F64Gt | F64Le | F64Ge | F32Abs | F32Neg |
  F32Ceil | F32Floor | F32Trunc | F32Nearest | F32Sqrt | F32Add | F32Sub | F32Mul | F32Div |
  F32Min | F32Max | F32Copysign | F64Abs | F64Neg | F64Ceil | F64Floor | F64Trunc | F64Nearest |
  F64Sqrt | F64Add | F64Sub | F64Mul | F64Div | F64Min | F64Max | F64Copysign | F32ConvertSI32 |
  F32ConvertUI32 | F32ConvertSI64 | F32ConvertUI64 | F32DemoteF64 | F64ConvertSI32 |
  F64ConvertUI32 | F64ConvertSI64 | F64ConvertUI64 | F64PromoteF32 | F32ReinterpretI32 |
  F64ReinterpretI64
      => true
  | _ => false
  end.
Definition refused_instr (i : instr) : bool :=
  match i with Op o => refused_opcode o | _ => false end.

(** lib.rs:31-33 [validate_no_floats], validators.rs:36-38, visitor.rs:12-32. *)
Definition validate_no_floats (p : program) : outcome program_error unit :=
  if existsb (fun f => existsb refused_instr (snd f)) (p_functions p) then Err FloatsNotAllowed else Ok tt.

(** program.rs:283-306 [export_func_signature]: an export of an imported function, or
    indexes out of range, abort (line 291 is a debug assertion, the subtraction of line 293
    aborts as well). *)
Definition export_func_signature (kind : internal) (import_count : N) (functions : list N)
    (types : list (list value_type * list value_type))
  : outcome program_error (list value_type * list value_type) :=
  match kind with
  | IntFunction global =>
      if import_count <=? global then
        match nth_error functions (N.to_nat (global - import_count)) with
        | Some type_ref =>
            match nth_error types (N.to_nat type_ref) with
            | Some sig => Ok sig
            | None => Panic
            end
        | None => Panic
        end
      else Panic
  | _ => Err InvalidExportKind
  end.

(** program.rs:257-281 [validate_func_signature] *)
Definition validate_func_signature (name : bytes) (kind : internal) (import_count : N)
    (functions : list N) (types : list (list value_type * list value_type))
    (params results : list value_type) : outcome program_error unit :=
  let* sig := export_func_signature kind import_count functions types in
  if value_types_eqb (fst sig) params && value_types_eqb (snd sig) results then Ok tt
  else Err (InvalidExportFunctionSignature name).

Definition svm_alloc_name : bytes := txt "svm_alloc".
Definition svm_verify_name : bytes := txt "svm_verify".

(** program.rs:191-207 the loop over the exports, 221-255. *)
Fixpoint check_exports (l : list (bytes * internal)) (import_count : N) (functions : list N)
    (types : list (list value_type * list value_type)) (seen_alloc seen_verify : bool)
  : outcome program_error (bool * bool) :=
  match l with
  | [] => Ok (seen_alloc, seen_verify)
  | (name, kind) :: l =>
      if bytes_eqb name svm_alloc_name then
        let* _ := validate_func_signature svm_alloc_name kind import_count functions types [I32] [I32] in
        check_exports l import_count functions types true seen_verify
      else if bytes_eqb name svm_verify_name then
        let* _ := validate_func_signature svm_verify_name kind import_count functions types [] [I32] in
        check_exports l import_count functions types seen_alloc true
      else check_exports l import_count functions types seen_alloc seen_verify
  end.

Definition entries {A} (s : option (list A)) : list A := match s with Some l => l | None => [] end.

(** program.rs:175-219 [module_validate_exports], 308-333. *)
Definition module_validate_exports (m : wmodule) : outcome program_error unit :=
  let* seen := check_exports (entries (m_exports m)) (nlen (import_names (entries (m_imports m))))
                 (entries (m_functions m)) (entries (m_types m)) false false in
  if negb (fst seen) then Err (FunctionNotFound svm_alloc_name)
  else if negb (snd seen) then Err (FunctionNotFound svm_verify_name)
  else Ok tt.

(** program.rs:38-68 [Program::new]; [m] is the parsed module, [None] when parsing fails.
    135-162 [count_functions_in_program] counts the functions that have a body. *)
Definition program_new (m : option wmodule) (validate_exports : bool) : outcome program_error program :=
  match m with
  | None => Err InvalidWasm
  | Some m =>
      match m_code m with
      | None => Err MissingCodeSection
      | Some code =>
          let* imports := read_imports m in
          let exports := read_exports (entries (m_exports m)) [] in
          let p := mkProgram imports exports (number_functions (nlen imports) code) in
          let* _ := validate_no_floats p in
          let* _ := if validate_exports then module_validate_exports m else Ok tt in
          if u16_max <? nlen (p_functions p) then Err FunctionIndexTooLarge else Ok p
      end
  end.

(* ------------------------------------------------------------------------- *)
(** * The fixed-gas rules *)

(** gas/src/errors.rs:11-31 *)
Inductive fixed_gas_error : Type :=
| CallIndirectNotAllowed
| LoopNotAllowed
| RecursiveCall (func offset : N)
| CallCycle (cycle : list N).

(** gas/src/validation.rs:113-134 [on_op], 44-60 [add_call], 62-68 [validate_func_index];
    the state of the visitor is the call graph. *)
Definition validate_op (p : program) (func offset : N) (op : instr) (g : graph unit)
  : outcome fixed_gas_error (graph unit) :=
  match op with
  | Loop => Err LoopNotAllowed
  | CallIndirect _ => Err CallIndirectNotAllowed
  | Call target =>
      if target <=? u16_max then
        if is_imported p target then Ok g
        else if func =? target then Err (RecursiveCall func offset)
        else match add_call func target g with Some g => Ok g | None => Panic end
      else Err LoopNotAllowed
  | _ => Ok g
  end.

(** program/src/visitor.rs:22-26: the operations of a function, with their offsets. *)
Fixpoint validate_body (p : program) (func offset : N) (body : list instr) (g : graph unit)
  : outcome fixed_gas_error (graph unit) :=
  match body with
  | [] => Ok g
  | op :: r =>
      let* g := validate_op p func offset op g in
      validate_body p func (offset + 1) r g
  end.

(** visitor.rs:16-29, validation.rs:91-101 [on_func_start]. *)
Fixpoint validate_functions (p : program) (fs : list (N * list instr)) (g : graph unit)
  : outcome fixed_gas_error (graph unit) :=
  match fs with
  | [] => Ok g
  | (f, body) :: r =>
      let* g := validate_body p f 0 body (add_target f g) in
      validate_functions p r g
  end.

(** validation.rs:19-21 [validate_wasm], 80-89 [on_end] *)
Definition validate_wasm (p : program) (return_cycles : bool) : outcome fixed_gas_error unit :=
  let* g := validate_functions p (p_functions p) [] in
  match find_cycles g return_cycles with
  | None => Panic
  | Some None => Ok tt
  | Some (Some c) => Err (CallCycle c)
  end.

(** detect_loops.rs:11-19 [detect_loops], validators.rs:36-38: the first refused instruction,
    in order, decides the error. *)
Fixpoint first_refused (ops : list instr) : option fixed_gas_error :=
  match ops with
  | [] => None
  | Loop :: _ => Some LoopNotAllowed
  | CallIndirect _ :: _ => Some CallIndirectNotAllowed
  | _ :: r => first_refused r
  end.
Definition detect_loops (p : program) : outcome fixed_gas_error unit :=
  match first_refused (concat (map snd (p_functions p))) with
  | Some e => Err e
  | None => Ok tt
  end.

(* ------------------------------------------------------------------------- *)
(** * Validating a deployment *)

(** runtime/src/error.rs:9-23 [ValidateError] *)
Inductive validate_error : Type :=
| VParse (e : parse_error) | VProgram (e : program_error) | VFixedGas (e : fixed_gas_error).

(** types/src/template/mod.rs:117-130 [code]: panics without a code section. *)
Definition template_code (l : sections) : option bytes :=
  match find (fun s => kind_eqb KCode (section_kind_of s)) l with
  | Some (SCode c) => Some (cs_code c)
  | _ => None
  end.

(** runtime/src/runtime/runtime.rs:554-569 [validate_deploy]; [parse] is the parity-wasm
    parser. *)
Definition validate_deploy (parse : bytes -> option wmodule) (message : bytes) : outcome validate_error unit :=
  match dec_template None message with
  | Panic => Panic
  | Err e => Err (VParse e)
  | Ok (template, _) =>
      match template_code template with
      | None => Panic
      | Some code =>
          match program_new (parse code) true with
          | Panic => Panic
          | Err e => Err (VProgram e)
          | Ok p =>
              match validate_wasm p false with
              | Panic => Panic
              | Err e => Err (VFixedGas e)
              | Ok _ => Ok tt
              end
          end
      end
  end.
