(** What the program and validation properties mean, independently of the checks: the calls
    of a program, floating-point instructions, and how WebAssembly code runs. *)
From Coq Require Import List NArith Bool.
From Verif Require Import Base GraphSpec ProgramModel.
Import ListNotations.
Open Scope N_scope.

(* ------------------------------------------------------------------------- *)
(** * Contents of a program *)

(** [i] occurs in the body of function [f]. *)
Definition occurs (p : program) (f : N) (i : instr) : Prop :=
  exists body, In (f, body) (p_functions p) /\ In i body.

(** Function [f] calls function [g], which is not imported. *)
Definition calls (p : program) (f g : N) : Prop :=
  occurs p f (Call g) /\ nlen (p_imports p) <= g.

(** The functions that have a body. *)
Definition defined (p : program) (f : N) : Prop := In f (map fst (p_functions p)).

(** The number of imported functions of a module. *)
Definition function_imports (md : wmodule) : N :=
  nlen (filter (fun e => match snd e with ExtFunction _ => true | _ => false end) (entries (m_imports md))).

(** The type of the function that an export designates, when it has a body in the module. *)
Definition export_type (md : wmodule) (kind : internal) (t : list value_type * list value_type) : Prop :=
  exists global n ref, kind = IntFunction global /\
    global = function_imports md + N.of_nat n /\
    nth_error (entries (m_functions md)) n = Some ref /\
    nth_error (entries (m_types md)) (N.to_nat ref) = Some t.

(* ------------------------------------------------------------------------- *)
(** * Floating point *)

(** The fixed part of the type of an instruction: operands and results
    (WebAssembly core specification 1.0, section 3.3).  [Drop], [Select] and the access to
    variables take their type from the context. *)
Definition op_type (o : opcode) : list value_type * list value_type :=
  match o with
  | Nop | Drop | Select | GetLocal | SetLocal | TeeLocal | GetGlobal | SetGlobal
      => ([], [])
  | I32Load | I32Load8S | I32Load8U | I32Load16S | I32Load16U | GrowMemory | I32Eqz | I32Clz |
  I32Ctz | I32Popcnt
      => ([I32], [I32])
  | I64Load | I64Load8S | I64Load8U | I64Load16S | I64Load16U | I64Load32S | I64Load32U |
  I64ExtendSI32 | I64ExtendUI32
      => ([I32], [I64])
  | F32Load | F32ConvertSI32 | F32ConvertUI32 | F32ReinterpretI32
      => ([I32], [F32])
  | F64Load | F64ConvertSI32 | F64ConvertUI32
      => ([I32], [F64])
  | I32Store | I32Store8 | I32Store16
      => ([I32; I32], [])
  | I64Store | I64Store8 | I64Store16 | I64Store32
      => ([I32; I64], [])
  | F32Store
      => ([I32; F32], [])
  | F64Store
      => ([I32; F64], [])
  | CurrentMemory | I32Const
      => ([], [I32])
  | I64Const
      => ([], [I64])
  | F32Const
      => ([], [F32])
  | F64Const
      => ([], [F64])
  | I32Eq | I32Ne | I32LtS | I32LtU | I32GtS | I32GtU | I32LeS | I32LeU | I32GeS | I32GeU |
  I32Add | I32Sub | I32Mul | I32DivS | I32DivU | I32RemS | I32RemU | I32And | I32Or | I32Xor |
  I32Shl | I32ShrS | I32ShrU | I32Rotl | I32Rotr
      => ([I32; I32], [I32])
  | I64Eqz | I32WrapI64
      => ([I64], [I32])
  | I64Eq | I64Ne | I64LtS | I64LtU | I64GtS | I64GtU | I64LeS | I64LeU | I64GeS | I64GeU
      => ([I64; I64], [I32])
  | F32Eq | F32Ne | F32Lt | F32Gt | F32Le | F32Ge
      => ([F32; F32], [I32])
  | F64Eq | F64Ne | F64Lt | F64Gt | F64Le | F64Ge
      => ([F64; F64], [I32])
  | I64Clz | I64Ctz | I64Popcnt
      => ([I64], [I64])
  | I64Add | I64Sub | I64Mul | I64DivS | I64DivU | I64RemS | I64RemU | I64And | I64Or | I64Xor |
  I64Shl | I64ShrS | I64ShrU | I64Rotl | I64Rotr
      => ([I64; I64], [I64])
  | F32Abs | F32Neg | F32Ceil | F32Floor | F32Trunc | F32Nearest | F32Sqrt
      => ([F32], [F32])
  | F32Add | F32Sub | F32Mul | F32Div | F32Min | F32Max | F32Copysign
      => ([F32; F32], [F32])
  | F64Abs | F64Neg | F64Ceil | F64Floor | F64Trunc | F64Nearest | F64Sqrt
      => ([F64], [F64])
  | F64Add | F64Sub | F64Mul | F64Div | F64Min | F64Max | F64Copysign
      => ([F64; F64], [F64])
  | I32TruncSF32 | I32TruncUF32 | I32ReinterpretF32
      => ([F32], [I32])
  | I32TruncSF64 | I32TruncUF64
      => ([F64], [I32])
  | I64TruncSF32 | I64TruncUF32
      => ([F32], [I64])
  | I64TruncSF64 | I64TruncUF64 | I64ReinterpretF64
      => ([F64], [I64])
  | F32ConvertSI64 | F32ConvertUI64
      => ([I64], [F32])
  | F32DemoteF64
      => ([F64], [F32])
  | F64ConvertSI64 | F64ConvertUI64 | F64ReinterpretI64
      => ([I64], [F64])
  | F64PromoteF32
      => ([F32], [F64])
  end.

Definition is_float (t : value_type) : bool := match t with F32 | F64 => true | I32 | I64 => false end.

(** Floating-point instructions take or produce a float. *)
Definition float_op (o : opcode) : bool := existsb is_float (fst (op_type o) ++ snd (op_type o)).
Definition produces_float (o : opcode) : bool := existsb is_float (snd (op_type o)).

(* ------------------------------------------------------------------------- *)
(** * Control flow (WebAssembly core specification 1.0, section 4.4) *)

(** What is left of the code after the [n+1]-th [end] that closes an enclosing block. *)
Fixpoint after_end (n : nat) (k : list instr) : option (list instr) :=
  match k with
  | [] => None
  | (Block | Loop | If) :: k => after_end (S n) k
  | End :: k => match n with O => Some k | S n => after_end n k end
  | _ :: k => after_end n k
  end.

(** Where an [if] goes when its condition is false: to its [else] part, or after its [end]. *)
Inductive false_branch : Type := ToElse (k : list instr) | ToEnd (k : list instr).
Fixpoint on_false (n : nat) (k : list instr) : option false_branch :=
  match k with
  | [] => None
  | (Block | Loop | If) :: k => on_false (S n) k
  | Else :: k => match n with O => Some (ToElse k) | S _ => on_false n k end
  | End :: k => match n with O => Some (ToEnd k) | S n => on_false n k end
  | _ :: k => on_false n k
  end.

(** An activation of function [fr_func]: the continuations of the enclosing blocks, innermost
    first, and the code left to run. *)
Record frame := mkFrame { fr_func : N; fr_labels : list (list instr); fr_code : list instr }.

(** One step; [st] is the stack of activations, innermost first, and [[]] when the program
    has stopped, by finishing or by a trap.  The values are not followed: every outcome of
    a condition and every entry of a branch table is possible, and an ordinary instruction
    or an imported function may trap.  So each real execution is one of these. *)
Inductive branch : frame -> N -> option frame -> Prop :=
| branch_label fr l c :
    nth_error (fr_labels fr) (N.to_nat l) = Some c ->
    branch fr l (Some (mkFrame (fr_func fr) (skipn (S (N.to_nat l)) (fr_labels fr)) c))
| branch_out fr l : N.to_nat l = length (fr_labels fr) -> branch fr l None.

Definition push (fr : option frame) (st : list frame) : list frame :=
  match fr with Some fr => fr :: st | None => st end.

Inductive step (p : program) : list frame -> instr -> list frame -> Prop :=
| step_op f ls o k st : step p (mkFrame f ls (Op o :: k) :: st) (Op o) (mkFrame f ls k :: st)
| step_op_trap f ls o k st : step p (mkFrame f ls (Op o :: k) :: st) (Op o) []
| step_unreachable f ls k st : step p (mkFrame f ls (Unreachable :: k) :: st) Unreachable []
| step_block f ls k c st : after_end 0 k = Some c ->
    step p (mkFrame f ls (Block :: k) :: st) Block (mkFrame f (c :: ls) k :: st)
| step_loop f ls k st :
    step p (mkFrame f ls (Loop :: k) :: st) Loop (mkFrame f ((Loop :: k) :: ls) k :: st)
| step_if_true f ls k c st : after_end 0 k = Some c ->
    step p (mkFrame f ls (If :: k) :: st) If (mkFrame f (c :: ls) k :: st)
| step_if_else f ls k c k' st : after_end 0 k = Some c -> on_false 0 k = Some (ToElse k') ->
    step p (mkFrame f ls (If :: k) :: st) If (mkFrame f (c :: ls) k' :: st)
| step_if_end f ls k k' st : on_false 0 k = Some (ToEnd k') ->
    step p (mkFrame f ls (If :: k) :: st) If (mkFrame f ls k' :: st)
| step_else f c ls k st : step p (mkFrame f (c :: ls) (Else :: k) :: st) Else (mkFrame f ls c :: st)
| step_end f c ls k st : step p (mkFrame f (c :: ls) (End :: k) :: st) End (mkFrame f ls k :: st)
| step_finish f k st : step p (mkFrame f [] (End :: k) :: st) End st
| step_br f ls l k fr st : branch (mkFrame f ls k) l fr ->
    step p (mkFrame f ls (Br l :: k) :: st) (Br l) (push fr st)
| step_br_if_taken f ls l k fr st : branch (mkFrame f ls k) l fr ->
    step p (mkFrame f ls (BrIf l :: k) :: st) (BrIf l) (push fr st)
| step_br_if_not f ls l k st : step p (mkFrame f ls (BrIf l :: k) :: st) (BrIf l) (mkFrame f ls k :: st)
| step_br_table f ls t d l k fr st : In l (d :: t) -> branch (mkFrame f ls k) l fr ->
    step p (mkFrame f ls (BrTable t d :: k) :: st) (BrTable t d) (push fr st)
| step_return f ls k st : step p (mkFrame f ls (Return :: k) :: st) Return st
| step_call f ls g k body st : nlen (p_imports p) <= g -> get_func p g = Some body ->
    step p (mkFrame f ls (Call g :: k) :: st) (Call g) (mkFrame g [] body :: mkFrame f ls k :: st)
| step_host f ls g k st : g < nlen (p_imports p) ->
    step p (mkFrame f ls (Call g :: k) :: st) (Call g) (mkFrame f ls k :: st)
| step_host_trap f ls g k st : g < nlen (p_imports p) ->
    step p (mkFrame f ls (Call g :: k) :: st) (Call g) []
| step_indirect f ls t g k body st : get_func p g = Some body ->
    step p (mkFrame f ls (CallIndirect t :: k) :: st) (CallIndirect t)
      (mkFrame g [] body :: mkFrame f ls k :: st)
| step_indirect_host f ls t k st :
    step p (mkFrame f ls (CallIndirect t :: k) :: st) (CallIndirect t) (mkFrame f ls k :: st)
| step_indirect_trap f ls t k st : step p (mkFrame f ls (CallIndirect t :: k) :: st) (CallIndirect t) [].

(** [run p st is st']: from [st], executing the instructions [is] one after the other. *)
Inductive run (p : program) : list frame -> list instr -> list frame -> Prop :=
| run_nil st : run p st [] st
| run_cons st i st1 is st2 : step p st i st1 -> run p st1 is st2 -> run p st (i :: is) st2.

(** The start of a call of function [f] from outside. *)
Definition enters (p : program) (f : N) (st : list frame) : Prop :=
  exists body, get_func p f = Some body /\ st = [mkFrame f [] body].
