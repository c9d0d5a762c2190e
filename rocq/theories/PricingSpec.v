(** What the pricing properties mean: what executions cost, and which gas amounts an
    estimate stands for.  Executions are those of ProgramSpec.v. *)
From Coq Require Import String List NArith Bool.
From Verif Require Import Base Text ReceiptModel GraphSpec ProgramModel ProgramSpec PricingModel.
Import ListNotations.
Open Scope list_scope.
Open Scope N_scope.

(** What an executed instruction costs.  A call of an imported function costs what the
    price list says for this import.  A call of a function of the program costs nothing
    by itself: the instructions of the callee are executed and counted.  Everything else
    costs what the price list says for the instruction. *)
Definition full_charge (p : program) (r : resolver) (i : instr) : N :=
  match i with
  | Call g => match nth_error (p_imports p) (N.to_nat g) with Some im => import_price r im | None => 0 end
  | _ => op_price r i
  end.

(** The same with free control flow ([if], [else], [end], branches, [return],
    [unreachable]): only [block], ordinary instructions and imported functions cost. *)
Definition is_control (i : instr) : bool :=
  match i with
  | If | Else | End | Br _ | BrIf _ | BrTable _ _ | Return | Unreachable => true
  | _ => false
  end.
Definition charge (p : program) (r : resolver) (i : instr) : N :=
  if is_control i then 0 else full_charge p r i.

Definition total_charge (c : instr -> N) (is : list instr) : N := fold_right (fun i s => c i + s) 0 is.

(** [within n g]: the estimate [g] allows the amount [n]. *)
Definition within (n : N) (g : gas_units) : Prop :=
  match g with GFixed x => n = x | GRange lo hi => lo <= n /\ n <= hi end.
Definition least (g : gas_units) : N := match g with GFixed x => x | GRange lo _ => lo end.
Definition most (g : gas_units) : N := match g with GFixed x => x | GRange _ hi => hi end.
(** An estimate some amount satisfies. *)
Definition proper (g : gas_units) : Prop := least g <= most g.

(* ------------------------------------------------------------------------- *)
(** * Well-formed bodies *)

(** What an open scope is: a block (or the body itself), the first or the second part of
    an [if]. *)
Inductive scope : Type := InBlock | InThen | InElse.

(** The open scopes after an instruction, innermost first. *)
Definition next_scope (i : instr) (s : list scope) : list scope :=
  match i with
  | Block | Loop => InBlock :: s
  | If => InThen :: s
  | Else => match s with _ :: s => InElse :: s | [] => [] end
  | End => tl s
  | _ => s
  end.
(** Nesting as the WebAssembly validation demands: nothing after the body's own [end],
    [else] only directly in the first part of an [if], labels of open scopes only, and
    the last [end] closes the body. *)
Definition allowed (i : instr) (s : list scope) : Prop :=
  s <> [] /\
  match i with
  | Else => exists s', s = InThen :: s'
  | Br l | BrIf l => l < nlen s
  | BrTable t d => forall l, In l (d :: t) -> l < nlen s
  | _ => True
  end.
Fixpoint well_nested (s : list scope) (k : list instr) : Prop :=
  match k with
  | [] => s = []
  | i :: k => allowed i s /\ well_nested (next_scope i s) k
  end.

(** Going on within one activation: one step, or coming back from a call. *)
Inductive flow (p : program) : frame -> frame -> Prop :=
| flow_step fr i fr' : step p [fr] i [fr'] -> flow p fr fr'
| flow_call f ls g k : flow p (mkFrame f ls (Call g :: k)) (mkFrame f ls k).
Inductive flows (p : program) : frame -> frame -> Prop :=
| flows_here fr : flows p fr fr
| flows_on fr fr1 fr2 : flows p fr fr1 -> flow p fr1 fr2 -> flows p fr fr2.

(** The position with [k] left to run can be reached by an execution of the body of [f]. *)
Definition live (p : program) (f : N) (body k : list instr) : Prop :=
  exists ls, flows p (mkFrame f [] body) (mkFrame f ls k).

(** No [if] and no jump in dead code, and no [if]-[else] after which nothing can be reached. *)
Fixpoint tidy (live : list instr -> Prop) (s : list scope) (k : list instr) : Prop :=
  match k with
  | [] => True
  | i :: k' =>
      match i with
      | If | Br _ | BrIf _ | BrTable _ _ | Return | Unreachable => live k
      | End => match s with InElse :: _ => live k' | _ => True end
      | _ => True
      end /\ tidy live (next_scope i s) k'
  end.

(** [B f] is at least what all the instructions of [f] cost together, executed or not, a
    call costing what [B] says for the callee, and fits in 64 bits. *)
Definition estimate (p : program) (r : resolver) (B : N -> N) (i : instr) : N :=
  match i with
  | Call g => match nth_error (p_imports p) (N.to_nat g) with Some im => import_price r im | None => B g end
  | _ => op_price r i
  end.
Definition affordable (p : program) (r : resolver) (B : N -> N) : Prop :=
  forall f body, get_func p f = Some body ->
    total_charge (estimate p r B) body <= B f /\ B f <= u64_max.

(** A path through the control flow: as an execution, except that after an [unreachable] it goes
    on in the caller, as after a [return]. *)
Inductive path (p : program) : list frame -> list instr -> list frame -> Prop :=
| path_nil st : path p st [] st
| path_step st i st1 is st2 : step p st i st1 -> path p st1 is st2 -> path p st (i :: is) st2
| path_trap f ls k st is st2 : path p st is st2 ->
    path p (mkFrame f ls (Unreachable :: k) :: st) (Unreachable :: is) st2.

(* ------------------------------------------------------------------------- *)
(** * The price list of version 0 *)

(** Functions of the host with a price of their own. *)
Definition tariff : list (bytes * N) :=
  [(txt "svm_calldata_offset", 10); (txt "svm_calldata_len", 10); (txt "svm_set_returndata", 20);
   (txt "svm_static_alloc", 100); (txt "svm_get32", 100); (txt "svm_get64", 200); (txt "svm_load160", 500);
   (txt "svm_log", 3000); (txt "svm_set32", 1000000); (txt "svm_set64", 2000000); (txt "svm_store160", 5000000)].
(** The instruction calls the function [name] of the host. *)
Definition calls_host (p : program) (name : bytes) (i : instr) : bool :=
  match i with
  | Call g => match nth_error (p_imports p) (N.to_nat g) with
              | Some im => bytes_eqb (fst im) (txt "svm") && bytes_eqb (snd im) name
              | None => false
              end
  | _ => false
  end.
(** The instruction calls an imported function that is not in the tariff. *)
Definition calls_unlisted (p : program) (i : instr) : bool :=
  match i with
  | Call g => match nth_error (p_imports p) (N.to_nat g) with
              | Some im => negb (existsb (fun t => calls_host p (fst t) i) tariff)
              | None => false
              end
  | _ => false
  end.
(** Neither control flow nor a call. *)
Definition plain_instruction (i : instr) : bool := match i with Call _ => false | _ => negb (is_control i) end.
Definition count (f : instr -> bool) (is : list instr) : N := nlen (filter f is).
