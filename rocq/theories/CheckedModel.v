(** Runtimes built with and without debug assertions (C123).  RuntimeModel.v models a node built without
    them; here the same functions take the build as their first argument.

    Modelled code: the [debug_assert!]s of crates/host/runtime/src/func_env.rs:199-226 and
    crates/host/runtime/src/runtime/runtime.rs:173, 381, 824, with the functions around them.  Four of
    them never decide anything: runtime.rs:173 and 824 (the input is not empty) stand behind
    runtime.rs:137, func_env.rs:200 and 225 (input and memory present) stand before an [unwrap] of the
    same option; runtime.rs:381 (the template has its constructors section) stands before [is_ctor],
    which panics without that section.  func_env.rs:212 (the answer was not given before) is left. *)
From Coq Require Import List NArith Bool.
From Verif Require Import Base CodecModel SectionModel LayoutModel ReceiptModel StorageModel GlobalModel RuntimeModel.
Import ListNotations.
Open Scope list_scope.
Open Scope N_scope.

(** [debug_assert!]: nothing in a build without checks. *)
Definition sdebug {E} (checks b : bool) : sm E unit := if checks then sassert b else sret tt.
Definition none {A} (o : option A) : bool := match o with None => true | Some _ => false end.

(** func_env.rs:199-226 under RuntimeModel.host_call *)
Definition host_call_in (checks : bool) (e : env) (f : func_env) (mem : bytes) (c : host_fn)
    : sm unit (N * bytes * func_env) :=
  match c with
  | HCalldataOffset | HCalldataLen => (* func_env.rs:200 *)
      let^ _ := sdebug checks (negb (none (fe_calldata f))) in host_call e f mem c
  | HSetReturndata offset length => (* func_env.rs:205-214 *)
      let^ _ := sassert (0 <? length) in
      let^ _ := sdebug checks (none (fe_returndata f)) in
      sret (0, mem, with_returndata (offset, length) f)
  | _ => host_call e f mem c
  end.

(** RuntimeModel.run_wasm *)
Fixpoint run_wasm_in {R} (checks : bool) (e : env) (t : wasm R) (f : func_env)
    : sm (bytes * func_env) (bytes * R * func_env) :=
  fun g =>
  match t with
  | WReturn mem r => (Ok (mem, r, f), g)
  | WTrap msg => (Err (msg, f), g)
  | WHost mem c k =>
      match host_call_in checks e f mem c g with
      | (Ok (v, mem', f'), g') => run_wasm_in checks e (k v mem') f' g'
      | (_, g') => (Panic, g')
      end
  end.

(** runtime.rs:229-259 wasmer_call *)
Definition wasmer_call_in (checks : bool) (e : env) (en : engine) (i : en_inst en) (f : func_env) (name : bytes)
    (params : list N) (mem : bytes) : sm failure (bytes * list N * en_inst en * list bytes * func_env) := fun g =>
  match run_wasm_in checks e (en_call en i name params mem) f g with
  | (Ok (mem', (rets, i'), f'), g') => (Ok (mem', rets, i', fe_logs f', with_logs [] f'), g')
  | (Err (msg, f'), g') =>
      (Err (FuncFailed (ac_addr (fe_account f')) (fe_template f') name msg, fe_logs f'), g')
  | (Panic, g') => (Panic, g')
  end.

(** runtime.rs:187-227 call_alloc, 161-185 call_with_alloc, 823-856 set_calldata *)
Definition call_with_alloc_in (checks : bool) (e : env) (en : engine) (i : en_inst en) (f : func_env)
    (name calldata : bytes) (mem : bytes) : sm failure (bytes * list N * en_inst en * list bytes * func_env) :=
  let^ _ := sdebug checks (0 <? nlen calldata) in
  match func en i f svm_alloc SigAlloc with
  | Some _ => serr (err_func_not_found f svm_alloc)
  | None =>
    let^ (mem1, rets, i1, _, f1) :=
      wasmer_call_in checks e en i (with_mode AccessDenied f) svm_alloc [nlen calldata] mem in
    let^ offset := ssome (nth_error rets 0) in
    let f2 := with_mode (fe_mode f) f1 in
    let^ _ := sassert (none (fe_returndata f2)) in
    let^ _ := sdebug checks (0 <? nlen calldata) in
    let^ mem2 := ssome (mem_write mem1 offset calldata) in
    wasmer_call_in checks e en i1 (with_calldata (offset, nlen calldata) f2) name [] mem2
  end.

(** runtime.rs:375-389 ensure_ctor *)
Definition ensure_ctor_in (checks : bool) (template : bytes) (l : sections) (name : bytes) : sm failure unit :=
  let^ _ := sdebug checks (negb (none (ctors_of l))) in ensure_ctor template l name.
(** runtime.rs:357-373 validate_func_usage *)
Definition validate_func_usage_in (checks : bool) (cl : call) (l : sections) (f : func_env) : sm failure unit :=
  if cl_within_spawn cl then ensure_ctor_in checks (cl_template cl) l (cl_func cl)
  else validate_func_usage cl l f.

(** runtime.rs:346-355 compile_template, 261-271 instantiate *)
Definition instantiate_in (checks : bool) (e : env) (en : engine) (l : sections) (f : func_env)
    : sm failure (bytes * en_inst en * func_env) :=
  let^ c := ssome (code_of l) in
  match en_compile en (cs_code c) with
  | Some msg => serr (CompilationFailed (ac_addr (fe_account f)) (fe_template f) msg, [])
  | None => fun g =>
    match run_wasm_in checks e (en_instantiate en (cs_code c)) f g with
    | (Ok r, g') => (Ok r, g')
    | (Err (msg, f'), g') => (Err (InstantiationFailed (ac_addr (fe_account f)) (fe_template f) msg, []), g')
    | (Panic, g') => (Panic, g')
    end
  end.

(** runtime.rs:117-159 run *)
Definition run_in (checks : bool) (e : env) (en : engine) (cl : call) (l : sections) (f : func_env)
    : sm failure (bytes * list bytes * func_env) :=
  let^ _ := validate_func_usage_in checks cl l f in
  let^ (mem, i, f) := instantiate_in checks e en l f in
  let^ _ := sassert (en_has_memory en i) in
  let f := with_memory f in
  match func en i f (cl_func cl) SigUnit with
  | Some fail => serr fail
  | None =>
    let^ (mem, _, _, logs, f) :=
      (if 0 <? nlen (cl_input cl) then call_with_alloc_in checks e en i f (cl_func cl) (cl_input cl) mem
       else wasmer_call_in checks e en i f (cl_func cl) [] mem) in
    sret (mem, logs, f)
  end.

(** runtime.rs:88-115 exec *)
Definition exec_in (checks : bool) (e : env) (en : engine) (cl : call) : sm failure call_receipt :=
  let^ _ := sunwrap (account_load e (cl_target cl)) in
  let^ taddr := sunwrap (account_template e (cl_target cl)) in
  let^ l := load_template e taddr in
  let^ a := sunwrap (account_load e (cl_target cl)) in
  let^ (mem, logs, f) := run_in checks e en cl l (env_new a (cl_template cl) (cl_mode cl)) in
  outcome_to_receipt e mem logs f.

(** runtime.rs:83-86 exec_call.  [None] = panic. *)
Definition exec_call_in (checks : bool) (e : env) (en : engine) (cl : call) (g : gstate)
    : option call_receipt * gstate :=
  match exec_in checks e en cl g with
  | (Ok r, g') => (Some r, g')
  | (Err (err, logs), g') => (Some (call_from_err err logs), g')
  | (Panic, g') => (None, g')
  end.

(** runtime.rs:50-81 call_ctor *)
Definition call_ctor_in (checks : bool) (e : env) (en : engine) (sp : spawn_account) (target principal : bytes)
    (g : gstate) : option spawn_receipt * gstate :=
  let cl := mkCall (sp_ctor sp) (sp_calldata sp) target (sp_template sp) true FullAccess in
  match exec_call_in checks e en cl g with
  | (Some r, g') =>
    let r := mkCallReceipt (cr_version r) (cr_success r) (cr_error r) (cr_new_state r) (cr_returndata r)
               (cr_gas_used r) (set_insert principal (set_insert target (cr_touched r))) (cr_logs r) in
    (into_spawn_receipt r target, g')
  | (None, g') => (None, g')
  end.

(** runtime.rs:620-664 spawn *)
Definition spawn_in (checks : bool) (e : env) (en : engine) (ev : envelope) (message : bytes) (c : price_cache)
    (g : gstate) : option spawn_receipt * price_cache * gstate :=
  match decoded dec_spawn message with
  | None => (None, c, g)
  | Some sp =>
    match template_sections e (sp_template sp) g with
    | (Ok l, g) =>
      match ensure_ctor_in checks (sp_template sp) l (sp_ctor sp) g with
      | (Ok _, g) =>
        let t := check_gas_for_payload message (tank_new (env_gas_limit ev)) in
        let (t, c) := check_gas_for_func en (sp_template sp) l (sp_ctor sp) t c in
        match t with
        | None => (None, c, g)
        | Some Empty => (Some (spawn_from_err OOG []), c, g)
        | Some (NonEmpty _) =>
          let target := account_addr e (sp_template sp) in
          match account_create e target (sp_name sp) (sp_template sp) 0 0 g with
          | (Ok _, g) =>
            let (r, g) := call_ctor_in checks e en sp target (env_principal ev) g in (r, c, g)
          | (_, g) => (None, c, g)
          end
        end
      | (Err (err, logs), g) => (Some (spawn_from_err err logs), c, g)
      | (Panic, g) => (None, c, g)
      end
    | (_, g) => (None, c, g)
    end
  end.

(** runtime.rs:449-482 build_call, 667-695 verify, 700-714 call *)
Definition transact_in (checks : bool) (e : env) (en : engine) (tx : transaction) (m : access_mode)
    (name input : bytes) (g : gstate) : option call_receipt * gstate :=
  match build_call e tx m name input g with
  | (Ok cl, g') => exec_call_in checks e en cl g'
  | (_, g') => (None, g')
  end.
Definition verify_in (checks : bool) (e : env) (en : engine) (message : bytes) (g : gstate)
    : option call_receipt * gstate :=
  match decoded dec_transaction message with
  | None => (None, g)
  | Some tx => transact_in checks e en tx AccessDenied svm_verify (tx_verifydata tx) g
  end.
Definition call_in (checks : bool) (e : env) (en : engine) (message : bytes) (g : gstate)
    : option call_receipt * gstate :=
  match decoded dec_transaction message with
  | None => (None, g)
  | Some tx => transact_in checks e en tx FullAccess (tx_func_name tx) (tx_calldata tx) g
  end.
