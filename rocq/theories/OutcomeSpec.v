(** What becomes of a transaction, cause by cause (C117). *)
From Coq Require Import String List NArith Bool.
From Verif Require Import Base Text CodecModel ReceiptModel SectionModel StorageModel GlobalModel RuntimeModel FfiModel MeterSpec.
Import ListNotations.
Open Scope list_scope.
Open Scope N_scope.

(** ** Running code *)
(** Code runs until it returns or traps, with whatever the host functions answer.  It does neither
    if one of them aborts. *)
Inductive ending (R : Type) := Returned (mem : bytes) (r : R) (f : func_env) | Trapped (msg : bytes) (f : func_env).
Arguments Returned {R} _ _ _.
Arguments Trapped {R} _ _.
Inductive runs {R} (e : env) : wasm R -> func_env -> gstate -> ending R -> gstate -> Prop :=
| runs_return mem r f g : runs e (WReturn mem r) f g (Returned mem r f) g
| runs_trap msg f g : runs e (WTrap msg) f g (Trapped msg f) g
| runs_host mem c k f g v mem' f' g' o g'' :
    host_call e f mem c g = (Ok (v, mem', f'), g') -> runs e (k v mem') f' g' o g'' ->
    runs e (WHost mem c k) f g o g''.

(** ** Calling a function of a contract *)
(** What the host keeps while it runs a function of the account [a]. *)
Definition at_start (a : account) (t : bytes) (mode : access_mode) : func_env :=
  mkFuncEnv a t [] None false 0 None mode [ac_addr a].
Definition attached (f : func_env) : func_env :=
  mkFuncEnv (fe_account f) (fe_template f) (fe_logs f) (fe_returndata f) true (fe_used f) (fe_calldata f) (fe_mode f) (fe_touched f).
Definition locked_out (f : func_env) : func_env :=
  mkFuncEnv (fe_account f) (fe_template f) (fe_logs f) (fe_returndata f) (fe_memory f) (fe_used f) (fe_calldata f) AccessDenied (fe_touched f).
Definition given (input : N * N) (mode : access_mode) (f : func_env) : func_env :=
  mkFuncEnv (fe_account f) (fe_template f) [] (fe_returndata f) (fe_memory f) (fe_used f) (Some input) mode (fe_touched f).

(** The template's code was compiled and instantiated, with a memory. *)
Definition instantiated (e : env) (en : engine) (code : option bytes) (f : func_env) (g : gstate)
    (mem : bytes) (i : en_inst en) (f' : func_env) (g' : gstate) : Prop :=
  exists c, code = Some c /\ en_compile en c = None /\ en_has_memory en i = true
  /\ exists f0, runs e (en_instantiate en c) f g (Returned mem i f0) g' /\ f' = attached f0.
(** The input was put into the memory, at the place that "svm_alloc" gave when it ran without access
    to the storage. *)
Definition has_alloc (en : engine) (i : en_inst en) : Prop := en_func en i (txt "svm_alloc") = Some SigAlloc.
Inductive supplied (e : env) (en : engine) (input : bytes) :
    bytes -> en_inst en -> func_env -> gstate -> bytes -> en_inst en -> func_env -> gstate -> Prop :=
| supplied_nothing mem i f g : input = [] -> supplied e en input mem i f g mem i f g
| supplied_input mem i f g mem1 p rest i1 f1 g1 mem2 : input <> [] -> has_alloc en i ->
    runs e (en_call en i (txt "svm_alloc") [nlen input] mem) (locked_out f) g (Returned mem1 (p :: rest, i1) f1) g1 ->
    fe_returndata f1 = None -> mem_write mem1 p input = Some mem2 ->
    supplied e en input mem i f g mem2 i1 (given (p, nlen input) (fe_mode f) f1) g1.
(** The bytes that the function has set as its answer. *)
Definition answered_with (f : func_env) (mem data : bytes) : Prop :=
  match fe_returndata f with
  | None => data = []
  | Some (p, n) => 0 < n /\ p + n <= nlen mem /\ data = firstn (N.to_nat n) (skipn (N.to_nat p) mem)
  end.

(** The function [func], whose input is [input], fails with [err], leaving [logs] and the state [g']. *)
Inductive fails (e : env) (en : engine) (spawning : bool) (a : account) (t : bytes) (ctors : list bytes) (code : option bytes) (func input : bytes)
    (mode : access_mode) (g : gstate) : runtime_error -> list bytes -> gstate -> Prop :=
| f_not_ctor : spawning = true -> ~ In func ctors ->
    fails e en spawning a t ctors code func input mode g (FuncNotCtor t func) [] g
| f_ctor : spawning = false -> In func ctors ->
    fails e en spawning a t ctors code func input mode g
      (FuncNotAllowed (ac_addr a) t func (txt "expected function not to be a constructor")) [] g
| f_compile c msg : (In func ctors <-> spawning = true) -> code = Some c -> en_compile en c = Some msg ->
    fails e en spawning a t ctors code func input mode g (CompilationFailed (ac_addr a) t msg) [] g
| f_instantiate c msg f' g' : (In func ctors <-> spawning = true) -> code = Some c -> en_compile en c = None ->
    runs e (en_instantiate en c) (at_start a t mode) g (Trapped msg f') g' ->
    fails e en spawning a t ctors code func input mode g (InstantiationFailed (ac_addr a) t msg) [] g'
| f_missing mem i f g1 : (In func ctors <-> spawning = true) ->
    instantiated e en code (at_start a t mode) g mem i f g1 -> en_func en i func = None ->
    fails e en spawning a t ctors code func input mode g (FuncNotFound (ac_addr a) t func) [] g1
| f_signature mem i f g1 s : (In func ctors <-> spawning = true) ->
    instantiated e en code (at_start a t mode) g mem i f g1 -> en_func en i func = Some s -> s <> SigUnit ->
    fails e en spawning a t ctors code func input mode g (FuncInvalidSignature (ac_addr a) t func) [] g1
| f_no_alloc mem i f g1 : (In func ctors <-> spawning = true) ->
    instantiated e en code (at_start a t mode) g mem i f g1 -> en_func en i func = Some SigUnit ->
    input <> [] -> ~ has_alloc en i ->
    fails e en spawning a t ctors code func input mode g (FuncNotFound (ac_addr a) t (txt "svm_alloc")) [] g1
| f_alloc_traps mem i f g1 msg f' g' : (In func ctors <-> spawning = true) ->
    instantiated e en code (at_start a t mode) g mem i f g1 -> en_func en i func = Some SigUnit ->
    input <> [] -> has_alloc en i ->
    runs e (en_call en i (txt "svm_alloc") [nlen input] mem) (locked_out f) g1 (Trapped msg f') g' ->
    fails e en spawning a t ctors code func input mode g (FuncFailed (ac_addr a) t (txt "svm_alloc") msg) (fe_logs f') g'
| f_traps mem i f g1 mem1 i1 f1 g2 msg f' g' : (In func ctors <-> spawning = true) ->
    instantiated e en code (at_start a t mode) g mem i f g1 -> en_func en i func = Some SigUnit ->
    supplied e en input mem i f g1 mem1 i1 f1 g2 ->
    runs e (en_call en i1 func [] mem1) f1 g2 (Trapped msg f') g' ->
    fails e en spawning a t ctors code func input mode g (FuncFailed (ac_addr a) t func msg) (fe_logs f') g'.
(** It returns, with the answer [data], the logs [logs] and the touched accounts [touched], and leaves
    the state [g'] to be committed. *)
Inductive returns_from (e : env) (en : engine) (spawning : bool) (a : account) (t : bytes) (ctors : list bytes) (code : option bytes) (func input : bytes)
    (mode : access_mode) (g : gstate) : bytes -> list bytes -> list bytes -> gstate -> Prop :=
| r_returns mem i f g1 mem1 i1 f1 g2 mem' r f' g' data : (In func ctors <-> spawning = true) ->
    instantiated e en code (at_start a t mode) g mem i f g1 -> en_func en i func = Some SigUnit ->
    supplied e en input mem i f g1 mem1 i1 f1 g2 ->
    runs e (en_call en i1 func [] mem1) f1 g2 (Returned mem' r f') g' ->
    answered_with f' mem' data ->
    returns_from e en spawning a t ctors code func input mode g data (fe_logs f') (fe_touched f') g'.

(** ** Accounts and transactions *)
(** The constructors of the template [t], and its code, if it has any. *)
Definition deployed (e : env) (g : gstate) (t : bytes) (ctors : list bytes) (code : option bytes) : Prop :=
  exists l, fst (template_sections e t g) = Ok l /\ get_section KCtors l = Some (SCtors ctors)
    /\ code = match get_section KCode l with Some (SCode c) => Some (cs_code c) | _ => None end.
(** The account at [addr], its template, and the template's constructors and code. *)
Definition account_at (e : env) (g : gstate) (addr : bytes) (a : account) (t : bytes) (ctors : list bytes) (code : option bytes) : Prop :=
  fst (account_load e addr g) = Ok a /\ fst (account_template e addr g) = Ok t /\ deployed e g t ctors code.

(** Everything so far became the next layer, whose fingerprint is [state]. *)
Definition committed_as (e : env) (g : gstate) (state : bytes) (g' : gstate) : Prop :=
  exists g1 layer, gs_checkpoint e g = (Ok tt, g1) /\ gs_commit e g1 = (Ok (layer, state), g').

(** The receipts of a call. *)
Inductive call_says (e : env) (en : engine) (tx : transaction) (g : gstate) : call_receipt -> gstate -> Prop :=
| says_failed a t ctors code err logs g' : account_at e g (tx_target tx) a t ctors code ->
    fails e en false a t ctors code (tx_func_name tx) (tx_calldata tx) FullAccess g err logs g' ->
    call_says e en tx g (mkCallReceipt 0 false (Some err) None None None [] logs) g'
| says_done a t ctors code data logs touched g1 state g' : account_at e g (tx_target tx) a t ctors code ->
    returns_from e en false a t ctors code (tx_func_name tx) (tx_calldata tx) FullAccess g data logs touched g1 ->
    committed_as e g1 state g' ->
    call_says e en tx g (mkCallReceipt 0 true None (Some state) (Some data) None touched logs) g'.

(** The gas limit exceeds the price.  No limit is the greatest there is. *)
Definition affords (limit : gas) (price : N) : Prop :=
  price < match limit with None => 18446744073709551615 | Some n => n end.
(** The address of every account of the template [t]. *)
Definition spawned_at (e : env) (t : bytes) : bytes := firstn 20 (env_hash e t).
(** A new account of the template, without any balance, is at its address. *)
Definition placed (e : env) (sp : spawn_account) (g : gstate) (a : account) (ctors : list bytes) (code : option bytes) (g' : gstate) : Prop :=
  exists a', account_create e (spawned_at e (sp_template sp)) (sp_name sp) (sp_template sp) 0 0 g = (Ok a', g')
    /\ account_at e g' (spawned_at e (sp_template sp)) a (sp_template sp) ctors code.
(** The receipts of a spawn, whose message is [m]. *)
Inductive spawn_says (w : world) (ev : envelope) (m : bytes) (sp : spawn_account) (g : gstate) : spawn_receipt -> gstate -> Prop :=
| spawn_not_ctor ctors code : deployed (w_env w) g (sp_template sp) ctors code -> ~ In (sp_ctor sp) ctors ->
    spawn_says w ev m sp g (mkSpawnReceipt 0 false (Some (FuncNotCtor (sp_template sp) (sp_ctor sp))) None None None None [] []) g
| spawn_too_long ctors code : deployed (w_env w) g (sp_template sp) ctors code -> In (sp_ctor sp) ctors ->
    ~ affords (env_gas_limit ev) (1000 * nlen m) ->
    spawn_says w ev m sp g (mkSpawnReceipt 0 false (Some OOG) None None None None [] []) g
| spawn_too_dear ctors code price : deployed (w_env w) g (sp_template sp) ctors code -> In (sp_ctor sp) ctors ->
    template_price w g (sp_template sp) (sp_ctor sp) price -> ~ affords (env_gas_limit ev) (1000 * nlen m + price) ->
    spawn_says w ev m sp g (mkSpawnReceipt 0 false (Some OOG) None None None None [] []) g
| spawn_failed ctors code price a g1 err logs g' : deployed (w_env w) g (sp_template sp) ctors code -> In (sp_ctor sp) ctors ->
    template_price w g (sp_template sp) (sp_ctor sp) price -> affords (env_gas_limit ev) (1000 * nlen m + price) ->
    placed (w_env w) sp g a ctors code g1 ->
    fails (w_env w) (w_engine w) true a (sp_template sp) ctors code (sp_ctor sp) (sp_calldata sp) FullAccess g1 err logs g' ->
    spawn_says w ev m sp g (mkSpawnReceipt 0 false (Some err) None None None None [] logs) g'
| spawn_done ctors code price a g1 data logs touched g2 state g' : deployed (w_env w) g (sp_template sp) ctors code -> In (sp_ctor sp) ctors ->
    template_price w g (sp_template sp) (sp_ctor sp) price -> affords (env_gas_limit ev) (1000 * nlen m + price) ->
    placed (w_env w) sp g a ctors code g1 ->
    returns_from (w_env w) (w_engine w) true a (sp_template sp) ctors code (sp_ctor sp) (sp_calldata sp) FullAccess g1 data logs touched g2 ->
    committed_as (w_env w) g2 state g' ->
    spawn_says w ev m sp g
      (mkSpawnReceipt 0 true None (Some (spawned_at (w_env w) (sp_template sp))) (Some state) (Some data) None
         (set_insert (env_principal ev) (set_insert (spawned_at (w_env w) (sp_template sp)) touched)) logs) g'.
