(** Model of crates/host/runtime/src: the gas tank, the host functions (vmcalls) offered to
    a running contract, and the transactions of [Runtime].

    Wasmer is not modelled.  What a compiled module does is an arbitrary argument of type
    [engine]: compilation succeeds or not, instantiation and every exported function are
    arbitrary finite interaction trees of type [wasm], which may read and write the linear
    memory at will, call the host functions in any order with any arguments, trap or
    return.  Executions that do not terminate are not in the model.

    A panic in a host function unwinds through wasmer and out of the transaction.
    [debug_assert!]s are not modelled here (release build); CheckedModel.v has both builds. *)
From Coq Require Import String.
From Coq Require Import List NArith ZArith Bool.
From Verif Require Import Base CodecModel ReceiptModel LayoutModel SectionModel StorageModel Text GlobalModel.
Import ListNotations.
Open Scope N_scope.

(* ------------------------------------------------------------------------------------ *)
(** * Gas *)

(** runtime/gas_tank.rs:3-7 *)
Inductive gas_tank := NonEmpty (n : N) | Empty.
(** runtime/gas_tank.rs:10-18 new *)
Definition tank_new (g : gas) : gas_tank :=
  let n := match g with Some n => n | None => u64_max end in
  if 0 <? n then NonEmpty n else Empty.
(** runtime/gas_tank.rs:20-22 is_empty *)
Definition tank_is_empty (t : gas_tank) : bool := match t with Empty => true | _ => false end.
(** runtime/gas_tank.rs:24-35 consume *)
Definition consume (t : gas_tank) (n : N) : gas_tank :=
  match t with
  | Empty => Empty
  | NonEmpty left_ => if n <? left_ then NonEmpty (left_ - n) else Empty
  end.
(** runtime/gas_tank.rs:37-42 unwrap *)
Definition tank_unwrap (t : gas_tank) : N := match t with Empty => 0 | NonEmpty n => n end.

(** types/src/gas/mod.rs:85-88 [Add]; [None] = overflow *)
Definition gas_add (g : gas) (n : N) : option gas :=
  match g with
  | None => Some None
  | Some l => if l + n <=? u64_max then Some (Some (l + n)) else None
  end.
(** types/src/gas/mod.rs:97-114 [Sub]; [None] = OOGError *)
Definition gas_sub (g : gas) (n : N) : option gas :=
  match g with
  | None => Some None
  | Some l => if n <=? l then Some (Some (l - n)) else None
  end.
(** types/src/gas/mod.rs:116-124 [PartialOrd<u64>]: [g < n] *)
Definition gas_lt (g : gas) (n : N) : bool :=
  match g with None => false | Some l => l <? n end.

(** gas/src/lib.rs:37-40 deploy, 43-46 spawn *)
Definition deploy_price (message : bytes) : N := 1000 * nlen message.
Definition spawn_price (message : bytes) : N := 1000 * nlen message.

(* ------------------------------------------------------------------------------------ *)
(** * Host functions *)

(** func_env.rs:135-144 *)
Inductive access_mode := AccessDenied | ImmutableOnly | FullAccess.

(** func_env.rs:14-26, 107-131: the parts that are read by anything.  [fe_memory] tells
    whether the memory was attached (runtime.rs:816-821); its contents travel with the
    running instance. *)
Record func_env := mkFuncEnv {
  fe_account : account;
  fe_template : bytes;
  fe_logs : list bytes;
  fe_returndata : option (N * N);
  fe_memory : bool;
  fe_used : N;
  fe_calldata : option (N * N);
  fe_mode : access_mode;
  fe_touched : list bytes
}.

(** func_env.rs:30-52 new, 147-162 Inner::new *)
Definition env_new (a : account) (template : bytes) (m : access_mode) : func_env :=
  mkFuncEnv a template [] None false 0 None m [ac_addr a].

Definition with_logs (l : list bytes) (f : func_env) : func_env :=
  mkFuncEnv (fe_account f) (fe_template f) l (fe_returndata f) (fe_memory f) (fe_used f)
    (fe_calldata f) (fe_mode f) (fe_touched f).
Definition with_returndata (d : N * N) (f : func_env) : func_env :=
  mkFuncEnv (fe_account f) (fe_template f) (fe_logs f) (Some d) (fe_memory f) (fe_used f)
    (fe_calldata f) (fe_mode f) (fe_touched f).
Definition with_memory (f : func_env) : func_env :=
  mkFuncEnv (fe_account f) (fe_template f) (fe_logs f) (fe_returndata f) true (fe_used f)
    (fe_calldata f) (fe_mode f) (fe_touched f).
Definition with_used (n : N) (f : func_env) : func_env :=
  mkFuncEnv (fe_account f) (fe_template f) (fe_logs f) (fe_returndata f) (fe_memory f) n
    (fe_calldata f) (fe_mode f) (fe_touched f).
Definition with_calldata (d : N * N) (f : func_env) : func_env :=
  mkFuncEnv (fe_account f) (fe_template f) (fe_logs f) (fe_returndata f) (fe_memory f) (fe_used f)
    (Some d) (fe_mode f) (fe_touched f).
Definition with_mode (m : access_mode) (f : func_env) : func_env :=
  mkFuncEnv (fe_account f) (fe_template f) (fe_logs f) (fe_returndata f) (fe_memory f) (fe_used f)
    (fe_calldata f) m (fe_touched f).
(** func_env.rs:165-167 touch_account *)
Definition touch (a : bytes) (f : func_env) : func_env :=
  mkFuncEnv (fe_account f) (fe_template f) (fe_logs f) (fe_returndata f) (fe_memory f) (fe_used f)
    (fe_calldata f) (fe_mode f) (set_insert a (fe_touched f)).

(** func_env.rs:245-253 *)
Definition can_read (f : func_env) : bool := match fe_mode f with AccessDenied => false | _ => true end.
Definition can_write (f : func_env) : bool := match fe_mode f with FullAccess => true | _ => false end.

(** A computation on the global state that fails with an [E]. *)
Definition sm (E A : Type) := gstate -> outcome E A * gstate.
Definition sret {E A} (a : A) : sm E A := fun g => (Ok a, g).
Definition spanic {E A} : sm E A := fun g => (Panic, g).
Definition serr {E A} (e : E) : sm E A := fun g => (Err e, g).
Definition sbind {E A B} (m : sm E A) (k : A -> sm E B) : sm E B := fun g =>
  match m g with
  | (Ok a, g') => k a g'
  | (Err e, g') => (Err e, g')
  | (Panic, g') => (Panic, g')
  end.
Notation "'let^' p ':=' m 'in' k" := (sbind m (fun p => k))
  (at level 200, p strict pattern, m at level 100, k at level 200).
Definition ssome {E A} (o : option A) : sm E A := match o with Some a => sret a | None => spanic end.
Definition sassert {E} (b : bool) : sm E unit := if b then sret tt else spanic.
(** [Result::unwrap] of a call on the global state. *)
Definition sunwrap {E A} (m : gm A) : sm E A := fun g =>
  match m g with
  | (Ok a, g') => (Ok a, g')
  | (_, g') => (Panic, g')
  end.

(** vmcalls/mod.rs:32-50: the host functions and their arguments. *)
Inductive host_fn :=
| HStaticAlloc (size : N)
| HCalldataOffset
| HCalldataLen
| HSetReturndata (offset length : N)
| HGet32 (id : N)
| HSet32 (id value : N)
| HGet64 (id : N)
| HSet64 (id value : N)
| HLoad160 (id ptr : N)
| HStore160 (ptr id : N)
| HLog (offset length : N)
| HTransfer (src dst amount : N).

(** [&memory.view()[off..][..len]] *)
Definition mem_read (mem : bytes) (off len : N) : option bytes :=
  if off + len <=? nlen mem then Some (firstn (N.to_nat len) (skipn (N.to_nat off) mem)) else None.
Definition mem_write (mem : bytes) (off : N) (v : bytes) : option bytes :=
  if off + nlen v <=? nlen mem
  then Some (firstn (N.to_nat off) mem ++ v ++ skipn (N.to_nat (off + nlen v)) mem) else None.

(** vmcalls/transfer.rs:19-54 svm_transfer, after the addresses have been read. *)
Definition transfer_between (e : env) (src dst : bytes) (amount : N) : sm unit unit :=
  let^ _ := sunwrap (account_load e src) in
  let^ _ := sunwrap (account_load e dst) in
  let^ src_balance := sunwrap (account_balance e src) in
  let^ dst_balance := sunwrap (account_balance e dst) in
  if src_balance <? amount then spanic
  else
    let^ _ := sunwrap (set_balance e src (src_balance - amount)) in
    if dst_balance + amount <=? u64_max then sunwrap (set_balance e dst (dst_balance + amount))
    else spanic.

(** One host call: the value returned to the contract (0 for none), the memory and the
    environment afterwards.  The first conjunct of each memory access is
    [Inner::memory]'s unwrap (func_env.rs:224-227). *)
Definition host_call (e : env) (f : func_env) (mem : bytes) (c : host_fn) : sm unit (N * bytes * func_env) :=
  match c with
  | HStaticAlloc size => (* vmcalls/alloc.rs:9-26 *)
      let^ _ := sassert ((0 <? size) && fe_memory f) in
      let new_used := fe_used f + size in
      if nlen mem <? new_used then spanic
      else sret (new_used mod 2 ^ 32, mem, with_used new_used f)
  | HCalldataOffset => (* vmcalls/calldata.rs:4-6, func_env.rs:199-203 *)
      let^ (o, _) := ssome (fe_calldata f) in sret (o mod 2 ^ 32, mem, f)
  | HCalldataLen => (* vmcalls/calldata.rs:9-11 *)
      let^ (_, l) := ssome (fe_calldata f) in sret (l mod 2 ^ 32, mem, f)
  | HSetReturndata offset length => (* vmcalls/returndata.rs:5-10, func_env.rs:205-214 *)
      let^ _ := sassert (0 <? length) in
      sret (0, mem, with_returndata (offset, length) f)
  | HGet32 id => (* vmcalls/storage.rs:10-15 *)
      let^ _ := sassert (can_read f) in
      let^ v := sunwrap (get_var_i64 e (fe_account f) id) in
      sret (v mod 2 ^ 32, mem, f)
  | HSet32 id v => (* vmcalls/storage.rs:23-29 *)
      let^ _ := sassert (can_write f) in
      let^ _ := sunwrap (set_var_i32 e (fe_account f) id v) in
      sret (0, mem, f)
  | HGet64 id => (* vmcalls/storage.rs:36-41 *)
      let^ _ := sassert (can_read f) in
      let^ v := sunwrap (get_var_i64 e (fe_account f) id) in
      sret (v, mem, f)
  | HSet64 id v => (* vmcalls/storage.rs:49-55 *)
      let^ _ := sassert (can_write f) in
      let^ _ := sunwrap (set_var_i64 e (fe_account f) id v) in
      sret (0, mem, f)
  | HStore160 ptr id => (* vmcalls/storage.rs:62-64, 77-96 *)
      let^ _ := sassert (fe_memory f) in
      let^ v := ssome (mem_read mem ptr 20) in
      let^ _ := sassert (can_write f) in
      let^ _ := sunwrap (set_var_bytes e (fe_account f) id v) in
      sret (0, mem, f)
  | HLoad160 id ptr => (* vmcalls/storage.rs:73-75, 98-110 *)
      let^ _ := sassert (can_read f && fe_memory f) in
      let^ _ := ssome (mem_read mem ptr 20) in
      let^ v := sunwrap (get_var_array e (fe_account f) 20 id) in
      let^ mem' := ssome (mem_write mem ptr v) in
      sret (0, mem', f)
  | HLog offset length => (* vmcalls/logs.rs:6-24 *)
      let^ _ := sassert (fe_memory f) in
      let^ v := ssome (mem_read mem offset length) in
      sret (0, mem, with_logs (fe_logs f ++ [v]) f)
  | HTransfer src dst amount => (* vmcalls/transfer.rs:19-54 *)
      if amount =? 0 then sret (0, mem, f)
      else
        let^ _ := sassert (fe_memory f) in
        let^ src_addr := ssome (mem_read mem src 20) in
        let^ dst_addr := ssome (mem_read mem dst 20) in
        let^ _ := sassert (can_read f) in
        let^ _ := transfer_between e src_addr dst_addr amount in
        sret (0, mem, touch dst_addr (touch src_addr f))
  end.

(* ------------------------------------------------------------------------------------ *)
(** * Running contract code *)

(** What running code does next, given the results of its host calls. *)
Inductive wasm (R : Type) : Type :=
| WReturn (mem : bytes) (r : R)
| WTrap (msg : bytes)
| WHost (mem : bytes) (c : host_fn) (k : N -> bytes -> wasm R).
Arguments WReturn {R} _ _.
Arguments WTrap {R} _.
Arguments WHost {R} _ _ _.

(** Signatures the runtime distinguishes: [() -> ()], [u32 -> u32], any other. *)
Inductive signature := SigUnit | SigAlloc | SigOther.

(** Wasmer and the program analysis, as seen by the runtime. *)
Record engine := mkEngine {
  en_inst : Type;
  (** [Module::from_binary]: [Some msg] = compile error *)
  en_compile : bytes -> option bytes;
  (** [Instance::new], running the start function *)
  en_instantiate : bytes -> wasm en_inst;
  (** whether the memory is exported under the name "memory" *)
  en_has_memory : en_inst -> bool;
  (** exported functions and their signatures *)
  en_func : en_inst -> bytes -> option signature;
  (** calling an exported function with the given arguments on the given memory *)
  en_call : en_inst -> bytes -> list N -> bytes -> wasm (list N * en_inst);
  (** [Program::new(code, false)] ([None] = error) with the exports' function indices *)
  en_exports : bytes -> option (bytes -> option N);
  (** [ProgramPricing::visit]: the price of each function index; [None] = panic *)
  en_prices : bytes -> option (N -> option N)
}.

(** Running until return or trap. *)
Fixpoint run_wasm {R} (e : env) (t : wasm R) (f : func_env) : sm (bytes * func_env) (bytes * R * func_env) :=
  fun g =>
  match t with
  | WReturn mem r => (Ok (mem, r, f), g)
  | WTrap msg => (Err (msg, f), g)
  | WHost mem c k =>
      match host_call e f mem c g with
      | (Ok (v, mem', f'), g') => run_wasm e (k v mem') f' g'
      | (_, g') => (Panic, g')
      end
  end.

(** types/src/error.rs [RuntimeFailure]: error and logs. *)
Definition failure := (runtime_error * list bytes)%type.

(** runtime/call.rs:10-21 [Call]; [state] is not read, the envelope and context only
    travel along. *)
Record call := mkCall {
  cl_func : bytes;
  cl_input : bytes;
  cl_target : bytes;
  cl_template : bytes;
  cl_within_spawn : bool;
  cl_mode : access_mode
}.

Definition err_func_not_found (f : func_env) (name : bytes) : failure :=
  (FuncNotFound (ac_addr (fe_account f)) (fe_template f) name, []).
Definition err_invalid_sig (f : func_env) (name : bytes) : failure :=
  (FuncInvalidSignature (ac_addr (fe_account f)) (fe_template f) name, []).

(** runtime.rs:273-299 func *)
Definition func (en : engine) (i : en_inst en) (f : func_env) (name : bytes) (sig : signature) : option failure :=
  match en_func en i name with
  | None => Some (err_func_not_found f name)
  | Some s =>
    match s, sig with
    | SigUnit, SigUnit | SigAlloc, SigAlloc => None
    | _, _ => Some (err_invalid_sig f name)
    end
  end.

(** runtime.rs:229-259 wasmer_call; instance_gas_used (896-899) never fails. *)
Definition wasmer_call (e : env) (en : engine) (i : en_inst en) (f : func_env) (name : bytes)
    (params : list N) (mem : bytes) : sm failure (bytes * list N * en_inst en * list bytes * func_env) := fun g =>
  match run_wasm e (en_call en i name params mem) f g with
  | (Ok (mem', (rets, i'), f'), g') => (Ok (mem', rets, i', fe_logs f', with_logs [] f'), g')
  | (Err (msg, f'), g') =>
      (Err (FuncFailed (ac_addr (fe_account f')) (fe_template f') name msg, fe_logs f'), g')
  | (Panic, g') => (Panic, g')
  end.

Definition svm_alloc : bytes := txt "svm_alloc".
Definition svm_verify : bytes := txt "svm_verify".

(** runtime.rs:187-227 call_alloc, 161-185 call_with_alloc, 823-856 set_calldata *)
Definition call_with_alloc (e : env) (en : engine) (i : en_inst en) (f : func_env) (name calldata : bytes)
    (mem : bytes) : sm failure (bytes * list N * en_inst en * list bytes * func_env) :=
  match func en i f svm_alloc SigAlloc with
  | Some _ => serr (err_func_not_found f svm_alloc)
  | None =>
    let^ (mem1, rets, i1, _, f1) := wasmer_call e en i (with_mode AccessDenied f) svm_alloc [nlen calldata] mem in
    let^ offset := ssome (nth_error rets 0) in
    let f2 := with_mode (fe_mode f) f1 in
    let^ _ := sassert (match fe_returndata f2 with None => true | Some _ => false end) in
    let^ mem2 := ssome (mem_write mem1 offset calldata) in
    wasmer_call e en i1 (with_calldata (offset, nlen calldata) f2) name [] mem2
  end.

(** types/src/template/mod.rs:177-180 is_ctor; [None] = panic, no Ctors section. *)
Definition is_ctor (l : sections) (name : bytes) : option bool :=
  let? cs := ctors_of l in Some (existsb (bytes_eqb name) cs).
(** types/src/template/mod.rs code *)
Definition code_of (l : sections) : option code_section :=
  match get_section KCode l with Some (SCode c) => Some c | _ => None end.

(** runtime.rs:375-389 ensure_ctor *)
Definition ensure_ctor (template : bytes) (l : sections) (name : bytes) : sm failure unit :=
  let^ b := ssome (is_ctor l name) in
  if b then sret tt else serr (FuncNotCtor template name, []).
Definition msg_not_allowed : bytes := txt "expected function not to be a constructor".
(** runtime.rs:357-373 validate_func_usage, 391-404 ensure_not_ctor *)
Definition validate_func_usage (cl : call) (l : sections) (f : func_env) : sm failure unit :=
  if cl_within_spawn cl then ensure_ctor (cl_template cl) l (cl_func cl)
  else
    let^ b := ssome (is_ctor l (cl_func cl)) in
    if b then serr (FuncNotAllowed (ac_addr (fe_account f)) (fe_template f) (cl_func cl) msg_not_allowed, [])
    else sret tt.

(** runtime.rs:346-355 compile_template, 261-271 instantiate *)
Definition instantiate (e : env) (en : engine) (l : sections) (f : func_env)
    : sm failure (bytes * en_inst en * func_env) :=
  let^ c := ssome (code_of l) in
  match en_compile en (cs_code c) with
  | Some msg => serr (CompilationFailed (ac_addr (fe_account f)) (fe_template f) msg, [])
  | None => fun g =>
    match run_wasm e (en_instantiate en (cs_code c)) f g with
    | (Ok r, g') => (Ok r, g')
    | (Err (msg, f'), g') => (Err (InstantiationFailed (ac_addr (fe_account f)) (fe_template f) msg, []), g')
    | (Panic, g') => (Panic, g')
    end
  end.

(** runtime.rs:117-159 run: final memory, logs and environment. *)
Definition run (e : env) (en : engine) (cl : call) (l : sections) (f : func_env)
    : sm failure (bytes * list bytes * func_env) :=
  let^ _ := validate_func_usage cl l f in
  let^ (mem, i, f) := instantiate e en l f in
  let^ _ := sassert (en_has_memory en i) in
  let f := with_memory f in
  match func en i f (cl_func cl) SigUnit with
  | Some fail => serr fail
  | None =>
    let^ (mem, _, _, logs, f) :=
      (if 0 <? nlen (cl_input cl) then call_with_alloc e en i f (cl_func cl) (cl_input cl) mem
       else wasmer_call e en i f (cl_func cl) [] mem) in
    sret (mem, logs, f)
  end.

(** runtime.rs:886-893 take_returndata, 803-814 read_memory *)
Definition take_returndata (f : func_env) (mem : bytes) : option bytes :=
  match fe_returndata f with
  | Some (offset, length) => if 0 <? length then mem_read mem offset length else None
  | None => Some []
  end.

(** runtime.rs:858-867 commit_changes *)
Definition commit_changes (e : env) (f : func_env) : sm failure bytes :=
  let^ _ := sassert (can_write f) in
  let^ _ := sunwrap (gs_checkpoint e) in
  let^ (_, state) := sunwrap (gs_commit e) in
  sret state.

(** runtime.rs:869-880 outcome_to_receipt *)
Definition outcome_to_receipt (e : env) (mem : bytes) (logs : list bytes) (f : func_env) : sm failure call_receipt :=
  let^ data := ssome (take_returndata f mem) in
  let^ state := commit_changes e f in
  sret (mkCallReceipt 0 true None (Some state) (Some data) None (fe_touched f) logs).

(** runtime.rs:330-344 load_template *)
Definition load_template {E} (e : env) (taddr : bytes) : sm E sections :=
  sunwrap (template_sections e taddr).

(** runtime.rs:88-115 exec, 315-328 account_template *)
Definition exec (e : env) (en : engine) (cl : call) : sm failure call_receipt :=
  let^ _ := sunwrap (account_load e (cl_target cl)) in
  let^ taddr := sunwrap (account_template e (cl_target cl)) in
  let^ l := load_template e taddr in
  let^ a := sunwrap (account_load e (cl_target cl)) in
  let^ (mem, logs, f) := run e en cl l (env_new a (cl_template cl) (cl_mode cl)) in
  outcome_to_receipt e mem logs f.

(** runtime.rs:83-86 exec_call.  [None] = panic. *)
Definition exec_call (e : env) (en : engine) (cl : call) (g : gstate) : option call_receipt * gstate :=
  match exec e en cl g with
  | (Ok r, g') => (Some r, g')
  | (Err (err, logs), g') => (Some (call_from_err err logs), g')
  | (Panic, g') => (None, g')
  end.

(* ------------------------------------------------------------------------------------ *)
(** * Transactions: each returns its receipt ([None] = panic) and the state left behind. *)

(** types/src/template/mod.rs:242-246 compute_template_addr, runtime.rs:796-801
    compute_account_addr *)
Definition template_addr (e : env) (code : bytes) : bytes := firstn 20 (env_hash e code).
Definition account_addr (e : env) (template : bytes) : bytes := firstn 20 (env_hash e template).

Definition decoded {A} (d : decoder A) (bs : bytes) : option A :=
  match d bs with Ok (a, _) => Some a | _ => None end.

(** runtime.rs:581-617 deploy *)
Definition deploy (e : env) (en : envelope) (message : bytes) (g : gstate) : option deploy_receipt * gstate :=
  match decoded (dec_sections None) message with
  | None => (None, g)
  | Some l =>
    let price := deploy_price message in
    if gas_lt (env_gas_limit en) price then (Some (deploy_from_err OOG []), g)
    else
      match code_of l with
      | None => (None, g)
      | Some c =>
        let addr := template_addr e (cs_code c) in
        match template_create e addr l l g with
        | (Ok _, g') => (Some (deploy_new addr (Some price)), g')
        | (_, g') => (None, g')
        end
      end
  end.

(** runtime/price_cache.rs:13-48 [TemplatePriceCache] *)
Definition price_cache := list (bytes * (N -> option N)).
Fixpoint cache_get (k : bytes) (c : price_cache) : option (N -> option N) :=
  match c with
  | [] => None
  | (k', v) :: r => if bytes_eqb k k' then Some v else cache_get k r
  end.
(** runtime/price_cache.rs:32-46 price_of *)
Definition price_of (en : engine) (taddr code : bytes) (c : price_cache) : option (N -> option N) * price_cache :=
  match cache_get taddr c with
  | Some p => (Some p, c)
  | None =>
    match en_prices en code with
    | Some p => (Some p, (taddr, p) :: c)
    | None => (None, c)
    end
  end.

(** runtime.rs:406-419 check_gas_for_payload *)
Definition check_gas_for_payload (message : bytes) (t : gas_tank) : gas_tank :=
  if tank_is_empty t then Empty else consume t (spawn_price message).
(** runtime.rs:421-447 check_gas_for_func; [None] = panic *)
Definition check_gas_for_func (en : engine) (taddr : bytes) (l : sections) (name : bytes) (t : gas_tank)
    (c : price_cache) : option gas_tank * price_cache :=
  if tank_is_empty t then (Some Empty, c)
  else
    match code_of l with
    | None => (None, c)
    | Some cs =>
      match en_exports en (cs_code cs), cs_gas_mode cs with
      | Some exports, Fixed =>
        match exports name with
        | None => (None, c)
        | Some index =>
          let (prices, c') := price_of en taddr (cs_code cs) c in
          (let? p := prices in let? price := p index in Some (consume t price), c')
        end
      | _, _ => (None, c)
      end
    end.

(** runtime.rs:50-81 call_ctor *)
Definition call_ctor (e : env) (en : engine) (sp : spawn_account) (target principal : bytes) (g : gstate)
    : option spawn_receipt * gstate :=
  let cl := mkCall (sp_ctor sp) (sp_calldata sp) target (sp_template sp) true FullAccess in
  match exec_call e en cl g with
  | (Some r, g') =>
    let r := mkCallReceipt (cr_version r) (cr_success r) (cr_error r) (cr_new_state r) (cr_returndata r)
               (cr_gas_used r) (set_insert principal (set_insert target (cr_touched r))) (cr_logs r) in
    (into_spawn_receipt r target, g')
  | (None, g') => (None, g')
  end.

(** runtime.rs:620-664 spawn *)
Definition spawn (e : env) (en : engine) (ev : envelope) (message : bytes) (c : price_cache) (g : gstate)
    : option spawn_receipt * price_cache * gstate :=
  match decoded dec_spawn message with
  | None => (None, c, g)
  | Some sp =>
    match template_sections e (sp_template sp) g with
    | (Ok l, g) =>
      match ensure_ctor (sp_template sp) l (sp_ctor sp) g with
      | (Ok _, g) =>
        let t := check_gas_for_payload message (tank_new (env_gas_limit ev)) in
        let (t, c) := check_gas_for_func en (sp_template sp) l (sp_ctor sp) t c in
        match t with
        | None => (None, c, g)
        | Some Empty => (Some (spawn_from_err OOG []), c, g)
        | Some (NonEmpty _) =>
          let target := account_addr e (sp_template sp) in
          match account_create e target (sp_name sp) (sp_template sp) 0 0 g with
          | (Ok _, g) =>
            let (r, g) := call_ctor e en sp target (env_principal ev) g in (r, c, g)
          | (_, g) => (None, c, g)
          end
        end
      | (Err (err, logs), g) => (Some (spawn_from_err err logs), c, g)
      | (Panic, g) => (None, c, g)
      end
    | (_, g) => (None, c, g)
    end
  end.

(** runtime.rs:449-482 build_call, 667-695 verify, 700-714 call *)
Definition build_call (e : env) (tx : transaction) (m : access_mode) (name input : bytes) : gm call :=
  let! _ := gunwrap (account_load e (tx_target tx)) in
  let! taddr := gunwrap (account_template e (tx_target tx)) in
  gret (mkCall name input (tx_target tx) taddr false m).
Definition transact (e : env) (en : engine) (tx : transaction) (m : access_mode) (name input : bytes) (g : gstate)
    : option call_receipt * gstate :=
  match build_call e tx m name input g with
  | (Ok cl, g') => exec_call e en cl g'
  | (_, g') => (None, g')
  end.
Definition verify (e : env) (en : engine) (message : bytes) (g : gstate) : option call_receipt * gstate :=
  match decoded dec_transaction message with
  | None => (None, g)
  | Some tx => transact e en tx AccessDenied svm_verify (tx_verifydata tx) g
  end.
Definition rt_call (e : env) (en : engine) (message : bytes) (g : gstate) : option call_receipt * gstate :=
  match decoded dec_transaction message with
  | None => (None, g)
  | Some tx => transact e en tx FullAccess (tx_func_name tx) (tx_calldata tx) g
  end.

(** runtime.rs:569-572 validate_spawn, 575-578 validate_call *)
Definition validate_spawn (message : bytes) : bool :=
  match decoded dec_spawn message with Some _ => true | None => false end.
Definition validate_call (message : bytes) : bool :=
  match decoded dec_transaction message with Some _ => true | None => false end.

(** runtime.rs:490-505 increase_balance *)
Definition increase_balance (e : env) (addr : bytes) (amount : N) : sm unit unit :=
  let^ _ := sunwrap (account_load e addr) in
  let^ b := sunwrap (account_balance e addr) in
  if b + amount <=? u64_max then sunwrap (set_balance e addr (b + amount)) else spanic.

(** runtime.rs:745-760 get_account *)
Definition get_account (e : env) (addr : bytes) : gm (option (N * N * bytes)) := fun g =>
  match (let! _ := account_load e addr in
         let! b := account_balance e addr in
         let! c := account_counter e addr in
         let! t := account_template e addr in
         gret (b, c, t)) g with
  | (Ok r, g') => (Ok (Some r), g')
  | (Err _, g') => (Ok None, g')
  | (Panic, g') => (Panic, g')
  end.

(** runtime.rs:766-792 transfer *)
Definition transfer (e : env) (src dst : bytes) (amount : N) : sm unit unit :=
  let^ _ := sunwrap (account_load e src) in
  let^ d := sunwrap (get_account e dst) in
  match d with
  | None => spanic
  | Some _ =>
    let^ _ := sunwrap (account_load e dst) in
    let^ src_bal := sunwrap (account_balance e src) in
    let^ dst_bal := sunwrap (account_balance e dst) in
    if src_bal <? amount then spanic
    else
      let^ _ := sunwrap (set_balance e src (src_bal - amount)) in
      if dst_bal + amount <=? u64_max then sunwrap (set_balance e dst (dst_bal + amount))
      else spanic
  end.

(** runtime.rs:718-731 rewind, commit: every error becomes OOG *)
Definition rt_rewind (l : N) : sm failure unit := fun g =>
  match gs_rewind l g with
  | (Ok a, g') => (Ok a, g')
  | (Err _, g') => (Err (OOG, []), g')
  | (Panic, g') => (Panic, g')
  end.
Definition rt_commit (e : env) : sm failure unit := fun g =>
  match gs_commit e g with
  | (Ok _, g') => (Ok tt, g')
  | (Err _, g') => (Err (OOG, []), g')
  | (Panic, g') => (Panic, g')
  end.
