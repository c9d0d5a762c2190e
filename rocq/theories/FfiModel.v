(** Model of the C interface (crates/host/runtime-ffi/src).

    Simplifications, unless a definition says otherwise:
    - pointers are numbers; the address the allocator returns for a new box is an argument of
      the creation; byte buffers passed by the caller are lists of the announced length;
    - [catch_unwind] turns a panic into an error reply and keeps what was changed before;
    - a [Mutex] whose guard is alive while its thread panics is poisoned: every later [lock]
      panics.  This is part of the model because [catch_unwind] lets the process go on;
    - [svm_result_t] is the type [creply]; the text of errors is dropped; the memory of results is
      in ResultModel.v;
    - calls are sequential; two runtimes are never opened on the same database file. *)
From Coq Require Import List NArith ZArith Bool.
From Verif Require Import Base Text CodecModel ReceiptModel LayoutModel SectionModel StorageModel GlobalModel.
From Verif Require Import RuntimeModel.
From Verif Require ProgramModel.
Import ListNotations.
Open Scope N_scope.

(** The outside world of the library: hash and map order, wasm engine, wasm parser, the
    templates of [GenesisConfig::mainnet] (genesis-config/src/lib.rs:19-27) and the address of
    the coin transfer template ([sct().0], lib.rs:36-51). *)
Record world := mkWorld {
  w_env : env;
  w_engine : engine;
  w_parse : bytes -> option ProgramModel.wmodule;
  w_genesis : list (bytes * sections);
  w_sct : bytes
}.

(** runtime/src/runtime/runtime.rs:30-34 [Runtime]; [rn_poisoned] is the state of the mutex
    around the storage (state/src/global_state.rs:17). *)
Record runtime := mkRuntime { rn_gs : gstate; rn_cache : price_cache; rn_poisoned : bool }.

(** c_api.rs:510-516 [svm_account] *)
Record svm_account := mkSvmAccount {
  sa_address : bytes; sa_balance : N; sa_upper : N; sa_lower : N; sa_template : bytes }.

(** result.rs:25-29 [svm_result_t] with the out-parameters of the call.  [RCrash]: the panic
    leaves an [extern "C"] function. *)
Inductive creply :=
| ROk | RError | RReceipt (data : bytes) | RHandle (p : N) | RCount (n : N)
| RLayer (hash : bytes) (layer : N) | RAccount (a : svm_account) | RCrash.

(* ------------------------------------------------------------------------------------ *)
(** * Resource tracker *)

(** resource_tracker.rs:7-12 [ResourceTracker], with the boxes it has leaked.  Boxes are never
    dropped, [free] only forgets the pointer. *)
Record tracker := mkTracker { tk_pointers : list N; tk_boxes : list (N * runtime) }.
(** resource_tracker.rs:48-55 *)
Definition tracker_default : tracker := mkTracker [] [].

Definition contains (p : N) (l : list N) : bool := existsb (N.eqb p) l.
Fixpoint box_at (p : N) (l : list (N * runtime)) : option runtime :=
  match l with
  | [] => None
  | (q, r) :: l' => if p =? q then Some r else box_at p l'
  end.

(** resource_tracker.rs:15-17 count *)
Definition tracker_count (t : tracker) : N := nlen (tk_pointers t).
(** resource_tracker.rs:19-27 get *)
Definition tracker_get (t : tracker) (p : N) : option runtime :=
  if contains p (tk_pointers t) then box_at p (tk_boxes t) else None.
(** resource_tracker.rs:29-36 alloc; the set keeps one copy of each pointer *)
Definition tracker_alloc (t : tracker) (p : N) (r : runtime) : tracker :=
  mkTracker (if contains p (tk_pointers t) then tk_pointers t else p :: tk_pointers t)
            ((p, r) :: tk_boxes t).
(** resource_tracker.rs:38-46 free *)
Definition tracker_free (t : tracker) (p : N) : option tracker :=
  if contains p (tk_pointers t)
  then Some (mkTracker (filter (fun q => negb (p =? q)) (tk_pointers t)) (tk_boxes t))
  else None.
(** Writing through the [&'static mut Runtime] that [get] returned (resource_tracker.rs:19-27). *)
Fixpoint box_set (p : N) (r : runtime) (l : list (N * runtime)) : list (N * runtime) :=
  match l with
  | [] => []
  | (q, x) :: l' => if p =? q then (q, r) :: l' else (q, x) :: box_set p r l'
  end.
Definition tracker_write (t : tracker) (p : N) (r : runtime) : tracker :=
  mkTracker (tk_pointers t) (box_set p r (tk_boxes t)).

(* ------------------------------------------------------------------------------------ *)
(** * Library state, creation and destruction *)

(** c_api.rs:21-24: [RUNTIME_TRACKER] and [INITIALIZED], whose mutex may be poisoned. *)
Record library := mkLibrary { lb_init : bool; lb_poisoned : bool; lb_runtimes : tracker }.
Definition library_start : library := mkLibrary false false tracker_default.

(** c_api.rs:29-32 svm_init: outside of [catch_unwind] *)
Definition svm_init (lb : library) : creply * library :=
  if lb_poisoned lb then (RCrash, lb) else (ROk, mkLibrary true false (lb_runtimes lb)).

(** The [path] argument: null, or the bytes of a path and what SQLite finds there
    ([None]: it cannot be opened). *)
Inductive location := InMemory | AtPath (path : bytes) (contents : option db).

(** c_api.rs:75-82: the global state, [None] = panic. *)
Definition open_global (w : world) (l : location) : option gstate :=
  match l with
  | InMemory => gs_new (w_env w) empty_db (w_genesis w)
  | AtPath path contents =>
    if utf8_valid path then
      match contents with Some d => gs_new (w_env w) d (w_genesis w) | None => None end
    else None
  end.

(** c_api.rs:62-95 svm_runtime_create.  The guard of [INITIALIZED] lives until the end of the
    closure, so a panic on the way poisons it. *)
Definition svm_runtime_create (w : world) (l : location) (p : N) (lb : library) : creply * library :=
  if lb_poisoned lb then (RError, lb)
  else if lb_init lb then
    match open_global w l with
    | Some g =>
      (RHandle p, mkLibrary true false (tracker_alloc (lb_runtimes lb) p (mkRuntime g [] false)))
    | None => (RError, mkLibrary true true (lb_runtimes lb))
    end
  else (RError, lb).

(** c_api.rs:117-123 svm_runtime_destroy *)
Definition svm_runtime_destroy (p : N) (lb : library) : creply * library :=
  match tracker_free (lb_runtimes lb) p with
  | Some t => (ROk, mkLibrary (lb_init lb) (lb_poisoned lb) t)
  | None => (RError, lb)
  end.

(** c_api.rs:127-129 svm_runtimes_count *)
Definition svm_runtimes_count (lb : library) : creply * library :=
  (RCount (tracker_count (lb_runtimes lb)), lb).

(* ------------------------------------------------------------------------------------ *)
(** * Operations on one runtime *)

(** Everything that locks the storage of a runtime whose mutex is poisoned panics
    (state/src/global_state.rs:164-168). *)
Definition locked (r : runtime) (k : gstate -> creply * runtime) : creply * runtime :=
  if rn_poisoned r then (RError, r) else k (rn_gs r).
Definition with_gs (g : gstate) (r : runtime) : runtime := mkRuntime g (rn_cache r) (rn_poisoned r).

(** c_api.rs:155-239, 637-662 svm_validate over runtime.rs:554-578 *)
Definition svm_validate_deploy (w : world) (m : bytes) (r : runtime) : creply * runtime :=
  match ProgramModel.validate_deploy (w_parse w) m with Ok _ => (ROk, r) | _ => (RError, r) end.
Definition svm_validate_spawn (m : bytes) (r : runtime) : creply * runtime :=
  (if validate_spawn m then ROk else RError, r).
Definition svm_validate_call (m : bytes) (r : runtime) : creply * runtime :=
  (if validate_call m then ROk else RError, r).

(** result.rs:55-64 new_receipt of the encoded receipt; the length must fit u32. *)
Definition answer {A} (enc : encoder A) (o : option A) : creply :=
  match o with
  | Some x => match enc x with
              | Some b => if nlen b <=? 4294967295 then RReceipt b else RError
              | None => RError
              end
  | None => RError
  end.

(** c_api.rs:610-635 svm_runtime_action; [context] is decoded, and then ignored by every
    action. *)
Definition svm_runtime_action (envelope context : bytes) (r : runtime)
    (k : CodecModel.envelope -> creply * runtime) : creply * runtime :=
  match decoded dec_envelope envelope, decoded dec_context context with
  | Some ev, Some _ => k ev
  | _, _ => (RError, r)
  end.

(** runtime.rs:581-617 deploy when the storage cannot be locked: what comes before the first
    write. *)
Definition deploy_unlocked (ev : envelope) (m : bytes) : option deploy_receipt :=
  match decoded (dec_sections None) m with
  | None => None
  | Some _ => if gas_lt (env_gas_limit ev) (deploy_price m) then Some (deploy_from_err OOG []) else None
  end.
(** state/src/global_state.rs:190-197 encode_and_write: the guard is taken before the value is
    encoded, so a panic of the encoder poisons the storage. *)
Definition deploy_poisons (e : env) (ev : envelope) (m : bytes) (g : gstate) : bool :=
  match decoded (dec_sections None) m with
  | None => false
  | Some l =>
    if gas_lt (env_gas_limit ev) (deploy_price m) then false
    else match code_of l with
         | None => false
         | Some c => match template_create e (template_addr e (cs_code c)) l l g with
                     | (Ok _, _) => false
                     | _ => true
                     end
         end
  end.
(** c_api.rs:270-286 svm_deploy *)
Definition svm_deploy (w : world) (envelope m context : bytes) (r : runtime) : creply * runtime :=
  svm_runtime_action envelope context r (fun ev =>
    if rn_poisoned r then (answer enc_deploy_receipt (deploy_unlocked ev m), r)
    else
      let (o, g) := deploy (w_env w) ev m (rn_gs r) in
      (answer enc_deploy_receipt o, mkRuntime g (rn_cache r) (deploy_poisons (w_env w) ev m (rn_gs r)))).
(** c_api.rs:317-333 svm_spawn, 368-384 svm_verify, 416-432 svm_call.  Records of accounts
    always encode (their sizes are fixed, the name was decoded from the message), so a panic
    leaves the storage usable. *)
Definition svm_spawn (w : world) (envelope m context : bytes) (r : runtime) : creply * runtime :=
  svm_runtime_action envelope context r (fun ev =>
    locked r (fun g =>
      let '(o, c, g') := spawn (w_env w) (w_engine w) ev m (rn_cache r) g in
      (answer enc_spawn_receipt o, mkRuntime g' c false))).
Definition svm_verify (w : world) (envelope m context : bytes) (r : runtime) : creply * runtime :=
  svm_runtime_action envelope context r (fun _ =>
    locked r (fun g =>
      let (o, g') := verify (w_env w) (w_engine w) m g in
      (answer enc_call_receipt o, with_gs g' r))).
Definition svm_call (w : world) (envelope m context : bytes) (r : runtime) : creply * runtime :=
  svm_runtime_action envelope context r (fun _ =>
    locked r (fun g =>
      let (o, g') := rt_call (w_env w) (w_engine w) m g in
      (answer enc_call_receipt o, with_gs g' r))).

(** The reply of a function that only says whether it worked. *)
Definition done {E A} (o : outcome E A) : creply := match o with Ok _ => ROk | _ => RError end.

(** c_api.rs:454-463 svm_uncommitted_changes *)
Definition svm_uncommitted_changes (r : runtime) : creply * runtime :=
  locked r (fun g => (if gs_has_uncommitted_changes g then RError else ROk, r)).
(** c_api.rs:468-482 svm_layer_info; runtime.rs:485-487 *)
Definition svm_layer_info (r : runtime) : creply * runtime :=
  locked r (fun g =>
    let (o, g') := gs_current_layer g in
    (match o with Ok (l, h) => RLayer h l | _ => RError end, with_gs g' r)).
(** c_api.rs:487-492 svm_rewind: [storage()] is evaluated before its argument and stays locked
    during the assertion (global_state.rs:148-153, storage.rs:355), so a panic poisons it. *)
Definition svm_rewind (l : N) (r : runtime) : creply * runtime :=
  locked r (fun g =>
    let (o, g') := rt_rewind l g in
    (done o, mkRuntime g' (rn_cache r) (match o with Panic => true | _ => false end))).
(** c_api.rs:497-502 svm_commit *)
Definition svm_commit (w : world) (r : runtime) : creply * runtime :=
  locked r (fun g => let (o, g') := rt_commit (w_env w) g in (done o, with_gs g' r)).

(** c_api.rs:528-548 svm_get_account; [a] is what the out-parameter held.  The pointer is
    assumed not null (the assertion at 533 is outside of [catch_unwind]). *)
Definition svm_get_account (w : world) (addr : bytes) (a : svm_account) (r : runtime) : creply * runtime :=
  locked r (fun g =>
    let (o, g') := get_account (w_env w) addr g in
    (match o with
     | Ok (Some (b, c, t)) =>
       RAccount (mkSvmAccount (sa_address a) b (N.shiftr c 64 mod 2 ^ 64) (c mod 2 ^ 64) t)
     | _ => RError
     end, with_gs g' r)).
(** c_api.rs:520-522 svm_account::counter *)
Definition svm_account_counter (a : svm_account) : N := N.lor (N.shiftl (sa_upper a) 64) (sa_lower a).

(** c_api.rs:553-568 svm_create_genesis_account; runtime.rs:508-552 *)
Definition svm_create_genesis_account (w : world) (addr : bytes) (balance upper lower : N) (r : runtime)
    : creply * runtime :=
  locked r (fun g =>
    let (o, g') := account_create (w_env w) addr [] (w_sct w) balance (N.lor (N.shiftl upper 64) lower) g in
    (done o, with_gs g' r)).
(** c_api.rs:573-585 svm_increase_balance *)
Definition svm_increase_balance (w : world) (addr : bytes) (n : N) (r : runtime) : creply * runtime :=
  locked r (fun g => let (o, g') := increase_balance (w_env w) addr n g in (done o, with_gs g' r)).
(** c_api.rs:594-608 svm_transfer *)
Definition svm_transfer (w : world) (src dst : bytes) (n : N) (r : runtime) : creply * runtime :=
  locked r (fun g => let (o, g') := transfer (w_env w) src dst n g in (done o, with_gs g' r)).

(* ------------------------------------------------------------------------------------ *)
(** * Calls of the interface *)

(** What can be asked of one runtime. *)
Inductive request :=
| QValidateDeploy (m : bytes) | QValidateSpawn (m : bytes) | QValidateCall (m : bytes)
| QDeploy (envelope m context : bytes) | QSpawn (envelope m context : bytes)
| QVerify (envelope m context : bytes) | QCall (envelope m context : bytes)
| QUncommitted | QLayerInfo | QRewind (l : N) | QCommit
| QGetAccount (addr : bytes) (a : svm_account)
| QGenesisAccount (addr : bytes) (balance upper lower : N)
| QIncrease (addr : bytes) (n : N) | QTransfer (src dst : bytes) (n : N).

Definition serve (w : world) (q : request) (r : runtime) : creply * runtime :=
  match q with
  | QValidateDeploy m => svm_validate_deploy w m r
  | QValidateSpawn m => svm_validate_spawn m r
  | QValidateCall m => svm_validate_call m r
  | QDeploy v m c => svm_deploy w v m c r
  | QSpawn v m c => svm_spawn w v m c r
  | QVerify v m c => svm_verify w v m c r
  | QCall v m c => svm_call w v m c r
  | QUncommitted => svm_uncommitted_changes r
  | QLayerInfo => svm_layer_info r
  | QRewind l => svm_rewind l r
  | QCommit => svm_commit w r
  | QGetAccount addr a => svm_get_account w addr a r
  | QGenesisAccount addr b u l => svm_create_genesis_account w addr b u l r
  | QIncrease addr n => svm_increase_balance w addr n r
  | QTransfer src dst n => svm_transfer w src dst n r
  end.

(** c_api.rs:664-668 get_runtime: an unknown pointer is a panic, caught. *)
Definition on_runtime (w : world) (p : N) (q : request) (lb : library) : creply * library :=
  match tracker_get (lb_runtimes lb) p with
  | None => (RError, lb)
  | Some r =>
    let (a, r') := serve w q r in
    (a, mkLibrary (lb_init lb) (lb_poisoned lb) (tracker_write (lb_runtimes lb) p r'))
  end.

Inductive capi :=
| CInit
| CCreate (l : location) (p : N)
| CDestroy (p : N)
| CCount
| COn (p : N) (q : request).

Definition capi_step (w : world) (o : capi) (lb : library) : creply * library :=
  match o with
  | CInit => svm_init lb
  | CCreate l p => svm_runtime_create w l p lb
  | CDestroy p => svm_runtime_destroy p lb
  | CCount => svm_runtimes_count lb
  | COn p q => on_runtime w p q lb
  end.

Fixpoint capi_run (w : world) (ops : list capi) (lb : library) : list creply * library :=
  match ops with
  | [] => ([], lb)
  | o :: rest =>
    let (a, lb1) := capi_step w o lb in
    let (l, lb2) := capi_run w rest lb1 in
    (a :: l, lb2)
  end.
