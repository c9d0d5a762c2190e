(** Specification vocabulary for the runtime (C24-C31, C59-C68). *)
From Coq Require Import List NArith ZArith Bool.
From Verif Require Import Base CodecModel CodecSpec LayoutModel LayoutSpec SectionModel SectionSpec.
From Verif Require Import StorageModel StorageSpec GlobalModel GlobalSpec RuntimeModel.
Import ListNotations.
Open Scope N_scope.

(** The hash returns 32 bytes. *)
Definition hash_wf (e : env) : Prop := forall b, array_wf 32 (env_hash e b).

(** The contents of a linear memory are bytes, whatever the contract does. *)
Inductive wasm_wf {R} : wasm R -> Prop :=
| ww_return mem r : bytes_ok mem -> wasm_wf (WReturn mem r)
| ww_trap msg : wasm_wf (WTrap msg)
| ww_host mem c k : bytes_ok mem -> (forall v mem', bytes_ok mem' -> wasm_wf (k v mem')) ->
    wasm_wf (WHost mem c k).
Definition engine_wf (en : engine) : Prop :=
  (forall code, wasm_wf (en_instantiate en code))
  /\ (forall i name args mem, bytes_ok mem -> wasm_wf (en_call en i name args mem)).

(** Everything the API offers that changes state. *)
Inductive rop :=
| TDeploy (ev : envelope) (message : bytes)
| TSpawn (ev : envelope) (message : bytes)
| TVerify (message : bytes)
| TCall (message : bytes)
| TTransfer (src dst : bytes) (amount : N)
| TIncrease (addr : bytes) (amount : N)
| TCreate (addr name taddr : bytes) (balance counter : N)
| TCommit
| TRewind (l : N).

(** The arguments are values of their Rust types. *)
Definition rop_wf (o : rop) : Prop :=
  match o with
  | TDeploy _ m | TSpawn _ m | TVerify m | TCall m => bytes_ok m
  | TTransfer src dst _ => array_wf 20 src /\ array_wf 20 dst
  | TIncrease addr _ => array_wf 20 addr
  | TCreate addr name taddr b c =>
      array_wf 20 addr /\ string_wf 255 name /\ array_wf 20 taddr /\ uint_wf 64 b /\ uint_wf 128 c
  | TCommit | TRewind _ => True
  end.

(** The state left behind, whatever the outcome. *)
Definition run_rop (e : env) (en : engine) (o : rop) (gc : gstate * price_cache) : gstate * price_cache :=
  let (g, c) := gc in
  match o with
  | TDeploy ev m => (snd (deploy e ev m g), c)
  | TSpawn ev m => let '(_, c', g') := spawn e en ev m c g in (g', c')
  | TVerify m => (snd (verify e en m g), c)
  | TCall m => (snd (rt_call e en m g), c)
  | TTransfer src dst n => (snd (transfer e src dst n g), c)
  | TIncrease a n => (snd (increase_balance e a n g), c)
  | TCreate a name t b k => (snd (account_create e a name t b k g), c)
  | TCommit => (snd (rt_commit e g), c)
  | TRewind l => (snd (rt_rewind l g), c)
  end.

(** States of a runtime started on an empty database with any genesis templates, after any
    history of API calls, including failed and aborted ones, with any contracts. *)
Inductive rt_reachable (e : env) (en : engine) : gstate -> price_cache -> Prop :=
| rr_new ts g : Forall (fun t => array_wf 20 (fst t) /\ sections_wf (snd t)) ts ->
    gs_new e empty_db ts = Some g -> rt_reachable e en g []
| rr_op o g c g' c' : rt_reachable e en g c -> rop_wf o -> run_rop e en o (g, c) = (g', c') ->
    rt_reachable e en g' c'.

(** Sum of the balances of the listed accounts (0 for one that does not exist). *)
Definition balance (e : env) (g : gstate) (a : bytes) : N :=
  match fst (account_balance e a g) with Ok b => b | _ => 0 end.
Fixpoint supply (e : env) (g : gstate) (l : list bytes) : N :=
  match l with [] => 0 | a :: r => balance e g a + supply e g r end.

(** An account can be loaded. *)
Definition exists_account (e : env) (g : gstate) (a : bytes) : Prop :=
  exists x, fst (account_load e a g) = Ok x.

(** Nothing a client can read about accounts other than those in [B] (balances), and
    variables of [V], has changed. *)
Record unchanged_except (e : env) (balances variables : bytes -> Prop) (g g' : gstate) : Prop := {
  ue_fields : forall x, array_wf 20 x -> ~ balances x -> fields_of e x g' = fields_of e x g;
  ue_record : forall x, array_wf 20 x ->
    fst (account_name e x g') = fst (account_name e x g)
    /\ fst (account_template e x g') = fst (account_template e x g)
    /\ fst (account_counter e x g') = fst (account_counter e x g);
  ue_vars : forall a id, array_wf 20 (ac_addr a) -> ~ variables (ac_addr a) ->
    fst (get_var_vec e a id g') = fst (get_var_vec e a id g);
  ue_templates : forall t, array_wf 20 t ->
    fst (template_sections e t g') = fst (template_sections e t g)
}.

(** [l] lists every account once. *)
Definition all_accounts (e : env) (g : gstate) (l : list bytes) : Prop :=
  NoDup l /\ Forall (array_wf 20) l
  /\ forall x b, array_wf 20 x -> fst (account_balance e x g) = Ok b -> In x l.

(** The code never asks for a transfer from an account to itself. *)
Inductive no_self_transfer {R} : wasm R -> Prop :=
| ns_return mem r : no_self_transfer (WReturn mem r)
| ns_trap msg : no_self_transfer (WTrap msg)
| ns_host mem c k :
    (forall src dst n, c = HTransfer src dst n -> mem_read mem src 20 <> mem_read mem dst 20) ->
    (forall v mem', no_self_transfer (k v mem')) -> no_self_transfer (WHost mem c k).
Definition contracts_no_self (en : engine) : Prop :=
  (forall code, no_self_transfer (en_instantiate en code))
  /\ (forall i name args mem, no_self_transfer (en_call en i name args mem)).

(** The state after a sequence of requested transfers, successful or not. *)
Fixpoint run_transfers (e : env) (ts : list (bytes * bytes * N)) (g : gstate) : gstate :=
  match ts with
  | [] => g
  | (src, dst, n) :: r => run_transfers e r (snd (transfer e src dst n g))
  end.

(** The variable [id] of [a] has [s] bytes: the layout of [a] is the one declared by the
    given sizes. *)
Definition declares (a : account) (id s : N) : Prop :=
  exists first sizes i, from_byte_sizes first sizes = Some (ac_layout a)
    /\ id = first + N.of_nat i /\ nth_error sizes i = Some s.

(** The offsets handed out by successive allocations. *)
Fixpoint allocs (e : env) (f : func_env) (mem : bytes) (sizes : list N) (g : gstate)
    : outcome unit (list N * func_env) * gstate :=
  match sizes with
  | [] => (Ok ([], f), g)
  | n :: r =>
    match host_call e f mem (HStaticAlloc n) g with
    | (Ok (o, _, f'), g') =>
        match allocs e f' mem r g' with
        | (Ok (os, f2), g2) => (Ok (o :: os, f2), g2)
        | (Err x, g2) => (Err x, g2)
        | (Panic, g2) => (Panic, g2)
        end
    | (Err x, g') => (Err x, g')
    | (Panic, g') => (Panic, g')
    end
  end.
(** Regions [o, o + n) within the memory, not overlapping. *)
Fixpoint disjoint_in (size : N) (l : list (N * N)) : Prop :=
  match l with
  | [] => True
  | (o, n) :: r => o + n <= size /\ Forall (fun '(o', n') => o + n <= o' \/ o' + n' <= o) r /\ disjoint_in size r
  end.

Definition everyone (x : bytes) : Prop := True.
Definition nobody (x : bytes) : Prop := False.
Definition pair_of (src dst : bytes) (x : bytes) : Prop := x = src \/ x = dst.

(** The state hash reported in a receipt is that of the current layer. *)
Definition committed_with (g' : gstate) (state : option bytes) : Prop :=
  exists l fp, state = Some fp /\ gs_current_layer g' = (Ok (l, fp), g').
