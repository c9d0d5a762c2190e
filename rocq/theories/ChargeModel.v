(** Model of crates/host/runtime/src/price_registry.rs, and of how the node reads and prices the
    code of a template when it spawns an account (runtime/runtime.rs:421-447, runtime/price_cache.rs:32-46).

    RuntimeModel.v takes the exports and the prices of a code from the engine.  Here they are
    computed: the code is parsed ([parse] is parity-wasm), read as a program without looking at
    its exports, and priced with the price list registered for version 0. *)
From Coq Require Import List NArith Bool.
From Verif Require Import Base ReceiptModel ProgramModel PricingModel RuntimeModel.
Import ListNotations.
Open Scope N_scope.

(** price_registry.rs:12-14: a HashMap from versions to price lists. *)
Definition registry := list (N * resolver).
(** price_registry.rs:18-22 [empty] *)
Definition registry_empty : registry := [].
(** price_registry.rs:25-27 [add] (HashMap::insert) *)
Fixpoint registry_add (version : N) (r : resolver) (l : registry) : registry :=
  match l with
  | [] => [(version, r)]
  | (v, r') :: l => if v =? version then (v, r) :: l else (v, r') :: registry_add version r l
  end.
(** price_registry.rs:30-32 [get] *)
Definition registry_get (version : N) (l : registry) : option resolver := assoc version l.
(** price_registry.rs:35-41 [default] *)
Definition registry_default : registry := registry_add 0 v0_resolver registry_empty.

(** program/src/exports.rs:46-48 [get] *)
Fixpoint exports_get (name : bytes) (l : list (bytes * N)) : option N :=
  match l with
  | [] => None
  | (n, i) :: l => if bytes_eqb n name then Some i else exports_get name l
  end.

(** runtime/runtime.rs:434,438 (Program::new without its exports, exports().get) *)
Definition node_exports (parse : bytes -> option wmodule) (code : bytes) : option (bytes -> option N) :=
  match program_new (parse code) false with
  | Ok p => Some (fun name => exports_get name (p_exports p))
  | _ => None
  end.
(** runtime/price_cache.rs:38-41 and gas/src/pricing/func_price.rs:32-34 *)
Definition node_prices (parse : bytes -> option wmodule) (reg : registry) (code : bytes) : option (N -> option N) :=
  match program_new (parse code) false with
  | Ok p =>
      let? r := registry_get 0 reg in
      let? fp := price_program p r in
      Some (fun i => assoc i fp)
  | _ => None
  end.
(** The engine [en] with these. *)
Definition node_engine (parse : bytes -> option wmodule) (reg : registry) (en : engine) : engine :=
  mkEngine (en_inst en) (en_compile en) (en_instantiate en) (en_has_memory en) (en_func en) (en_call en)
    (node_exports parse) (node_prices parse reg).
