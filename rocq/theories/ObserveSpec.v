(** What a contract's code asks of the host during a call, phase by phase, as a
    specification of what the receipt of the call reports. *)
From Coq Require Import List NArith ZArith Bool.
From Verif Require Import Base CodecModel ReceiptModel LayoutModel SectionModel StorageModel.
From Verif Require Import CodecSpec SectionSpec GlobalModel RuntimeModel RuntimeSpec.
Import ListNotations.
Open Scope N_scope.

(** A host call and the contract's memory when it was made. *)
Definition event := (host_fn * bytes)%type.

(** The host calls that were answered while [t] ran, in order. *)
Fixpoint events {R} (e : env) (t : wasm R) (f : func_env) (g : gstate) : list event :=
  match t with
  | WHost mem c k =>
      match host_call e f mem c g with
      | (Ok (v, mem', f'), g') => (c, mem) :: events e (k v mem') f' g'
      | _ => []
      end
  | _ => []
  end.

(** The bytes [off, off + len) of a memory. *)
Definition slice (mem : bytes) (off len : N) : bytes := firstn (N.to_nat len) (skipn (N.to_nat off) mem).

(** The messages logged. *)
Definition logs_of (h : list event) : list bytes :=
  flat_map (fun c => match c with (HLog off len, mem) => [slice mem off len] | _ => [] end) h.
(** The region set as return data, last one wins. *)
Definition region_of (h : list event) : option (N * N) :=
  fold_left (fun r c => match c with (HSetReturndata off len, _) => Some (off, len) | _ => r end) h None.
(** The accounts taking part in transfers of at least one coin. *)
Definition parties_of (h : list event) : list bytes :=
  flat_map (fun c => match c with
                     | (HTransfer src dst amount, mem) =>
                         if amount =? 0 then [] else [slice mem src 20; slice mem dst 20]
                     | _ => []
                     end) h.

(** How the called function ended. *)
Inductive ending := Returned (mem : bytes) | Trapped (msg : bytes).

(** One call as the contract saw it: host calls of the start function, of [svm_alloc] (only
    run for a nonempty input) and of the function itself, and how the latter ended. *)
Record session := mkSession {
  ss_start : list event;
  ss_alloc : list event;
  ss_main : list event;
  ss_end : ending
}.

Definition ending_of {R} (r : outcome (bytes * func_env) (bytes * R * func_env)) : option ending :=
  match r with
  | Ok (mem, _, _) => Some (Returned mem)
  | Err (msg, _) => Some (Trapped msg)
  | Panic => None
  end.

(** The session of calling [name] with [input] on account [a], whose template at [taddr] has
    the code [code]; [None] when the function is not reached or aborts. *)
Definition session_of (e : env) (en : engine) (a : account) (taddr code name input : bytes) (m : access_mode)
    (g : gstate) : option session :=
  let start := en_instantiate en code in
  let f0 := env_new a taddr m in
  match run_wasm e start f0 g with
  | (Ok (mem, i, f1), g1) =>
    let f1 := with_memory f1 in
    match input with
    | [] =>
      let main := en_call en i name [] mem in
      option_map (mkSession (events e start f0 g) [] (events e main f1 g1)) (ending_of (fst (run_wasm e main f1 g1)))
    | _ =>
      let alloc := en_call en i svm_alloc [nlen input] mem in
      let fa := with_mode AccessDenied f1 in
      match run_wasm e alloc fa g1 with
      | (Ok (mem, (offset :: _, i), f2), g2) =>
        match mem_write mem offset input with
        | Some mem =>
          let main := en_call en i name [] mem in
          let f2 := with_calldata (offset, nlen input) (with_mode m (with_logs [] f2)) in
          option_map (mkSession (events e start f0 g) (events e alloc fa g1) (events e main f2 g2))
            (ending_of (fst (run_wasm e main f2 g2)))
        | None => None
        end
      | _ => None
      end
    end
  | _ => None
  end.

(** Calling [name] of the account [target] with [input], on the state [g], runs as [s]. *)
Definition runs_as (e : env) (en : engine) (target name input : bytes) (g : gstate) (s : session) : Prop :=
  exists a taddr l c,
    fst (account_load e target g) = Ok a
    /\ fst (account_template e target g) = Ok taddr
    /\ fst (template_sections e taddr g) = Ok l
    /\ code_of l = Some c
    /\ session_of e en a taddr (cs_code c) name input FullAccess g = Some s.

(** The function [name] ran: the receipt reports success or a trap in that function. *)
Definition function_ran (name : bytes) (success : bool) (error : option runtime_error) : Prop :=
  success = true \/ exists a t msg, error = Some (FuncFailed a t name msg).

(** The bytes of the region set last. *)
Definition returned (s : session) : bytes :=
  match ss_end s, region_of (ss_start s ++ ss_main s) with
  | Returned mem, Some (off, len) => slice mem off len
  | _, _ => []
  end.

(* ------------------------------------------------------------------------------------ *)
(** * Histories with known code *)

(** The code of a template. *)
Definition code_in (known : bytes -> Prop) (l : sections) : Prop :=
  forall c, In (SCode c) l -> known (cs_code c).

(** The runtime was started on an empty database with genesis templates stored at the hash
    of their code and has gone through [ops]; all code it was ever given is [known]. *)
Definition history (e : env) (en : engine) (known : bytes -> Prop) (ops : list rop) (g : gstate) (c : price_cache) : Prop :=
  exists ts g0,
    Forall (fun t => array_wf 20 (fst t) /\ sections_wf (snd t) /\ code_in known (snd t)
                     /\ forall cs, In (SCode cs) (snd t) -> fst t = template_addr e (cs_code cs)) ts
    /\ gs_new e empty_db ts = Some g0
    /\ Forall rop_wf ops
    /\ Forall (fun o => match o with
                        | TDeploy _ m => forall l, decoded (dec_sections None) m = Some l -> code_in known l
                        | _ => True
                        end) ops
    /\ (g, c) = fold_left (fun s o => run_rop e en o s) ops (g0, []).

(** No two known codes have the same address. *)
Definition addresses_differ (e : env) (known : bytes -> Prop) : Prop :=
  forall c1 c2, known c1 -> known c2 -> template_addr e c1 = template_addr e c2 -> c1 = c2.
