(** Model of what the template macro generates around the body of an endpoint or constructor
    (crates/wasm/sdk-macros/src/function/endpoint.rs), with the host functions it reaches
    (crates/wasm/sdk-host-ffi/src/ext.rs).  Paths below are under crates/wasm.

    Contract code is as in TypedModel: a function of the linear memory that yields a [wasm]
    tree.  The body itself is arbitrary code.

    Simplified:
    - parameters are primitives: decoding an array allocates a vector of [Value]s, whose size in
      memory the Rust compiler chooses;
    - the fundable hook (fundable.rs:26-42) is not called here: it needs [sm_value], see
      LinkModel. *)
From Coq Require Import List NArith ZArith Bool.
From Verif Require Import Base StorageModel SdkModel AbiModel GlobalModel RuntimeModel TypedModel.
Import ListNotations.
Open Scope list_scope.
Open Scope N_scope.

(* ------------------------------------------------------------------------- *)
(** * The arguments *)

(** sdk-host-ffi/src/ext.rs:168-176 calldata.  Simplified: the slice is read here and not where
    its bytes are used; decoding primitives writes nothing to the memory in between. *)
Definition node_calldata : code (N * bytes) :=
  let~ offset := host HCalldataOffset in
  let~ len := host HCalldataLen in
  let~ bs := mread offset len in
  cret (offset, bs).
(** What the body gets for a decoded primitive that stands at [position] in the memory: an
    address is a pointer to its bytes, right behind the marker
    (abi-decoder/src/decoder.rs:144-156, sdk-types/src/blob.rs:12-30). *)
Definition held_at (position : N) (p : primitive) : option held :=
  match p with
  | PBool b => Some (HBool b)
  | PInt t z => Some (HInt t z)
  | PAmount n => Some (HAmount n)
  | PAddress _ => Some (HPtr (position + 1))
  | PNone | PUnit => None
  end.
(** sdk-macros/src/function/endpoint.rs:73-85: [let pat: ty = calldata.next_1();] for each
    parameter, abi-decoder/src/calldata.rs:70-76 next_1; [None]: an abort. *)
Fixpoint read_args (base : N) (ts : list pty) (c : cursor) : option (list held) :=
  match ts with
  | [] => Some []
  | t :: ts' =>
      let? r := calldata_next c in
      let? (v, c') := r in
      let? p := into_prim t v in
      let? h := held_at (base + cu_offset c) p in
      let? hs := read_args base ts' c' in
      Some (h :: hs)
  end.
(** endpoint.rs:57-96 expand_prologue: nothing for a function without parameters. *)
Definition prologue (ts : list pty) : code (list held) :=
  match ts with
  | [] => cret []
  | _ => let~ (base, bs) := node_calldata in csome (read_args base ts (calldata_new bs))
  end.

(* ------------------------------------------------------------------------- *)
(** * The returned value *)

(** A component of the value returned by the body. *)
Inductive hval : Type :=
| HUnit
| HVal (h : held)
| HOpt (o : option held)
| HArr (l : list held).

(** sdk-std/src/vec.rs:50-59 push, of a vector of bytes at [p] with [cap] bytes of which [len]
    are taken; the answer is the new length. *)
Definition push_at (p cap len b : N) : code N :=
  if len <? cap then let~ _ := mwrite (p + len) [b] in cret (len + 1) else cpanic.
Fixpoint pushes_at (p cap len : N) (bs : bytes) : code N :=
  match bs with
  | [] => cret len
  | b :: bs' => let~ len := push_at p cap len b in pushes_at p cap len bs'
  end.
(** abi-encoder/src/types/address.rs:7-16: each byte is read when its turn comes. *)
Fixpoint copy_at (p cap len q : N) (n : nat) : code N :=
  match n with
  | O => cret len
  | S n' =>
      let~ bs := mread q 1 in
      let~ len := pushes_at p cap len bs in
      copy_at p cap len (q + 1) n'
  end.
(** abi-encoder/src/types/{boolean,numeric,amount,address}.rs.  The bytes that the encoder
    pushes for a value that is not an address are those of AbiModel. *)
Definition pushed (p : primitive) : option bytes :=
  let? w := encode_primitive p (vec_with_capacity 9) in vec_as_slice w.
Definition encode_held (p cap len : N) (h : held) : code N :=
  match h with
  | HBool b => let~ bs := csome (pushed (PBool b)) in pushes_at p cap len bs
  | HInt t z => let~ bs := csome (pushed (PInt t z)) in pushes_at p cap len bs
  | HAmount n => let~ bs := csome (pushed (PAmount n)) in pushes_at p cap len bs
  | HPtr q => let~ len := push_at p cap len L_ADDRESS in copy_at p cap len q 20
  end.
Fixpoint encode_helds (p cap len : N) (hs : list held) : code N :=
  match hs with
  | [] => cret len
  | h :: hs' => let~ len := encode_held p cap len h in encode_helds p cap len hs'
  end.
(** abi-encoder/src/types/{unit,option,small_array}.rs *)
Definition encode_hval (p cap len : N) (v : hval) : code N :=
  match v with
  | HUnit => push_at p cap len L_UNIT
  | HVal h => encode_held p cap len h
  | HOpt None => push_at p cap len L_NONE
  | HOpt (Some h) => encode_held p cap len h
  | HArr hs =>
      if nlen hs <? 11
      then let~ len := push_at p cap len (layout_array (nlen hs)) in encode_helds p cap len hs
      else cpanic
  end.
(** abi-encoder/src/types/tuples.rs: the fields in order. *)
Fixpoint encode_hvals (p cap len : N) (vs : list hval) : code N :=
  match vs with
  | [] => cret len
  | v :: vs' => let~ len := encode_hval p cap len v in encode_hvals p cap len vs'
  end.
(** sdk-macros/src/function/endpoint.rs:120-157 expand_epilogue, 98-118 expand_returns_size:
    [None] for a function without return type.  The vector is sdk-std/src/vec.rs:34-38
    with_capacity; sdk-host-ffi/src/ext.rs:179-186 set_returndata. *)
Definition epilogue (ret : option (list aty)) (vs : list hval) : code unit :=
  match ret with
  | None => cret tt
  | Some ts =>
      let cap := tuple_max_byte_size ts in
      let~ p := sdk_alloc cap in
      let~ len := encode_hvals p cap 0 vs in
      if 0 <? len then let~ _ := host (HSetReturndata p len) in cret tt else cret tt
  end.

(* ------------------------------------------------------------------------- *)
(** * The exported functions *)

(** endpoint.rs:10-55 expand, for parameters of the types [ts] and the return type [ret] *)
Definition endpoint (ts : list pty) (ret : option (list aty)) (body : list held -> code (list hval)) : code unit :=
  let~ args := prologue ts in
  let~ vs := body args in
  epilogue ret vs.
(** sdk-macros/src/template.rs:278-299 export_alloc_ast *)
Definition generated_alloc (size : N) : code N := sdk_alloc size.

(** The wasm instance [i] of the engine exports the function [c] under [name]. *)
Definition exports (en : engine) (i : en_inst en) (name : bytes) (c : code unit) : Prop :=
  en_func en i name = Some SigUnit
  /\ forall mem, en_call en i name [] mem = wbind (c mem) (fun _ mem' => WReturn mem' ([], i)).
Definition exports_alloc (en : engine) (i : en_inst en) : Prop :=
  en_func en i svm_alloc = Some SigAlloc
  /\ forall size mem, en_call en i svm_alloc [size] mem = wbind (generated_alloc size mem) (fun p mem' => WReturn mem' ([p], i)).
