(** Model of the storage accessors of a contract: what the storage macro generates
    (crates/wasm/sdk-macros/src/struct/storage.rs), the functions it calls
    (crates/wasm/sdk-storage/src/lib.rs), and the two places they lead to: the host functions
    (crates/wasm/sdk-storage-ffi/src/ext.rs) and the mock of the contract's own tests
    (crates/wasm/sdk-storage-mock/src/lib.rs).  Paths below are under crates/wasm.

    Contract code is a [wasm] tree, as the runtime runs it (RuntimeModel): a generated accessor
    is a function of the linear memory that yields such a tree. *)
From Coq Require Import List NArith ZArith Bool.
From Verif Require Import Base StorageModel SdkModel AbiModel GlobalModel RuntimeModel.
Import ListNotations.
Open Scope list_scope.
Open Scope N_scope.

(** Sequencing of contract code. *)
Fixpoint wbind {A B} (t : wasm A) (k : A -> bytes -> wasm B) : wasm B :=
  match t with
  | WReturn mem a => k a mem
  | WTrap msg => WTrap msg
  | WHost mem c k' => WHost mem c (fun v mem' => wbind (k' v mem') k)
  end.
Definition code A := bytes -> wasm A.
Definition cret {A} (a : A) : code A := fun mem => WReturn mem a.
Definition cbind {A B} (m : code A) (k : A -> code B) : code B := fun mem => wbind (m mem) k.
Notation "'let~' p ':=' m 'in' k" := (cbind m (fun p => k))
  (at level 200, p pattern, m at level 100, k at level 200).
(** [panic()] and [unreachable!()] in wasm: sdk-std/src/panic.rs:1-6 *)
Definition cpanic {A} : code A := fun _ => WTrap [].
Definition csome {A} (o : option A) : code A := match o with Some a => cret a | None => cpanic end.
(** An imported function. *)
Definition host (c : host_fn) : code N := fun mem => WHost mem c (fun v mem' => WReturn mem' v).
(** Reading and writing the contract's own memory; outside of it is a trap. *)
Definition mread (p n : N) : code bytes := fun mem => csome (mem_read mem p n) mem.
Definition mwrite (p : N) (bs : bytes) : code unit := fun mem =>
  match mem_write mem p bs with Some mem' => WReturn mem' tt | None => WTrap [] end.

(** sdk-alloc/src/lib.rs:60-65: with the feature [static-alloc] *)
Definition sdk_alloc (size : N) : code N := host (HStaticAlloc size).

(* ------------------------------------------------------------------------- *)
(** * sdk-storage/src/lib.rs over sdk-storage-ffi/src/ext.rs *)

(** lib.rs:34-48, ext.rs:21-35 *)
Definition get32 (id : N) : code N := host (HGet32 id).
Definition set32 (id v : N) : code N := host (HSet32 id v).
Definition get64 (id : N) : code N := host (HGet64 id).
Definition set64 (id v : N) : code N := host (HSet64 id v).
(** lib.rs:50-58 *)
Definition get_bool (id : N) : code bool :=
  let~ v := get32 id in
  if v =? 0 then cret false else if v =? 1 then cret true else cpanic.
(** lib.rs:60-67 *)
Definition set_bool (id : N) (b : bool) : code N := set32 id (if b then 1 else 0).
(** lib.rs:69-79 *)
Definition get_amount (id : N) : code N := get64 id.
Definition set_amount (id v : N) : code N := set64 id v.
(** lib.rs:81-96 load160 and store160, 98-108 get_addr and set_addr, ext.rs:37-43.  An address
    is a pointer to its bytes (sdk-types/src/blob.rs:12). *)
Definition get_addr (id : N) : code N :=
  let~ p := sdk_alloc 20 in
  let~ _ := host (HLoad160 id p) in
  cret p.
Definition set_addr (id p : N) : code N := host (HStore160 p id).

(* ------------------------------------------------------------------------- *)
(** * The generated accessors *)

(** The integer type of a field. *)
Definition ity_of (t : prim_type) : ity :=
  match t with
  | TI8 => I8 | TU8 => U8 | TI16 => I16 | TU16 => U16 | TI32 => I32 | TU32 => U32 | TI64 => I64
  | _ => U64
  end.
(** What a contract holds: a bool, an integer, an amount, or a pointer to an address. *)
Inductive held : Type :=
| HBool (b : bool)
| HInt (t : ity) (z : Z)
| HAmount (n : N)
| HPtr (p : N).
(** storage.rs:147-202 getter of a primitive, and 203-266 of an array's cell: [as #ty] *)
Definition getter (t : prim_type) (id : N) : code held :=
  match t with
  | TI8 | TU8 | TI16 | TU16 | TI32 | TU32 =>
      let~ v := get32 id in cret (HInt (ity_of t) (as_ity (ity_of t) (Z.of_N v)))
  | TI64 | TU64 =>
      let~ v := get64 id in cret (HInt (ity_of t) (as_ity (ity_of t) (Z.of_N v)))
  | TBool => let~ b := get_bool id in cret (HBool b)
  | TAmount => let~ n := get_amount id in cret (HAmount n)
  | TAddress => let~ p := get_addr id in cret (HPtr p)
  end.
(** storage.rs:274-319 setter of a primitive, and 320-381 of an array's cell: [value as u32],
    [value as u64].  A value of another type is refused by the compiler. *)
Definition setter (t : prim_type) (id : N) (v : held) : code N :=
  match t, v with
  | (TI8 | TU8 | TI16 | TU16 | TI32 | TU32), HInt _ z => set32 id (Z.to_N (as_ity U32 z))
  | (TI64 | TU64), HInt _ z => set64 id (Z.to_N (as_ity U64 z))
  | TBool, HBool b => set_bool id b
  | TAmount, HAmount n => set_amount id n
  | TAddress, HPtr p => set_addr id p
  | _, _ => cpanic
  end.
(** The variable of an access: the field's own, or the cell of an array
    (sdk-storage/src/lib.rs:112-171). *)
Definition accessed (v : svar) (index : option N) : option N :=
  match sv_type v, index with
  | FPrim _, None => Some (sv_id v)
  | FArray _ len, Some i => cell_offset (sv_id v) i len
  | _, _ => None
  end.
Definition var_prim (v : svar) : prim_type := match sv_type v with FPrim t => t | FArray t _ => t end.
Definition get_field (v : svar) (index : option N) : code held :=
  let~ id := csome (accessed v index) in getter (var_prim v) id.
Definition set_field (v : svar) (index : option N) (x : held) : code N :=
  let~ id := csome (accessed v index) in setter (var_prim v) id x.

(* ------------------------------------------------------------------------- *)
(** * A contract that uses its storage *)

(** Making a value and looking at one.  An address is made by [Address::from([u8; 20])], which
    leaks a box of 20 bytes (sdk-types/src/blob.rs:89-101; the global allocator is
    sdk-alloc/src/lib.rs:76-91), and looked at through [as_slice] (blob.rs:41-45). *)
Definition make (p : primitive) : code held :=
  match p with
  | PBool b => cret (HBool b)
  | PInt t z => cret (HInt t z)
  | PAmount n => cret (HAmount n)
  | PAddress a =>
      let~ p := sdk_alloc 20 in
      let~ _ := mwrite p a in
      cret (HPtr p)
  | _ => cpanic
  end.
Definition look (x : held) : code primitive :=
  match x with
  | HBool b => cret (PBool b)
  | HInt t z => cret (PInt t z)
  | HAmount n => cret (PAmount n)
  | HPtr p => let~ bs := mread p 20 in cret (PAddress bs)
  end.

(** Calls of the generated accessors of the field number [field]. *)
Inductive access : Type :=
| Get (field : nat) (index : option N)
| Set_ (field : nat) (index : option N) (value : primitive).
Inductive seen : Type := Read (value : primitive) | Written.
Definition run_access (vs : list svar) (a : access) : code seen :=
  match a with
  | Get i index =>
      let~ v := csome (nth_error vs i) in
      let~ x := get_field v index in
      let~ p := look x in
      cret (Read p)
  | Set_ i index p =>
      let~ v := csome (nth_error vs i) in
      let~ x := make p in
      let~ _ := set_field v index x in
      cret Written
  end.
Fixpoint contract (vs : list svar) (l : list access) : code (list seen) :=
  match l with
  | [] => cret []
  | a :: l' =>
      let~ r := run_access vs a in
      let~ rs := contract vs l' in
      cret (r :: rs)
  end.

(* ------------------------------------------------------------------------- *)
(** * The mock (sdk-storage-mock/src/lib.rs) *)

(** lib.rs:20-29; the map as an association list, latest first. *)
Inductive mock_var : Type := MI32 (n : N) | MI64 (n : N) | MBlob (bs : bytes).
Definition mock := list (N * mock_var).
Fixpoint mock_find (m : mock) (id : N) : option mock_var :=
  match m with
  | [] => None
  | (i, v) :: m' => if i =? id then Some v else mock_find m' id
  end.
(** The calls of the [Storage] trait on the mock (lib.rs:38-109), and the allocator of the test's
    process.  Simplified: memory is a list that grows, allocation gives its end; an access
    outside of it is undefined behaviour, here [Panic].  Other functions are not in the trait. *)
Definition mock_call (m : mock) (mem : bytes) (c : host_fn) : option (N * bytes * mock) :=
  match c with
  | HStaticAlloc size => Some (nlen mem, mem ++ repeat 0 (N.to_nat size), m)
  | HGet32 id =>
      match mock_find m id with
      | None => Some (0, mem, m)
      | Some (MI32 n) => Some (n, mem, m)
      | Some _ => None
      end
  | HGet64 id =>
      match mock_find m id with
      | None => Some (0, mem, m)
      | Some (MI64 n) => Some (n, mem, m)
      | Some _ => None
      end
  | HSet32 id n => Some (0, mem, (id, MI32 n) :: m)
  | HSet64 id n => Some (0, mem, (id, MI64 n) :: m)
  | HStore160 p id => let? bs := mem_read mem p 20 in Some (0, mem, (id, MBlob bs) :: m)
  | HLoad160 id p =>
      match (match mock_find m id with None => Some (repeat 0 20) | Some (MBlob bs) => Some bs | Some _ => None end) with
      | Some bs => let? mem' := mem_write mem p bs in Some (0, mem', m)
      | None => None
      end
  | _ => None
  end.
(** Running the contract's code in its own tests: [Err] = the code panics, [Panic] = the mock
    does. *)
Fixpoint run_mock {R} (t : wasm R) (m : mock) : outcome unit (bytes * R) * mock :=
  match t with
  | WReturn mem r => (Ok (mem, r), m)
  | WTrap _ => (Err tt, m)
  | WHost mem c k =>
      match mock_call m mem c with
      | Some (v, mem', m') => run_mock (k v mem') m'
      | None => (Panic, m)
      end
  end.
