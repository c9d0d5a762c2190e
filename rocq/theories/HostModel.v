(** Model of the host that contract tests run on: crates/wasm/sdk-host-mock/src/lib.rs, with the
    addresses of crates/wasm/sdk-types/src/blob.rs as keys of a hash map. *)
From Coq Require Import List NArith Bool.
From Verif Require Import Base ReceiptModel SdkModel AbiModel.
Import ListNotations.
Open Scope N_scope.

(** The functions of [MockHost] (lib.rs:41-146), those of the [Host] trait included (148-193).
    [A] is what stands for an address.  The singleton [instance] (lib.rs:44-52) is a state that is
    passed on; tests run one at a time (lib.rs:33-36, 359-368). *)
Inductive hop (A : Type) : Type :=
| SetCalldata (rs : list rust)
| SetRawCalldata (bs : bytes)
| SetReturndata (bs : bytes)
| SetBalance (a : A) (n : N)
| SetValue (n : N)
| SetPrincipal (a : A)
| SetTarget (a : A)
| SetLayer (n : N)
| Transfer (a : A) (n : N)
| Log (msg : bytes) (code : N)
| Reset
| Calldata | Returndata | Value | Principal | Target | Layer | Balance | BalanceOf (a : A) | Logs.
Arguments SetCalldata {A}. Arguments SetRawCalldata {A}. Arguments SetReturndata {A}. Arguments SetBalance {A}.
Arguments SetValue {A}. Arguments SetPrincipal {A}. Arguments SetTarget {A}. Arguments SetLayer {A}. Arguments Transfer {A}.
Arguments Log {A}. Arguments Reset {A}. Arguments Calldata {A}. Arguments Returndata {A}. Arguments Value {A}.
Arguments Principal {A}. Arguments Target {A}. Arguments Layer {A}. Arguments Balance {A}. Arguments BalanceOf {A}. Arguments Logs {A}.
(** What they answer.  An address is answered by its bytes. *)
Inductive answer : Type :=
| Done
| Bytes (bs : bytes)
| Maybe (bs : option bytes)
| Number (n : N)
| Addr (bs : bytes)
| Messages (l : list (bytes * N)).

Section Host.
(** blob.rs:9-12: an address is a pointer to its bytes; these are leaked, so that they stay and
    do not change (blob.rs:63-103).  [mem] gives the bytes a pointer points to. *)
Variable mem : N -> bytes.

(** [HashMap<Address, Amount>].  blob.rs:11 derives [Hash] from the pointer, blob.rs:129-133
    compares the bytes.  A search for [p] compares it with those entries that have the same
    hash tag and lie on the search's way: [sees t p q] tells whether the entry of [q] is one of
    them in the table [t].  It is true for [q = p] and depends on random numbers otherwise. *)
Definition table := list (N * N).
Variable sees : table -> N -> N -> bool.
Definition matches (t : table) (p : N) (e : N * N) : bool := sees t p (fst e) && bytes_eqb (mem p) (mem (fst e)).
(** [HashMap::get] *)
Definition get (t : table) (p : N) : option N := option_map snd (find (matches t p) t).
(** [HashMap::insert]: an entry that is found keeps its key. *)
Fixpoint replace (m : N * N -> bool) (v : N) (t : table) : table :=
  match t with
  | [] => []
  | e :: t' => if m e then (fst e, v) :: t' else e :: replace m v t'
  end.
Definition insert (t : table) (p v : N) : table :=
  match find (matches t p) t with
  | Some _ => replace (matches t p) v t
  | None => t ++ [(p, v)]
  end.

(** lib.rs:195-211 *)
Record host : Type := mkHost {
  h_calldata : option bytes;
  h_returndata : option bytes;
  h_accounts : table;
  h_value : option N;
  h_principal : option N;
  h_target : option N;
  h_layer : option N;
  h_logs : list (bytes * N);
}.
(** lib.rs:214-225 *)
Definition host_new : host := mkHost None None [] None None None None [].

Definition with_calldata h x := mkHost x (h_returndata h) (h_accounts h) (h_value h) (h_principal h) (h_target h) (h_layer h) (h_logs h).
Definition with_returndata h x := mkHost (h_calldata h) x (h_accounts h) (h_value h) (h_principal h) (h_target h) (h_layer h) (h_logs h).
Definition with_accounts h x := mkHost (h_calldata h) (h_returndata h) x (h_value h) (h_principal h) (h_target h) (h_layer h) (h_logs h).
Definition with_value h x := mkHost (h_calldata h) (h_returndata h) (h_accounts h) x (h_principal h) (h_target h) (h_layer h) (h_logs h).
Definition with_principal h x := mkHost (h_calldata h) (h_returndata h) (h_accounts h) (h_value h) x (h_target h) (h_layer h) (h_logs h).
Definition with_target h x := mkHost (h_calldata h) (h_returndata h) (h_accounts h) (h_value h) (h_principal h) x (h_layer h) (h_logs h).
Definition with_layer h x := mkHost (h_calldata h) (h_returndata h) (h_accounts h) (h_value h) (h_principal h) (h_target h) x (h_logs h).
Definition with_logs h x := mkHost (h_calldata h) (h_returndata h) (h_accounts h) (h_value h) (h_principal h) (h_target h) (h_layer h) x.

(** lib.rs:227-239 set_calldata: the tuple's size (abi-encoder/src/tuples.rs), a vector of that
    capacity, the encoding (leaked; lib.rs:241-246 copies it). [None]: panic. *)
Definition calldata_of (rs : list rust) : option bytes :=
  let? cap := tuple_byte_size rs in
  let? w := encode_tuple rs (vec_with_capacity cap) in
  vec_as_slice w.
(** lib.rs:276-278 balance_of *)
Definition balance_of (h : host) (p : N) : N := match get (h_accounts h) p with Some n => n | None => 0 end.
(** lib.rs:316-319 balance, with 308-310 target *)
Definition balance (h : host) : option N := option_map (balance_of h) (h_target h).
(** lib.rs:321-335 transfer *)
Definition host_transfer (h : host) (dst n : N) : option host :=
  let? target_balance := balance h in
  let? _ := ensure (n <=? target_balance) in
  let dst_balance := balance_of h dst in
  let? src_balance := amount_sub target_balance n in
  let? dst_balance := amount_add true dst_balance n in
  let? src := h_target h in
  let t := insert (h_accounts h) src src_balance in
  Some (with_accounts h (insert t dst dst_balance)).
(** lib.rs:280-288 reset *)
Definition host_reset (h : host) : host := mkHost None None (h_accounts h) None None None None [].

Definition tell {A} (h : host) (o : option A) (f : A -> answer) : option answer * host := (option_map f o, h).
Definition change (h : host) (o : option host) : option answer * host :=
  match o with Some h' => (Some Done, h') | None => (None, h) end.
(** One call: the answer, [None] for a panic, and the host afterwards.  Every panic comes before
    the first update (lib.rs:227-288, 292-341). *)
Definition host_step (o : hop N) (h : host) : option answer * host :=
  match o with
  | SetCalldata rs => change h (let? bs := calldata_of rs in Some (with_calldata h (Some bs)))
  | SetRawCalldata bs => change h (Some (with_calldata h (Some bs)))
  | SetReturndata bs => change h (Some (with_returndata h (Some bs)))
  | SetBalance a n => change h (Some (with_accounts h (insert (h_accounts h) a n)))
  | SetValue n => change h (Some (with_value h (Some n)))
  | SetPrincipal a => change h (Some (with_principal h (Some a)))
  | SetTarget a => change h (Some (with_target h (Some a)))
  | SetLayer n => change h (Some (with_layer h (Some n)))
  | Transfer a n => change h (host_transfer h a n)
  | Log msg code => change h (Some (with_logs h (h_logs h ++ [(msg, code)])))
  | Reset => change h (Some (host_reset h))
  | Calldata => tell h (h_calldata h) Bytes
  | Returndata => tell h (Some (h_returndata h)) Maybe
  | Value => tell h (h_value h) Number
  | Principal => tell h (h_principal h) (fun p => Addr (mem p))
  | Target => tell h (h_target h) (fun p => Addr (mem p))
  | Layer => tell h (h_layer h) Number
  | Balance => tell h (balance h) Number
  | BalanceOf a => tell h (Some (balance_of h a)) Number
  | Logs => tell h (Some (h_logs h)) Messages
  end.
(** A test: a history of calls.  A panic is caught by the test harness; the host, which is
    static, stays. *)
Fixpoint host_run (os : list (hop N)) (h : host) : list (option answer) * host :=
  match os with
  | [] => ([], h)
  | o :: os' => let (a, h) := host_step o h in let (l, h) := host_run os' h in (a :: l, h)
  end.
End Host.
