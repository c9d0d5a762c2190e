(** Model of the buffers of the codec's wasm interface (crates/host/codec/src/api/wasm).

    The module runs on wasm32: addresses and [usize] are 32-bit, no allocation exceeds
    [isize::MAX].  Memory is the list of allocated blocks with their contents; reading, writing
    or freeing anything else is undefined behaviour ([Err UB]); a Rust panic is [Panic] (a trap
    of the wasm instance).  The allocator is an argument.  [leak_on_drop] is always true outside
    of the tests, so dropping a [Buffer] that was not freed does nothing (buffer.rs:198-205).
    [wasm_call_json] (mod.rs:187-200) is [wasm_call_raw] of a function that also prints the JSON. *)
From Coq Require Import List NArith ZArith Bool.
From Verif Require Import Base Text CodecModel.
Import ListNotations.
Open Scope N_scope.

Inductive undefined := UB.
Definition block := (N * bytes)%type.
Definition heap := list block.
(** What an allocator sees: addresses and sizes. *)
Definition shape (h : heap) : list (N * N) := map (fun '(p, c) => (p, nlen c)) h.
(** The answer to a request for a number of bytes; [None]: out of memory, which traps. *)
Definition allocator := list (N * N) -> N -> option N.

Definition hm (A : Type) := heap -> outcome undefined A * heap.
Definition hret {A} (a : A) : hm A := fun h => (Ok a, h).
Definition hpanic {A} : hm A := fun h => (Panic, h).
Definition hbind {A B} (m : hm A) (k : A -> hm B) : hm B := fun h =>
  match m h with
  | (Ok a, h') => k a h'
  | (Err e, h') => (Err e, h')
  | (Panic, h') => (Panic, h')
  end.
Notation "'let%' p ':=' m 'in' k" := (hbind m (fun p => k)) (at level 200, p pattern, m at level 100, k at level 200).
Definition hassert (b : bool) : hm unit := if b then hret tt else hpanic.

(** Raw memory accesses (of at least one byte, see [peek] and [poke]). *)
Definition holds (a n : N) (x : block) : bool := (fst x <=? a) && (a + n <=? fst x + nlen (snd x)).
Fixpoint find_block (a n : N) (h : heap) : option block :=
  match h with
  | [] => None
  | x :: h' => if holds a n x then Some x else find_block a n h'
  end.
Definition slice (c : bytes) (from n : N) : bytes := firstn (N.to_nat n) (skipn (N.to_nat from) c).
Definition patch (c : bytes) (from : N) (bs : bytes) : bytes :=
  firstn (N.to_nat from) c ++ bs ++ skipn (N.to_nat (from + nlen bs)) c.
Definition peek (a n : N) : hm bytes := fun h =>
  if n =? 0 then (Ok [], h)
  else match find_block a n h with
       | Some (p, c) => (Ok (slice c (a - p) n), h)
       | None => (Err UB, h)
       end.
Fixpoint poke_in (a : N) (bs : bytes) (h : heap) : option heap :=
  match h with
  | [] => None
  | x :: h' =>
    if holds a (nlen bs) x then Some ((fst x, patch (snd x) (a - fst x) bs) :: h')
    else option_map (cons x) (poke_in a bs h')
  end.
Definition poke (a : N) (bs : bytes) : hm unit := fun h =>
  if nlen bs =? 0 then (Ok tt, h)
  else match poke_in a bs h with Some h' => (Ok tt, h') | None => (Err UB, h) end.

(** [isize::MAX] of wasm32 *)
Definition isize_max : N := 2147483647.
(** [vec![0; size]]: larger than [isize_max] is "capacity overflow" *)
Definition zeroed (al : allocator) (size : N) : hm N := fun h =>
  if isize_max <? size then (Panic, h)
  else match al (shape h) size with
       | Some p => (Ok p, (p, repeat 0 (N.to_nat size)) :: h)
       | None => (Panic, h)
       end.
(** Deallocation with the layout of the allocation. *)
Fixpoint dealloc_in (p size : N) (h : heap) : option heap :=
  match h with
  | [] => None
  | x :: h' =>
    if (fst x =? p) && (nlen (snd x) =? size) then Some h' else option_map (cons x) (dealloc_in p size h')
  end.
Definition dealloc (p size : N) : hm unit := fun h =>
  match dealloc_in p size h with Some h' => (Ok tt, h') | None => (Err UB, h) end.

(** buffer.rs:52-59 [Buffer]: the raw parts of its vector *)
Record buffer := mkBuffer { bf_ptr : N; bf_len : N; bf_cap : N }.

(** buffer.rs:62-69 *)
Definition header_size : N := 8.
Definition ok_marker : N := 1.
Definition err_marker : N := 0.

(** A slice of the vector of a buffer: out of bounds panics. *)
Definition read_range (b : buffer) (from to : N) : hm bytes :=
  let% _ := hassert ((from <=? to) && (to <=? bf_len b)) in
  peek (bf_ptr b + from) (to - from).
(** [vec_mut()[from..to].clone_from_slice(bs)]: the lengths must agree *)
Definition write_range (b : buffer) (from to : N) (bs : bytes) : hm unit :=
  let% _ := hassert ((from <=? to) && (to <=? bf_len b) && (nlen bs =? to - from)) in
  poke (bf_ptr b + from) bs.

(** buffer.rs:162-164 len *)
Definition buf_len (b : buffer) : hm N := let% bs := read_range b 0 4 in hret (be_value bs).
(** buffer.rs:166-168 capacity *)
Definition buf_capacity (b : buffer) : hm N := let% bs := read_range b 4 8 in hret (be_value bs).
(** buffer.rs:170-174 set_len *)
Definition set_len (b : buffer) (len : N) : hm unit :=
  let% c := buf_capacity b in
  let% _ := hassert (len <=? c) in
  write_range b 0 4 (be_bytes 4 len).
(** buffer.rs:176-181 set_capacity *)
Definition set_capacity (b : buffer) (capacity : N) : hm unit :=
  let% l := buf_len b in
  let% _ := hassert (l <=? capacity) in
  let% _ := hassert (header_size <=? bf_len b) in
  let% _ := hassert (capacity <=? bf_len b - header_size) in
  write_range b 4 8 (be_bytes 4 capacity).
(** buffer.rs:71-87 alloc; the sum overflows [usize] beyond [u32_max] *)
Definition buf_alloc (al : allocator) (len : N) : hm buffer :=
  let% _ := hassert (len + header_size <=? u32_max) in
  let% p := zeroed al (len + header_size) in
  let b := mkBuffer p (len + header_size) (len + header_size) in
  let% _ := set_capacity b len in
  let% _ := set_len b len in
  hret b.
(** buffer.rs:184-188 as_ref *)
Definition buf_data (b : buffer) : hm bytes := read_range b 8 (bf_len b).
(** buffer.rs:100-119 alloc_ok and alloc_err: a marker, then the data.  The length must fit u32
    with the marker. *)
Definition alloc_marked (al : allocator) (marker : N) (data : bytes) : hm buffer :=
  let% _ := hassert (nlen data <=? u32_max) in
  let% _ := hassert (nlen data + 1 <=? u32_max) in
  let% b := buf_alloc al (nlen data + 1) in
  let% _ := write_range b 8 9 [marker] in
  let% _ := write_range b 9 (bf_len b) data in
  hret b.
Definition alloc_ok (al : allocator) (data : bytes) : hm buffer := alloc_marked al ok_marker data.
Definition alloc_err (al : allocator) (text : bytes) : hm buffer := alloc_marked al err_marker text.
(** buffer.rs:134-152 from_ptr *)
Definition from_ptr (p : N) : hm buffer :=
  let header := mkBuffer p header_size header_size in
  let% l := buf_len header in
  let% c := buf_capacity header in
  let% _ := hassert ((l + header_size <=? u32_max) && (c + header_size <=? u32_max)) in
  hret (mkBuffer p (l + header_size) (c + header_size)).
(** buffer.rs:126-128 free *)
Definition buf_free (b : buffer) : hm unit := dealloc (bf_ptr b) (bf_cap b).

(* ------------------------------------------------------------------------------------ *)
(** * Exported functions *)

(** mod.rs:63-65 *)
Definition wasm_alloc (al : allocator) (length : Z) : hm N :=
  if (length <? 0)%Z then hpanic
  else let% b := buf_alloc al (Z.to_N length) in hret (bf_ptr b).
(** mod.rs:73-75 *)
Definition wasm_free (p : N) : hm unit := let% b := from_ptr p in buf_free b.
(** mod.rs:81-83; the length must fit i32 *)
Definition wasm_buffer_length (p : N) : hm N :=
  let% b := from_ptr p in
  let% l := buf_len b in
  let% _ := hassert (l <=? 2147483647) in
  hret l.
(** mod.rs:89-91 *)
Definition wasm_buffer_data (p : N) : hm N := let% b := from_ptr p in hret (bf_ptr b + 8).

(** What a wrapped function answers: bytes, the text of an error, or a panic. *)
Definition api_fn := bytes -> outcome bytes bytes.
(** mod.rs:173-185 wasm_call_raw *)
Definition wasm_call_raw (al : allocator) (f : api_fn) (p : N) : hm N :=
  let% b := from_ptr p in
  let% json := buf_data b in
  let% _ := hassert (utf8_valid json) in
  match f json with
  | Ok bs => let% r := alloc_ok al bs in hret (bf_ptr r)
  | Err text => let% r := alloc_err al text in hret (bf_ptr r)
  | Panic => hpanic
  end.

(* ------------------------------------------------------------------------------------ *)
(** * A client of the module *)

(** The host side (JavaScript) allocates and frees buffers, calls functions on them and
    reads and writes the memory after [wasm_buffer_data]. *)
Inductive client_op :=
| KAlloc (n : Z) | KFree (p : N) | KLength (p : N)
| KWrite (p off : N) (bs : bytes) | KRead (p off n : N)
| KCall (f : api_fn) (p : N).
Inductive client_reply := YPtr (p : N) | YNum (n : N) | YBytes (bs : bytes) | YDone | YTrap | YUndefined.

Definition reply_of {A} (k : A -> client_reply) (x : outcome undefined A * heap) : client_reply * heap :=
  (match fst x with Ok a => k a | Err UB => YUndefined | Panic => YTrap end, snd x).
Definition client_step (al : allocator) (o : client_op) (h : heap) : client_reply * heap :=
  match o with
  | KAlloc n => reply_of YPtr (wasm_alloc al n h)
  | KFree p => reply_of (fun _ => YDone) (wasm_free p h)
  | KLength p => reply_of YNum (wasm_buffer_length p h)
  | KWrite p off bs => reply_of (fun _ => YDone) ((let% a := wasm_buffer_data p in poke (a + off) bs) h)
  | KRead p off n => reply_of YBytes ((let% a := wasm_buffer_data p in peek (a + off) n) h)
  | KCall f p => reply_of YPtr (wasm_call_raw al f p h)
  end.
Fixpoint client_run (al : allocator) (ops : list client_op) (h : heap) : list client_reply * heap :=
  match ops with
  | [] => ([], h)
  | o :: rest =>
    let (r, h1) := client_step al o h in
    let (l, h2) := client_run al rest h1 in
    (r :: l, h2)
  end.
