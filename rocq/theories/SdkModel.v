(** Model of the SDK's runtime support for contracts: the fixed-capacity vector and the
    strings of svm-sdk-std, amounts, layers and addresses of svm-sdk-types, and the
    storage variables assigned by the storage macro (svm-sdk-macros, svm-sdk-storage).
    Paths below are under crates/wasm. *)
From Coq Require Import String List NArith ZArith Arith Bool Lia.
From Verif Require Import Base Text.
Import ListNotations.
Open Scope list_scope.
Open Scope N_scope.

(** [ensure!] and [assert!]: abort unless the condition holds.
    sdk-std/src/ensure.rs:10-17 *)
Definition ensure (b : bool) : option unit := if b then Some tt else None.

(* ------------------------------------------------------------------------- *)
(** * The vector (sdk-std/src/vec.rs) *)

(** vec.rs:26-30.  The allocated memory is a list of cells, [None] for a cell never
    written.  Simplified: the allocation always succeeds and no two vectors share memory. *)
Record fvec (A : Type) : Type := mkVec { fv_len : N; fv_cap : N; fv_mem : list (option A) }.
Arguments mkVec {A} _ _ _.
Arguments fv_len {A} _.
Arguments fv_cap {A} _.
Arguments fv_mem {A} _.

(** vec.rs:34-38 *)
Definition vec_with_capacity {A} (cap : N) : fvec A := mkVec 0 cap (repeat None (N.to_nat cap)).
(** vec.rs:41-47: the memory holds the given items. *)
Definition vec_from_raw_parts {A} (items : list A) : fvec A := mkVec (nlen items) (nlen items) (map Some items).

(** [core::ptr::write(ptr.add(i), x)]; [None]: outside the allocation. *)
Fixpoint cell_write {A} (mem : list (option A)) (i : nat) (x : A) : option (list (option A)) :=
  match mem, i with
  | [], _ => None
  | _ :: mem', O => Some (Some x :: mem')
  | c :: mem', S i' => let? r := cell_write mem' i' x in Some (c :: r)
  end.
(** [core::ptr::read(ptr.add(i))]; [None]: outside the allocation or never written. *)
Definition cell_read {A} (mem : list (option A)) (i : nat) : option A :=
  match nth_error mem i with Some (Some x) => Some x | _ => None end.

(** vec.rs:50-59 *)
Definition vec_push {A} (v : fvec A) (x : A) : option (fvec A) :=
  let? _ := ensure (fv_len v <? fv_cap v) in
  let? mem := cell_write (fv_mem v) (N.to_nat (fv_len v)) x in
  Some (mkVec (fv_len v + 1) (fv_cap v) mem).
(** vec.rs:134-139 *)
Definition vec_take {A} (v : fvec A) (offset : N) : option A :=
  let? _ := ensure (offset <? fv_len v) in
  cell_read (fv_mem v) (N.to_nat offset).
(** vec.rs:114-117 *)
Definition vec_is_empty {A} (v : fvec A) : bool := fv_len v =? 0.
(** vec.rs:66-74 *)
Definition vec_pop {A} (v : fvec A) : option (A * fvec A) :=
  let? _ := ensure (negb (vec_is_empty v)) in
  let last := fv_len v - 1 in
  let? x := vec_take v last in
  Some (x, mkVec last (fv_cap v) (fv_mem v)).
(** vec.rs:77-84: the first [len] cells. *)
Fixpoint cells {A} (mem : list (option A)) (n : nat) : option (list A) :=
  match n, mem with
  | O, _ => Some []
  | S n', Some x :: mem' => let? r := cells mem' n' in Some (x :: r)
  | S _, _ => None
  end.
Definition vec_as_slice {A} (v : fvec A) : option (list A) := cells (fv_mem v) (N.to_nat (fv_len v)).
(** vec.rs:87-89 *)
Definition vec_clear {A} (v : fvec A) : fvec A := mkVec 0 (fv_cap v) (fv_mem v).
(** vec.rs:141-145 *)
Definition vec_get {A} (v : fvec A) (offset : N) : option A :=
  let? _ := ensure (offset <? fv_len v) in
  cell_read (fv_mem v) (N.to_nat offset).

(** vec.rs:203-221: one [next] of [iter]; the outer option is the abort. *)
Definition iter_next {A} (v : fvec A) (pos : N) : option (option A * N) :=
  if fv_len v <=? pos then Some (None, pos)
  else let? x := vec_get v pos in Some (Some x, pos + 1).
(** vec.rs:224-242: one [next] of [into_iter]. *)
Definition into_iter_next {A} (v : fvec A) (pos : N) : option (option A * N) :=
  if fv_len v <=? pos then Some (None, pos)
  else let? x := vec_take v pos in Some (Some x, pos + 1).

(** Appending several items, the [seq!] loops with [push]. *)
Fixpoint vec_pushes {A} (v : fvec A) (xs : list A) : option (fvec A) :=
  match xs with
  | [] => Some v
  | x :: xs' => let? v' := vec_push v x in vec_pushes v' xs'
  end.

(* ------------------------------------------------------------------------- *)
(** * Strings (sdk-std/src/string) *)

(** string/mod.rs:13-25 *)
Inductive sstring : Type :=
| Long (v : fvec N)
| Short (data : list N) (length : N).

(** string/mod.rs:125-128 *)
Definition ensure_ascii (b : N) : option unit := ensure (N.land b 128 =? 0).
Fixpoint all_ascii (bs : bytes) : option unit :=
  match bs with
  | [] => Some tt
  | b :: bs' => let? _ := ensure_ascii b in all_ascii bs'
  end.
(** string/mod.rs:73-95, with the debug_assert of line 75 (BuildModel.v has both builds) *)
Definition new_short_inner (data : bytes) (safe : bool) : option sstring :=
  let? _ := ensure (nlen data <=? 8) in
  let? _ := if safe then all_ascii data else Some tt in
  Some (Short (data ++ repeat 0 (8 - List.length data)%nat) (nlen data)).
(** string/mod.rs:33-35 *)
Definition from_byte (b : N) : option sstring := new_short_inner [b] true.
(** string/mod.rs:43-45 *)
Definition new_short (data : bytes) : option sstring := new_short_inner data true.
(** string/mod.rs:52-58 *)
Definition new_unchecked (data : fvec N) : option sstring :=
  if fv_len data <=? 8
  then let? s := vec_as_slice data in new_short_inner s false
  else Some (Long data).
(** string/mod.rs:66-71 *)
Definition string_bytes (s : sstring) : option bytes :=
  match s with
  | Long v => vec_as_slice v
  | Short data length => if length <=? nlen data then Some (firstn (N.to_nat length) data) else None
  end.

(** string/builder.rs:19-34: the loop of [push_str]. *)
Fixpoint push_bytes (sb : fvec N) (bs : bytes) : option (fvec N) :=
  match bs with
  | [] => Some sb
  | b :: bs' =>
      let? _ := ensure_ascii b in
      let? sb' := vec_push sb b in
      push_bytes sb' bs'
  end.
Definition push_str (sb : fvec N) (s : sstring) : option (fvec N) :=
  let? bs := string_bytes s in
  let? _ := ensure (nlen bs <? 256) in
  push_bytes sb bs.

(** string/digit.rs:26-34, with the debug_assert of line 29 *)
Definition dec_digit_string (d : N) : option sstring :=
  let? _ := ensure (d <? 10) in from_byte (d + 48).
(** string/digit.rs:11-24, with the debug_assert of line 14 *)
Definition hex_digit_string (d : N) : option sstring :=
  let? _ := ensure (d <? 16) in
  if d <? 10 then dec_digit_string d else from_byte (d - 10 + 65).

(** string/traits.rs:34-41 *)
Definition next_digit (value : N) : N * N * bool := (value mod 10, value / 10, value / 10 =? 0).
(** [digits[i] = d] on an array. *)
Fixpoint array_set (a : list N) (i : nat) (d : N) : option (list N) :=
  match a, i with
  | [], _ => None
  | _ :: a', O => Some (d :: a')
  | x :: a', S i' => let? r := array_set a' i' d in Some (x :: r)
  end.
(** string/traits.rs:51-60: the remaining [n] rounds of the loop of [concat_digits], the next one
    being round [k]. *)
Fixpoint concat_loop (n : nat) (k : N) (digits : list N) (used : N) (sb : fvec N) : option (fvec N) :=
  match n with
  | O => Some sb
  | S n' =>
      if k <? used then
        let? d := nth_error digits (N.to_nat (used - k - 1)) in
        let? s := dec_digit_string d in
        let? sb' := push_str sb s in
        concat_loop n' (k + 1) digits used sb'
      else Some sb
  end.
(** string/traits.rs:44-63 *)
Definition concat_digits (digits : list N) (used : N) (negative : bool) : option sstring :=
  let sb := vec_with_capacity 21 in
  let? sb := if negative then let? s := from_byte 45 in push_str sb s else Some sb in
  let? sb := concat_loop 20 0 digits used sb in
  new_unchecked sb.
(** string/traits.rs:16-26: the loop of [num_as_string], [n] rounds left. *)
Fixpoint num_loop (n : nat) (value : N) (digits : list N) (used : N) (negative : bool) : option sstring :=
  match n with
  | O => None (* string/traits.rs:29-30 *)
  | S n' =>
      let '(d, value', completed) := next_digit value in
      let? digits' := array_set digits (N.to_nat used) d in
      if completed : bool then concat_digits digits' (used + 1) negative
      else num_loop n' value' digits' (used + 1) negative
  end.
(** string/traits.rs:10-31 *)
Definition num_as_string (num : N) (negative : bool) : option sstring :=
  num_loop 21 num (repeat 0 20) 0 negative.
(** string/traits.rs:65-119: [ToString] of the unsigned and of the signed integers.  The
    widening to [i64]/[i128] before [abs] never overflows, so [abs] is exact. *)
Definition unsigned_to_string (n : N) : option sstring := num_as_string n false.
Definition signed_to_string (z : Z) : option sstring := num_as_string (Z.to_N (Z.abs z)) (z <? 0)%Z.

(* ------------------------------------------------------------------------- *)
(** * Amounts, layers, addresses (sdk-types) *)

(** Built-in [+] and [*] on [u64], with the compiler's overflow checks on or off. *)
Definition u64_op (checks : bool) (n : N) : option N :=
  if n <=? u64_max then Some n else if checks then None else Some (n mod 2 ^ 64).
(** sdk-types/src/amount.rs:28-42, 80-90 *)
Definition amount_add (checks : bool) (a b : N) : option N := u64_op checks (a + b).
(** sdk-types/src/amount.rs:44-62, 92-106 *)
Definition amount_sub (a b : N) : option N := let? _ := ensure (b <=? a) in Some (a - b).
(** sdk-types/src/amount.rs:64-78, 108-118 *)
Definition amount_mul (checks : bool) (a b : N) : option N := u64_op checks (a * b).

(** sdk-types/src/amount.rs:127-136 *)
Definition amount_to_string (n : N) : option sstring :=
  let sb := vec_with_capacity 26 in
  let? s := unsigned_to_string n in
  let? sb := push_str sb s in
  let? u := new_short (txt " coins") in
  let? sb := push_str sb u in
  new_unchecked sb.
(** sdk-types/src/layer_id.rs:15-25 *)
Definition layer_to_string (n : N) : option sstring :=
  let sb := vec_with_capacity (20 + 6) in
  let? s := unsigned_to_string n in
  let? u := new_short (txt "[Layer ") in
  let? sb := push_str sb u in
  let? sb := push_str sb s in
  let? c := from_byte 93 in
  let? sb := push_str sb c in
  new_unchecked sb.

(** sdk-types/src/blob.rs:145-154 *)
Fixpoint push_hex (sb : fvec N) (bs : bytes) : option (fvec N) :=
  match bs with
  | [] => Some sb
  | b :: bs' =>
      let left := N.shiftr (N.land b 240) 4 in
      let right := N.land b 15 in
      let? l := hex_digit_string left in
      let? sb := push_str sb l in
      let? r := hex_digit_string right in
      let? sb := push_str sb r in
      push_hex sb bs'
  end.
(** sdk-types/src/blob.rs:137-158, with 20 bytes for an address (blob.rs:162).  Simplified:
    the address is its bytes instead of a pointer to them. *)
Definition address_to_string (a : bytes) : option sstring :=
  let sb := vec_with_capacity (2 + 20 * 2) in
  let? u := new_short (txt "0x") in
  let? sb := push_str sb u in
  let? sb := push_hex sb a in
  new_unchecked sb.

(* ------------------------------------------------------------------------- *)
(** * Storage variables (sdk-macros/src/struct/storage.rs, sdk-storage/src/lib.rs) *)

(** The primitive types the macro accepts: sdk-macros/src/type.rs:67-99 *)
Inductive prim_type : Type :=
| TBool | TAmount | TAddress | TI8 | TU8 | TI16 | TU16 | TI32 | TU32 | TI64 | TU64.
(** storage.rs:411-428 *)
Definition field_byte_count (t : prim_type) : N :=
  match t with
  | TBool => 1 | TAmount => 8 | TAddress => 20
  | TI8 => 1 | TU8 => 1 | TI16 => 2 | TU16 => 2 | TI32 => 4 | TU32 => 4 | TI64 => 8 | TU64 => 8
  end.
(** The type of a field: sdk-macros/src/type.rs:26-39 (tuples are refused, storage.rs:100-105). *)
Inductive field_type : Type :=
| FPrim (t : prim_type)
| FArray (t : prim_type) (length : N).
(** sdk-macros/src/struct/var.rs:8-24 *)
Record svar : Type := mkSvar { sv_id : N; sv_offset : N; sv_type : field_type; sv_byte_count : N }.
(** storage.rs:62-109.  Simplified: names and attributes are left out. *)
Definition field_var (f : field_type) (id offset : N) : svar :=
  mkSvar id offset f (match f with FPrim t => field_byte_count t | FArray t _ => field_byte_count t end).
(** Arithmetic on [usize] and on [u32] in the macro. *)
Definition macro_usize (n : N) : option N := if n <=? u64_max then Some n else None.
Definition macro_u32 (n : N) : option N := if n <=? u32_max then Some n else None.
(** storage.rs:33-60 and next_var, storage.rs:402-405 *)
Fixpoint storage_vars_from (fs : list field_type) (id offset : N) : option (list svar) :=
  match fs with
  | [] => Some []
  | f :: fs' =>
      let v := field_var f id offset in
      let? (offset', id') :=
        match f with
        | FPrim _ =>
            let? o := macro_usize (offset + sv_byte_count v) in
            let? i := macro_u32 (id + 1) in
            Some (o, i)
        | FArray _ len =>
            let? m := macro_usize (sv_byte_count v * len) in
            let? o := macro_usize (offset + m) in
            let? i := macro_u32 (id + len) in
            Some (o, i)
        end in
      let? vs := storage_vars_from fs' id' offset' in
      Some (v :: vs)
  end.
Definition storage_vars (fs : list field_type) : option (list svar) := storage_vars_from fs 0 0.

(** sdk-storage/src/lib.rs:173-182: the variable of an array's cell. *)
Definition cell_offset (var_id index length : N) : option N :=
  let index := index mod 2 ^ 32 in
  if length <=? index then None
  else if var_id + index <=? u32_max then Some (var_id + index) else None.
