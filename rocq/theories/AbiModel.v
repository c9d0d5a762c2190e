(** Model of the ABI: crates/wasm/abi-layout, abi-encoder and abi-decoder, with the values of
    sdk-types/src/value.rs.  Paths below are under crates/wasm. *)
From Coq Require Import List NArith ZArith Bool Lia.
From Verif Require Import Base SdkModel.
Import ListNotations.
Open Scope list_scope.
Open Scope N_scope.

(* ------------------------------------------------------------------------- *)
(** * Values (sdk-types/src/value.rs) *)

(** The eight integer types. *)
Inductive ity : Type := I8 | U8 | I16 | U16 | I32 | U32 | I64 | U64.
Definition ity_bits (t : ity) : Z :=
  match t with I8 | U8 => 8 | I16 | U16 => 16 | I32 | U32 => 32 | I64 | U64 => 64 end.
Definition ity_signed (t : ity) : bool := match t with I8 | I16 | I32 | I64 => true | _ => false end.
(** [T::MAX]. *)
Definition ity_max (t : ity) : Z := (2 ^ (if ity_signed t then ity_bits t - 1 else ity_bits t) - 1)%Z.
(** [x as T] from any integer type. *)
Definition as_ity (t : ity) (z : Z) : Z :=
  let m := (z mod 2 ^ ity_bits t)%Z in
  if ity_signed t && (2 ^ (ity_bits t - 1) <=? m)%Z then (m - 2 ^ ity_bits t)%Z else m.
(** [T::Unsigned]: abi-encoder/src/types/numeric.rs:72-102 *)
Definition ity_unsigned (t : ity) : ity :=
  match t with I8 | U8 => U8 | I16 | U16 => U16 | I32 | U32 => U32 | I64 | U64 => U64 end.

(** value.rs:9-23; the eight integer variants are one constructor with the type as argument. *)
Inductive primitive : Type :=
| PNone
| PUnit
| PBool (b : bool)
| PAddress (a : bytes)
| PAmount (n : N)
| PInt (t : ity) (z : Z).
(** value.rs:30-46; the elements of a [Vec] are a list. *)
Inductive value : Type :=
| VPrim (p : primitive)
| VVec (vs : list value).

(* ------------------------------------------------------------------------- *)
(** * Markers (abi-layout/src/lib.rs:82-145) *)

Definition L_BOOL_FALSE : N := 0.
Definition L_BOOL_TRUE : N := 16.
Definition L_NONE : N := 32.
Definition L_UNIT : N := 48.
Definition L_ADDRESS : N := 64.
Definition L_AMOUNT_1B : N := 1.
Definition L_AMOUNT_2B : N := 17.
Definition L_AMOUNT_3B : N := 33.
Definition L_AMOUNT_4B : N := 49.
Definition L_AMOUNT_5B : N := 65.
Definition L_AMOUNT_6B : N := 81.
Definition L_AMOUNT_7B : N := 97.
Definition L_AMOUNT_8B : N := 113.
Definition L_I8 : N := 2.
Definition L_U8 : N := 18.
Definition L_I16_1B : N := 34.
Definition L_I16_2B : N := 50.
Definition L_U16_1B : N := 66.
Definition L_U16_2B : N := 82.
Definition L_I32_1B : N := 3.
Definition L_I32_2B : N := 19.
Definition L_I32_3B : N := 35.
Definition L_I32_4B : N := 51.
Definition L_U32_1B : N := 67.
Definition L_U32_2B : N := 83.
Definition L_U32_3B : N := 99.
Definition L_U32_4B : N := 115.
Definition L_I64_1B : N := 4.
Definition L_I64_2B : N := 20.
Definition L_I64_3B : N := 36.
Definition L_I64_4B : N := 52.
Definition L_I64_5B : N := 68.
Definition L_I64_6B : N := 84.
Definition L_I64_7B : N := 100.
Definition L_I64_8B : N := 116.
Definition L_U64_1B : N := 5.
Definition L_U64_2B : N := 21.
Definition L_U64_3B : N := 37.
Definition L_U64_4B : N := 53.
Definition L_U64_5B : N := 69.
Definition L_U64_6B : N := 85.
Definition L_U64_7B : N := 101.
Definition L_U64_8B : N := 117.
Definition L_ARR_0 : N := 6.
Definition L_ARR_1 : N := 22.
Definition L_ARR_2 : N := 38.
Definition L_ARR_3 : N := 54.
Definition L_ARR_4 : N := 70.
Definition L_ARR_5 : N := 86.
Definition L_ARR_6 : N := 102.
Definition L_ARR_7 : N := 118.
Definition L_ARR_8 : N := 7.
Definition L_ARR_9 : N := 23.
Definition L_ARR_10 : N := 39.

(* ------------------------------------------------------------------------- *)
(** * The encoder (abi-encoder/src) *)

(** types/numeric.rs:55-64: the match on the value as [u64]. *)
Definition u64_byte_size (n : N) : N :=
  if n <=? 255 then 2
  else if n <=? 65535 then 3
  else if n <=? 16777215 then 4
  else if n <=? 4294967295 then 5
  else if n <=? 1099511627775 then 6
  else if n <=? 281474976710655 then 7
  else if n <=? 72057594037927935 then 8
  else 9.
(** [self as T::Unsigned as u64] (numeric.rs:34-35, 52-53). *)
Definition to_u64 (t : ity) (z : Z) : N := Z.to_N (as_ity U64 (as_ity (ity_unsigned t) z)).
(** numeric.rs:51-65 *)
Definition int_byte_size (t : ity) (z : Z) : N := u64_byte_size (to_u64 t z).
(** numeric.rs:67-69 *)
Definition int_max_byte_size (t : ity) : N := int_byte_size t (ity_max t).
(** numeric.rs:106-123; [None]: a failed assertion, an underflow or the final panic. *)
Definition layout_integer (max width : N) (signed : bool) : option N :=
  let? _ := ensure (width <=? max) in
  let? _ := ensure (max <=? 8) in
  let? _ := ensure (1 <=? width) in
  let n := (width - 1) mod 256 in
  if (max =? 1) && (n =? 0) then Some (if signed then L_I8 else L_U8)
  else if max =? 2 then Some (N.lor (if signed then L_I16_1B else L_U16_1B) (N.shiftl (N.land n 1) 4 mod 256))
  else if max =? 4 then Some (N.lor (if signed then L_I32_1B else L_U32_1B) (N.shiftl (N.land n 3) 4 mod 256))
  else if max =? 8 then Some (N.lor (if signed then L_I64_1B else L_U64_1B) (N.shiftl (N.land n 7) 4 mod 256))
  else None.
(** The unrolled loops of numeric.rs:39-43 and amount.rs:13-17: byte [i] is pushed when
    [size >= top - i]; [top] goes down as the bytes are consumed. *)
Fixpoint push_last (w : fvec N) (bs : bytes) (top size : N) : option (fvec N) :=
  match bs with
  | [] => Some w
  | b :: bs' =>
      let? w := if top <=? size then vec_push w b else Some w in
      push_last w bs' (top - 1) size
  end.
(** numeric.rs:10-44 *)
Definition encode_int (t : ity) (z : Z) (w : fvec N) : option (fvec N) :=
  let payload := int_byte_size t z - 1 in
  let? marker := layout_integer (int_max_byte_size t - 1) payload (ity_signed t) in
  let? w := vec_push w marker in
  push_last w (be_bytes 8 (to_u64 t z)) 8 payload.
(** amount.rs:6-19, 32-35 *)
Definition layout_amount_b (i : N) : N := N.lor (N.shiftl i 4 mod 256) 1.
Definition encode_amount (n : N) (w : fvec N) : option (fvec N) :=
  let size := u64_byte_size n in
  let? w := vec_push w (layout_amount_b ((size - 2) mod 256)) in
  push_last w (be_bytes 8 n) 9 size.
(** address.rs:7-16: indexing an address shorter than 20 bytes aborts (no such address exists). *)
Definition encode_address (a : bytes) (w : fvec N) : option (fvec N) :=
  let? w := vec_push w L_ADDRESS in
  let? _ := ensure (20 <=? nlen a) in
  vec_pushes w (firstn 20 a).
(** types/mod.rs:60-76, 86-94; boolean.rs:5-13; option.rs:11-13; unit.rs:3-7 *)
Definition encode_primitive (p : primitive) (w : fvec N) : option (fvec N) :=
  match p with
  | PNone => vec_push w L_NONE
  | PUnit => vec_push w L_UNIT
  | PBool b => vec_push w (if b then L_BOOL_TRUE else L_BOOL_FALSE)
  | PAddress a => encode_address a w
  | PAmount n => encode_amount n w
  | PInt t z => encode_int t z w
  end.
(** small_array.rs:56-62 *)
Definition layout_array (len : N) : N :=
  if len <? 8 then N.lor 6 (N.shiftl len 4 mod 256) else N.lor 7 (N.shiftl (len - 8) 4 mod 256).
(** small_array.rs:8-18; [enc] encodes an element.  With at most ten elements, the loop over
    0..11 visits each of them once, in order. *)
Definition encode_slice {A} (enc : A -> fvec N -> option (fvec N)) (vs : list A) (w : fvec N) : option (fvec N) :=
  let? _ := ensure (nlen vs <? 11) in
  let? w := vec_push w (layout_array (nlen vs)) in
  fold_left (fun w v => let? w := w in enc v w) vs (Some w).
(** types/mod.rs:50-58, 78-84 *)
Fixpoint encode_value (v : value) (w : fvec N) : option (fvec N) :=
  match v with
  | VPrim p => encode_primitive p w
  | VVec vs => encode_slice encode_value vs w
  end.

(* ------------------------------------------------------------------------- *)
(** * The decoder (abi-decoder/src) *)

(** cursor.rs:12-15 *)
Record cursor : Type := mkCursor { cu_bytes : bytes; cu_offset : N }.
(** decoder.rs:8-42.  [InvalidTypeKind] is never built. *)
Inductive decode_error : Type := MissingTypeKind | NotEnoughBytes.
(** decoder.rs:14-29; the eight integer kinds are one constructor. *)
Inductive type_kind : Type := KNone | KUnit | KBool | KAddress | KAmount | KInt (t : ity) | KArray.
(** Simplified: the position of the cursor after an error is not modelled; the only caller
    in the code, calldata.rs:49-52, aborts on an error. *)
Definition dec A := outcome decode_error A.

(** cursor.rs:25-27 *)
Definition is_eof (c : cursor) : bool := nlen (cu_bytes c) <=? cu_offset c.
(** cursor.rs:38-45, decoder.rs:332-336 *)
Definition cu_peek (c : cursor) : dec N :=
  if is_eof c then Err NotEnoughBytes
  else match nth_error (cu_bytes c) (N.to_nat (cu_offset c)) with Some b => Ok b | None => Panic end.
(** cursor.rs:50-56, decoder.rs:297-301 *)
Definition cu_read_byte (c : cursor) : dec (N * cursor) :=
  let* b := cu_peek c in Ok (b, mkCursor (cu_bytes c) (cu_offset c + 1)).
(** cursor.rs:63-71, decoder.rs:321-329 *)
Definition cu_read_bytes (c : cursor) (n : N) : dec (bytes * cursor) :=
  if cu_offset c + n <=? nlen (cu_bytes c)
  then Ok (firstn (N.to_nat n) (skipn (N.to_nat (cu_offset c)) (cu_bytes c)), mkCursor (cu_bytes c) (cu_offset c + n))
  else Err NotEnoughBytes.
(** decoder.rs:304-318: the loop copies the slice to the end of eight zero bytes. *)
Definition read_num (c : cursor) (n : N) : dec (N * cursor) :=
  if (0 <? n) && (n <=? 8) then
    let* (s, c) := cu_read_bytes c n in
    Ok (be_value (repeat 0 (N.to_nat (8 - n)) ++ s), c)
  else Panic.

Definition one_of (b : N) (l : list N) : bool := existsb (N.eqb b) l.
(** decoder.rs:339-400 *)
Definition kind_of (b : N) : dec type_kind :=
  if b =? L_NONE then Ok KNone
  else if b =? L_UNIT then Ok KUnit
  else if one_of b [L_BOOL_FALSE; L_BOOL_TRUE] then Ok KBool
  else if b =? L_ADDRESS then Ok KAddress
  else if one_of b [L_AMOUNT_1B; L_AMOUNT_2B; L_AMOUNT_3B; L_AMOUNT_4B; L_AMOUNT_5B; L_AMOUNT_6B; L_AMOUNT_7B; L_AMOUNT_8B] then Ok KAmount
  else if b =? L_I8 then Ok (KInt I8)
  else if b =? L_U8 then Ok (KInt U8)
  else if one_of b [L_I16_1B; L_I16_2B] then Ok (KInt I16)
  else if one_of b [L_U16_1B; L_U16_2B] then Ok (KInt U16)
  else if one_of b [L_I32_1B; L_I32_2B; L_I32_3B; L_I32_4B] then Ok (KInt I32)
  else if one_of b [L_U32_1B; L_U32_2B; L_U32_3B; L_U32_4B] then Ok (KInt U32)
  else if one_of b [L_I64_1B; L_I64_2B; L_I64_3B; L_I64_4B; L_I64_5B; L_I64_6B; L_I64_7B; L_I64_8B] then Ok (KInt I64)
  else if one_of b [L_U64_1B; L_U64_2B; L_U64_3B; L_U64_4B; L_U64_5B; L_U64_6B; L_U64_7B; L_U64_8B] then Ok (KInt U64)
  else if one_of b [L_ARR_0; L_ARR_1; L_ARR_2; L_ARR_3; L_ARR_4; L_ARR_5; L_ARR_6; L_ARR_7; L_ARR_8; L_ARR_9; L_ARR_10] then Ok KArray
  else Panic.
Definition peek_kind (c : cursor) : dec type_kind := let* b := cu_peek c in kind_of b.

(** A [match] from marker to number; [Panic] for the other markers. *)
Fixpoint pick (b : N) (l : list (list N * N)) : dec N :=
  match l with
  | [] => Panic
  | (ms, n) :: l' => if one_of b ms then Ok n else pick b l'
  end.
(** decoder.rs:158-177 *)
Definition decode_amount (c : cursor) : dec (primitive * cursor) :=
  let* (b, c) := cu_read_byte c in
  let* n := pick b [([L_AMOUNT_1B], 1); ([L_AMOUNT_2B], 2); ([L_AMOUNT_3B], 3); ([L_AMOUNT_4B], 4); ([L_AMOUNT_5B], 5); ([L_AMOUNT_6B], 6); ([L_AMOUNT_7B], 7); ([L_AMOUNT_8B], 8)] in
  let* (num, c) := read_num c n in
  Ok (PAmount num, c).
(** decoder.rs:179-187: the debug assertion of the marker. *)
Definition decode_i8 (c : cursor) : dec (Z * cursor) :=
  let* (b, c) := cu_read_byte c in
  if one_of b [L_I8; L_U8] then
    let* (num, c) := read_num c 1 in Ok (as_ity I8 (Z.of_N num), c)
  else Panic.
(** decoder.rs:195-207 *)
Definition decode_i16 (c : cursor) : dec (Z * cursor) :=
  let* (b, c) := cu_read_byte c in
  let* n := pick b [([L_I16_1B; L_U16_1B], 1); ([L_I16_2B; L_U16_2B], 2)] in
  let* (num, c) := read_num c n in Ok (as_ity I16 (Z.of_N num), c).
(** decoder.rs:215-229 *)
Definition decode_i32 (c : cursor) : dec (Z * cursor) :=
  let* (b, c) := cu_read_byte c in
  let* n := pick b [([L_I32_1B; L_U32_1B], 1); ([L_I32_2B; L_U32_2B], 2); ([L_I32_3B; L_U32_3B], 3); ([L_I32_4B; L_U32_4B], 4)] in
  let* (num, c) := read_num c n in Ok (as_ity I32 (Z.of_N num), c).
(** decoder.rs:237-255 *)
Definition decode_i64 (c : cursor) : dec (Z * cursor) :=
  let* (b, c) := cu_read_byte c in
  let* n := pick b [([L_I64_1B; L_U64_1B], 1); ([L_I64_2B; L_U64_2B], 2); ([L_I64_3B; L_U64_3B], 3); ([L_I64_4B; L_U64_4B], 4); ([L_I64_5B; L_U64_5B], 5); ([L_I64_6B; L_U64_6B], 6); ([L_I64_7B; L_U64_7B], 7); ([L_I64_8B; L_U64_8B], 8)] in
  let* (num, c) := read_num c n in Ok (as_ity I64 (Z.of_N num), c).
(** decoder.rs:179-261: the unsigned ones cast the result of the signed ones. *)
Definition decode_int (t : ity) (c : cursor) : dec (Z * cursor) :=
  let* (z, c) := match t with
    | I8 | U8 => decode_i8 c | I16 | U16 => decode_i16 c | I32 | U32 => decode_i32 c | I64 | U64 => decode_i64 c end in
  Ok (if ity_signed t then z else as_ity t z, c).
(** decoder.rs:87-108, 122-156 *)
Definition decode_primitive (c : cursor) : dec (primitive * cursor) :=
  let* k := peek_kind c in
  match k with
  | KNone => let* (b, c) := cu_read_byte c in if b =? L_NONE then Ok (PNone, c) else Panic
  | KUnit => let* (b, c) := cu_read_byte c in if b =? L_UNIT then Ok (PUnit, c) else Panic
  | KBool =>
      let* (b, c) := cu_read_byte c in
      if b =? L_BOOL_FALSE then Ok (PBool false, c) else if b =? L_BOOL_TRUE then Ok (PBool true, c) else Panic
  | KAddress =>
      let* (b, c) := cu_read_byte c in
      if b =? L_ADDRESS then let* (a, c) := cu_read_bytes c 20 in Ok (PAddress a, c) else Panic
  | KAmount => decode_amount c
  | KInt t => let* (z, c) := decode_int t c in Ok (PInt t z, c)
  | KArray => Panic
  end.
(** decoder.rs:284-289: the loop of [decode_array], [n] elements left. *)
Fixpoint decode_elements (n : nat) (vs : fvec value) (c : cursor) : dec (fvec value * cursor) :=
  match n with
  | O => Ok (vs, c)
  | S n' =>
      let* (p, c) := decode_primitive c in
      match vec_push vs (VPrim p) with
      | Some vs => decode_elements n' vs c
      | None => Panic
      end
  end.
(** decoder.rs:263-294: the capacity of the vector is the marker. *)
Definition decode_array (c : cursor) : dec (value * cursor) :=
  if is_eof c then Err MissingTypeKind else
  let* (b, c) := cu_read_byte c in
  let vs := vec_with_capacity b in
  let* n := pick b [([L_ARR_0], 0); ([L_ARR_1], 1); ([L_ARR_2], 2); ([L_ARR_3], 3); ([L_ARR_4], 4); ([L_ARR_5], 5); ([L_ARR_6], 6); ([L_ARR_7], 7); ([L_ARR_8], 8); ([L_ARR_9], 9); ([L_ARR_10], 10)] in
  let* (vs, c) := decode_elements (N.to_nat n) vs c in
  match vec_as_slice vs with Some l => Ok (VVec l, c) | None => Panic end.
(** decoder.rs:75-85, 110-120 *)
Definition decode_value (c : cursor) : dec (value * cursor) :=
  if is_eof c then Err MissingTypeKind else
  let* k := peek_kind c in
  match k with
  | KArray => let* k := peek_kind c in match k with KArray => decode_array c | _ => Panic end
  | _ => let* (p, c) := decode_primitive c in Ok (VPrim p, c)
  end.

(** calldata.rs:17-22 *)
Definition calldata_new (bs : bytes) : cursor := mkCursor bs 0.
(** calldata.rs:42-53; the outer option is the abort. *)
Definition calldata_next (c : cursor) : option (option (value * cursor)) :=
  if is_eof c then Some None
  else match decode_value c with Ok r => Some (Some r) | Err _ | Panic => None end.

(* ------------------------------------------------------------------------- *)
(** * Rust values and types *)

(** The primitive types with conversions from and to [Value]: value.rs:107-122, 156-171 *)
Inductive pty : Type := YBool | YAmount | YAddress | YInt (t : ity).
(** The types a function's argument can have: value.rs:124-222 *)
Inductive aty : Type := YUnit | YPrim (t : pty) | YOption (t : pty) | YArray (t : pty) (n : N).
(** A value of such a type. *)
Inductive rust : Type := RUnit | RPrim (p : primitive) | ROption (o : option primitive) | RArray (l : list primitive).

(** value.rs:124-145: the variant of the type, else an abort. *)
Definition prim_is (t : pty) (p : primitive) : bool :=
  match t, p with
  | YBool, PBool _ | YAmount, PAmount _ | YAddress, PAddress _ => true
  | YInt I8, PInt I8 _ | YInt U8, PInt U8 _ | YInt I16, PInt I16 _ | YInt U16, PInt U16 _
  | YInt I32, PInt I32 _ | YInt U32, PInt U32 _ | YInt I64, PInt I64 _ | YInt U64, PInt U64 _ => true
  | _, _ => false
  end.
Definition into_prim (t : pty) (v : value) : option primitive :=
  match v with VPrim p => if prim_is t p then Some p else None | VVec _ => None end.
Fixpoint into_prims (t : pty) (vs : list value) : option (list primitive) :=
  match vs with
  | [] => Some []
  | v :: vs' => let? p := into_prim t v in let? ps := into_prims t vs' in Some (p :: ps)
  end.
(** value.rs:126-154, 189-208 *)
Definition from_value (t : aty) (v : value) : option rust :=
  match t with
  | YUnit => match v with VPrim PUnit => Some RUnit | _ => None end
  | YPrim t => let? p := into_prim t v in Some (RPrim p)
  | YOption t =>
      match v with
      | VPrim PNone => Some (ROption None)
      | _ => let? p := into_prim t v in Some (ROption (Some p))
      end
  | YArray t n =>
      match v with
      | VVec vs => let? _ := ensure (nlen vs =? n) in let? ps := into_prims t vs in Some (RArray ps)
      | VPrim _ => None
      end
  end.
(** calldata.rs:70-174: [next_1] to [next_6] read the values first, then convert them. *)
Fixpoint next_values (n : nat) (c : cursor) : option (list value * cursor) :=
  match n with
  | O => Some ([], c)
  | S n' =>
      let? r := calldata_next c in
      let? (v, c) := r in
      let? (vs, c) := next_values n' c in
      Some (v :: vs, c)
  end.
Fixpoint from_values (ts : list aty) (vs : list value) : option (list rust) :=
  match ts, vs with
  | t :: ts', v :: vs' => let? r := from_value t v in let? rs := from_values ts' vs' in Some (r :: rs)
  | _, _ => Some []
  end.
Definition next_tuple (ts : list aty) (c : cursor) : option (list rust * cursor) :=
  let? (vs, c) := next_values (length ts) c in
  let? rs := from_values ts vs in
  Some (rs, c).

(** The encoders of the Rust types: option.rs:5-17, small_array.rs:21-29, the others above. *)
Definition encode_rust (r : rust) (w : fvec N) : option (fvec N) :=
  match r with
  | RUnit => vec_push w L_UNIT
  | RPrim p => encode_primitive p w
  | ROption None => vec_push w L_NONE
  | ROption (Some p) => encode_primitive p w
  | RArray l => encode_slice encode_primitive l w
  end.
(** tuples.rs: the fields in order. *)
Definition encode_tuple (rs : list rust) (w : fvec N) : option (fvec N) :=
  fold_left (fun w r => let? w := w in encode_rust r w) rs (Some w).

(** The sizes: boolean.rs:15-23, amount.rs:21-30, address.rs:18-26, numeric.rs:47-70 *)
Definition prim_byte_size (p : primitive) : N :=
  match p with
  | PNone | PUnit | PBool _ => 1
  | PAddress _ => 21
  | PAmount n => u64_byte_size n
  | PInt t z => int_byte_size t z
  end.
Definition prim_max_byte_size (t : pty) : N :=
  match t with
  | YBool => 1
  | YAmount => u64_byte_size u64_max
  | YAddress => 21
  | YInt t => int_max_byte_size t
  end.
(** small_array.rs:35-48: the loop over 0..11, [i] next; [N >= i] lets [self[N]] be read. *)
Fixpoint array_byte_size_loop (rounds : nat) (i : N) (l : list primitive) (acc : N) : option N :=
  match rounds with
  | O => Some (1 + acc)
  | S r =>
      let? acc := if i <=? nlen l then let? p := nth_error l (N.to_nat i) in Some (acc + prim_byte_size p) else Some acc in
      array_byte_size_loop r (i + 1) l acc
  end.
Definition array_byte_size (l : list primitive) : option N :=
  let? _ := ensure (nlen l <? 11) in array_byte_size_loop 11 0 l 0.
(** option.rs:23-28, unit.rs:9-13, small_array.rs:35-48; [None]: an abort. *)
Definition byte_size (r : rust) : option N :=
  match r with
  | RUnit => Some 1
  | RPrim p => Some (prim_byte_size p)
  | ROption None => Some 1
  | ROption (Some p) => Some (prim_byte_size p)
  | RArray l => array_byte_size l
  end.
(** unit.rs:14-16, option.rs:30-32, small_array.rs:50-52 *)
Definition max_byte_size (t : aty) : N :=
  match t with
  | YUnit => 1
  | YPrim t => prim_max_byte_size t
  | YOption t => prim_max_byte_size t
  | YArray t n => 1 + prim_max_byte_size t * n
  end.
(** tuples.rs: sums. *)
Definition tuple_byte_size (rs : list rust) : option N :=
  fold_right (fun r n => let? s := byte_size r in let? n := n in Some (s + n)) (Some 0) rs.
Definition tuple_max_byte_size (ts : list aty) : N := fold_right (fun t n => max_byte_size t + n) 0 ts.
