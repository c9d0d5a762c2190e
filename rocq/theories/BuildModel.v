(** The SDK in builds with and without the compiler's run-time checks.  SdkModel.v is the SDK with
    them ([debug_assert!]s and arithmetic overflow abort).  The templates of the repository are built
    without: crates/host/runtime-ffi/tests/wasm/counter/Cargo.toml:13-19 (overflow-checks = false,
    debug-assertions = false).  The functions below have both builds; they are those functions of
    SdkModel.v in which the builds may differ, and those which use them.
    Paths below are under crates/wasm. *)
From Coq Require Import String List NArith ZArith Arith Bool Lia.
From Verif Require Import Base Text SdkModel.
Import ListNotations.
Open Scope list_scope.
Open Scope N_scope.

(** [debug_assert!] *)
Definition debug_assert (checks b : bool) : option unit := if checks then ensure b else Some tt.
(** Built-in arithmetic on [u8] and on 32 bits (u32, and usize of wasm32). *)
Definition u8_op (checks : bool) (n : N) : option N :=
  if n <? 256 then Some n else if checks then None else Some (n mod 256).
Definition u32_op (checks : bool) (n : N) : option N :=
  if n <=? u32_max then Some n else if checks then None else Some (n mod 2 ^ 32).

(** sdk-std/src/string/mod.rs:73-95: the loops look at the first eight bytes. *)
Definition short_inner (checks : bool) (data : bytes) (safe : bool) : option sstring :=
  let? _ := debug_assert checks (nlen data <=? 8) in
  let? _ := if safe then all_ascii (firstn 8 data) else Some tt in
  Some (Short (firstn 8 data ++ repeat 0 (8 - List.length data)%nat) (nlen data)).
(** string/mod.rs:33-35, 43-45, 52-58 *)
Definition byte_string (checks : bool) (b : N) : option sstring := short_inner checks [b] true.
Definition short_string (checks : bool) (data : bytes) : option sstring := short_inner checks data true.
Definition unchecked_string (checks : bool) (data : fvec N) : option sstring :=
  if fv_len data <=? 8
  then let? s := vec_as_slice data in short_inner checks s false
  else Some (Long data).

(** string/digit.rs:26-34 *)
Definition dec_digit (checks : bool) (d : N) : option sstring :=
  let? _ := debug_assert checks (d <? 10) in
  let? b := u8_op checks (d + 48) in
  byte_string checks b.
(** string/digit.rs:11-24 *)
Definition hex_digit (checks : bool) (d : N) : option sstring :=
  let? _ := debug_assert checks (d <? 16) in
  if d <? 10 then dec_digit checks d
  else let? b := u8_op checks (d - 10 + 65) in byte_string checks b.

(** string/traits.rs:51-60, 44-63, 10-31, as [concat_loop], [concat_digits] and [num_as_string] of SdkModel.v;
    the [debug_assert!]s of lines 24 and 39. *)
Fixpoint digits_loop (checks : bool) (n : nat) (k : N) (digits : list N) (used : N) (sb : fvec N) : option (fvec N) :=
  match n with
  | O => Some sb
  | S n' =>
      if k <? used then
        let? d := nth_error digits (N.to_nat (used - k - 1)) in
        let? s := dec_digit checks d in
        let? sb' := push_str sb s in
        digits_loop checks n' (k + 1) digits used sb'
      else Some sb
  end.
Definition digits_string (checks : bool) (digits : list N) (used : N) (negative : bool) : option sstring :=
  let sb := vec_with_capacity 21 in
  let? sb := if negative then let? s := byte_string checks 45 in push_str sb s else Some sb in
  let? sb := digits_loop checks 20 0 digits used sb in
  unchecked_string checks sb.
Fixpoint number_loop (checks : bool) (n : nat) (value : N) (digits : list N) (used : N) (negative : bool) : option sstring :=
  match n with
  | O => None
  | S n' =>
      let '(d, value', completed) := next_digit value in
      let? _ := debug_assert checks (d <? 10) in
      let? digits' := array_set digits (N.to_nat used) d in
      if completed : bool then
        let? _ := debug_assert checks (value' =? 0) in
        digits_string checks digits' (used + 1) negative
      else number_loop checks n' value' digits' (used + 1) negative
  end.
Definition number_string (checks : bool) (num : N) (negative : bool) : option sstring :=
  number_loop checks 21 num (repeat 0 20) 0 negative.
(** string/traits.rs:65-119 *)
Definition show_unsigned (checks : bool) (n : N) : option sstring := number_string checks n false.
Definition show_signed (checks : bool) (z : Z) : option sstring := number_string checks (Z.to_N (Z.abs z)) (z <? 0)%Z.

(** sdk-types/src/amount.rs:127-136 *)
Definition show_amount (checks : bool) (n : N) : option sstring :=
  let sb := vec_with_capacity 26 in
  let? s := show_unsigned checks n in
  let? sb := push_str sb s in
  let? u := short_string checks (txt " coins") in
  let? sb := push_str sb u in
  unchecked_string checks sb.
(** sdk-types/src/layer_id.rs:15-25 *)
Definition show_layer (checks : bool) (n : N) : option sstring :=
  let sb := vec_with_capacity (20 + 6) in
  let? s := show_unsigned checks n in
  let? u := short_string checks (txt "[Layer ") in
  let? sb := push_str sb u in
  let? sb := push_str sb s in
  let? c := byte_string checks 93 in
  let? sb := push_str sb c in
  unchecked_string checks sb.
(** sdk-types/src/blob.rs:137-158 *)
Fixpoint hex_loop (checks : bool) (sb : fvec N) (bs : bytes) : option (fvec N) :=
  match bs with
  | [] => Some sb
  | b :: bs' =>
      let left := N.shiftr (N.land b 240) 4 in
      let right := N.land b 15 in
      let? l := hex_digit checks left in
      let? sb := push_str sb l in
      let? r := hex_digit checks right in
      let? sb := push_str sb r in
      hex_loop checks sb bs'
  end.
Definition show_address (checks : bool) (a : bytes) : option sstring :=
  let sb := vec_with_capacity (2 + 20 * 2) in
  let? u := short_string checks (txt "0x") in
  let? sb := push_str sb u in
  let? sb := hex_loop checks sb a in
  unchecked_string checks sb.

(** sdk-storage/src/lib.rs:173-182 *)
Definition array_cell (checks : bool) (var_id index length : N) : option N :=
  let index := index mod 2 ^ 32 in
  if length <=? index then None else u32_op checks (var_id + index).
(** sdk-std/src/vec.rs:158-163 [alloc]: how many bytes are asked for. *)
Definition vec_bytes (checks : bool) (item_size cap : N) : option N := u32_op checks (item_size * cap).
