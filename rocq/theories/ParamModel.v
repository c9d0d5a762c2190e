(** Model of how a template's function reads parameters of every type: what the template macro
    generates (crates/wasm/sdk-macros/src/function/endpoint.rs) over the decoder working in the
    contract's own memory (crates/wasm/abi-decoder/src/decoder.rs).  EndpointModel has the case of
    primitive parameters.  Paths below are under crates/wasm.

    A decoded array is a vector of [Value]s in the contract's memory, and that memory is given out
    by the host.  So decoding writes to the memory that it reads from; the bytes of the call are
    read where the decoder reads them.

    Simplified: after the last element is written, the vector's elements are taken to be what was
    written (nothing is written in between), and the array made from them is not in the memory. *)
From Coq Require Import List NArith ZArith Bool.
From Verif Require Import Base StorageModel SdkModel AbiModel GlobalModel RuntimeModel TypedModel EndpointModel.
Import ListNotations.
Open Scope list_scope.
Open Scope N_scope.

(** sdk-types/src/value.rs:37-45 [Value]: how many bytes it takes, and the bytes of a primitive that
    was decoded at a position in the memory.  The Rust compiler chooses both. *)
Record vlayout : Type := mkVlayout { vl_size : N; vl_bytes : N -> primitive -> bytes }.

(** An error of the decoder and an abort are both an abort of the contract:
    abi-decoder/src/calldata.rs:48-52. *)
Definition cdec {A} (d : dec A) : code A := match d with Ok a => cret a | Err _ | Panic => cpanic end.
(** abi-decoder/src/cursor.rs: the cursor is a slice of the memory and an offset. *)
Definition cursor_at (base len offset : N) : code cursor :=
  let~ bs := mread base len in cret (mkCursor bs offset).

(** decoder.rs:284-289: [n] elements left of a vector at [p], [i] pushed; sdk-std/src/vec.rs:50-59 push.
    The answer is the elements, each with the position it was decoded at, and the cursor's offset. *)
Fixpoint read_elements (vl : vlayout) (base len p cap : N) (n : nat) (i offset : N) : code (list (N * primitive) * N) :=
  match n with
  | O => cret ([], offset)
  | S n' =>
      let~ c := cursor_at base len offset in
      let~ (v, c') := cdec (decode_primitive c) in
      if i <? cap then
        let~ _ := mwrite (p + i * vl_size vl) (vl_bytes vl (base + offset) v) in
        let~ (es, o) := read_elements vl base len p cap n' (i + 1) (cu_offset c') in
        cret ((base + offset, v) :: es, o)
      else cpanic
  end.
(** decoder.rs:270-282 *)
Definition array_count (b : N) : dec N :=
  pick b [([L_ARR_0], 0); ([L_ARR_1], 1); ([L_ARR_2], 2); ([L_ARR_3], 3); ([L_ARR_4], 4); ([L_ARR_5], 5); ([L_ARR_6], 6); ([L_ARR_7], 7); ([L_ARR_8], 8); ([L_ARR_9], 9); ([L_ARR_10], 10)].

(** sdk-types/src/value.rs:124-154: the parameter made from a primitive. *)
Definition held_prim (t : pty) (position : N) (p : primitive) : option held :=
  let? p := into_prim t (VPrim p) in held_at position p.
Definition prim_arg (t : aty) (position : N) (p : primitive) : option hval :=
  match t with
  | YUnit => match p with PUnit => Some HUnit | _ => None end
  | YPrim t => let? h := held_prim t position p in Some (HVal h)
  | YOption t =>
      match p with
      | PNone => Some (HOpt None)
      | _ => let? h := held_prim t position p in Some (HOpt (Some h))
      end
  | YArray _ _ => None
  end.
(** value.rs:189-208: the parameter made from an array. *)
Fixpoint held_prims (t : pty) (es : list (N * primitive)) : option (list held) :=
  match es with
  | [] => Some []
  | (q, p) :: es' => let? h := held_prim t q p in let? hs := held_prims t es' in Some (h :: hs)
  end.
Definition array_arg (t : aty) (es : list (N * primitive)) : option hval :=
  match t with
  | YArray t n => let? _ := ensure (nlen es =? n) in let? hs := held_prims t es in Some (HArr hs)
  | _ => None
  end.

(** abi-decoder/src/calldata.rs:70-76 next_1 over 42-53 next and decoder.rs:75-120, 263-294: the
    capacity of the vector is the marker (decoder.rs:266-268). *)
Definition read_arg (vl : vlayout) (base len : N) (t : aty) (offset : N) : code (hval * N) :=
  let~ c := cursor_at base len offset in
  if is_eof c then cpanic else
  let~ k := cdec (peek_kind c) in
  match k with
  | KArray =>
      let~ (b, c) := cdec (cu_read_byte c) in
      let~ p := sdk_alloc (b * vl_size vl) in
      let~ n := cdec (array_count b) in
      let~ (es, o) := read_elements vl base len p b (N.to_nat n) 0 (cu_offset c) in
      let~ h := csome (array_arg t es) in
      cret (h, o)
  | _ =>
      let~ (v, c') := cdec (decode_primitive c) in
      let~ h := csome (prim_arg t (base + offset) v) in
      cret (h, cu_offset c')
  end.
(** sdk-macros/src/function/endpoint.rs:73-85: [let pat: ty = calldata.next_1();] for each parameter. *)
Fixpoint read_all (vl : vlayout) (base len : N) (ts : list aty) (offset : N) : code (list hval) :=
  match ts with
  | [] => cret []
  | t :: ts' =>
      let~ (h, o) := read_arg vl base len t offset in
      let~ hs := read_all vl base len ts' o in
      cret (h :: hs)
  end.
(** endpoint.rs:57-96 expand_prologue, sdk-host-ffi/src/ext.rs:168-176 calldata *)
Definition prologue_any (vl : vlayout) (ts : list aty) : code (list hval) :=
  match ts with
  | [] => cret []
  | _ =>
      let~ base := host HCalldataOffset in
      let~ len := host HCalldataLen in
      read_all vl base len ts 0
  end.
(** endpoint.rs:10-55 expand *)
Definition endpoint_any (vl : vlayout) (ts : list aty) (ret : option (list aty)) (body : list hval -> code (list hval)) : code unit :=
  let~ args := prologue_any vl ts in
  let~ vs := body args in
  epilogue ret vs.
