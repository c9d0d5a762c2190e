(** Model of crates/host/state/src/{global_state,template_storage,account_storage}.rs:
    typed access to the layered store.

    A [GlobalState] is a handle on one shared [Storage] behind a mutex; the functions below
    take and return that storage.  Mutex poisoning after a panic is not modelled: a state
    after [Panic] is the state in which the panic left the storage. *)
From Coq Require Import String.
From Coq Require Import List NArith ZArith Bool.
From Verif Require Import Base CodecModel ReceiptModel LayoutModel SectionModel StorageModel Text.
Import ListNotations.
Open Scope N_scope.

(** state/src/error.rs: the errors these functions return. *)
Inductive gs_error := GStorage (e : storage_error) | GNotFound | GIllegalData.

(** global_state.rs:17-22 [GlobalState], without the genesis state (only logged). *)
Record gstate := mkGstate { gs_storage : storage; gs_layer_param : option N }.

(** A call on the global state: its outcome and the global state it leaves behind. *)
Definition gm (A : Type) := gstate -> outcome gs_error A * gstate.
Definition gret {A} (a : A) : gm A := fun g => (Ok a, g).
Definition gpanic {A} : gm A := fun g => (Panic, g).
Definition gerr {A} (e : gs_error) : gm A := fun g => (Err e, g).
Definition gbind {A B} (m : gm A) (k : A -> gm B) : gm B := fun g =>
  match m g with
  | (Ok a, g') => k a g'
  | (Err e, g') => (Err e, g')
  | (Panic, g') => (Panic, g')
  end.
Notation "'let!' p ':=' m 'in' k" := (gbind m (fun p => k))
  (at level 200, p strict pattern, m at level 100, k at level 200).

(** [Option::unwrap] and friends. *)
Definition gsome {A} (o : option A) : gm A := match o with Some a => gret a | None => gpanic end.
(** [Result::unwrap]. *)
Definition gunwrap {A} (m : gm A) : gm A := fun g =>
  match m g with
  | (Err _, g') => (Panic, g')
  | r => r
  end.

Definition lift {A} (o : outcome storage_error A) : outcome gs_error A :=
  match o with Ok a => Ok a | Err e => Err (GStorage e) | Panic => Panic end.

(** [as i64] of a u64. *)
Definition as_i64 (n : N) : Z :=
  if n <? 2 ^ 63 then Z.of_N n else (Z.of_N n - 2 ^ 64)%Z.

(** [Storage::get] with the given layer, [Storage::upsert] of the shared storage. *)
Definition gs_get (e : env) (key : bytes) (layer : option Z) : gm (option bytes) := fun g =>
  (lift (get e (gs_storage g) key layer), g).
Definition gs_upsert (e : env) (key v : bytes) : gm unit := fun g =>
  (Ok tt, mkGstate (upsert e (gs_storage g) key v) (gs_layer_param g)).

(** global_state.rs:170-188 read_and_decode *)
Definition read_and_decode {A} (e : env) (dec : decoder A) (key : bytes) : gm A := fun g =>
  (let! o := gs_get e key (option_map as_i64 (gs_layer_param g)) in
   match o with
   | None => gerr GNotFound
   | Some bs =>
     match dec bs with
     | Ok (a, _) => gret a
     | Err _ => gerr GIllegalData
     | Panic => gpanic
     end
   end) g.

(** global_state.rs:190-197 encode_and_write *)
Definition encode_and_write {A} (e : env) (enc : encoder A) (x : A) (key : bytes) : gm unit :=
  let! bs := gsome (enc x) in gs_upsert e key bs.

(** global_state.rs:199-208 replace *)
Definition replace {A} (e : env) (dec : decoder A) (enc : encoder A) (key : bytes) (f : A -> A) : gm unit :=
  let! x := read_and_decode e dec key in
  encode_and_write e enc (f x) key.

(** global_state.rs:111-114 checkpoint, 134-137 rollback, 157-159 has_uncommitted_changes *)
Definition gs_checkpoint (e : env) : gm unit := fun g =>
  (Ok tt, mkGstate (checkpoint e (gs_storage g)) (gs_layer_param g)).
Definition gs_rollback : gm unit := fun g =>
  (Ok tt, mkGstate (rollback (gs_storage g)) (gs_layer_param g)).
Definition gs_has_uncommitted_changes (g : gstate) : bool :=
  match st_dirty (gs_storage g) with [] => false | _ => true end.

(** [i64 -> u64] try_into().unwrap() *)
Definition layer_of (z : Z) : option N := if (z <? 0)%Z then None else Some (Z.to_N z).

(** storage.rs:253 commit on the shared storage *)
Definition gs_commit_raw (e : env) : gm (Z * bytes) := fun g =>
  let (o, s) := commit e (gs_storage g) in (lift o, mkGstate s (gs_layer_param g)).
(** global_state.rs:120-123 commit *)
Definition gs_commit (e : env) : gm (N * bytes) :=
  let! (id, fp) := gs_commit_raw e in
  let! l := gsome (layer_of id) in
  gret (l, fp).
(** global_state.rs:127-130 current_layer *)
Definition gs_current_layer : gm (N * bytes) := fun g =>
  (let! (id, fp) := (fun g => (lift (last_layer (gs_storage g)), g)) in
   let! l := gsome (layer_of id) in
   gret (l, fp)) g.
(** global_state.rs:148-153 rewind; try_into().unwrap() panics over i64::MAX. *)
Definition gs_rewind (l : N) : gm unit := fun g =>
  if l <? 2 ^ 63 then
    let (o, s) := rewind (gs_storage g) (Z.of_N l) in (lift o, mkGstate s (gs_layer_param g))
  else (Panic, g).

(* ------------------------------------------------------------------------------------ *)
(** * Templates *)

(** template_storage.rs:68-74 *)
Definition key_core (addr : bytes) : bytes := txt "templates:" ++ hex_upper addr ++ txt ":core".
Definition key_noncore (addr : bytes) : bytes := txt "templates:" ++ hex_upper addr ++ txt ":noncore".

(** template_storage.rs:27-42 create *)
Definition template_create (e : env) (addr : bytes) (core noncore : sections) : gm unit :=
  let! _ := encode_and_write e enc_sections core (key_core addr) in
  encode_and_write e enc_sections noncore (key_noncore addr).

(** template_storage.rs:51-56 set_core, 60-65 set_noncore *)
Definition template_set_core (e : env) (addr : bytes) (l : sections) : gm unit :=
  encode_and_write e enc_sections l (key_core addr).
Definition template_set_noncore (e : env) (addr : bytes) (l : sections) : gm unit :=
  encode_and_write e enc_sections l (key_noncore addr).

(** template_storage.rs:76-85 read_sections, 45-47 sections *)
Definition merge_sections (core noncore : sections) : sections :=
  fold_left (fun acc s => insert_section s acc) noncore core.
Definition template_sections (e : env) (addr : bytes) : gm sections :=
  let! core := read_and_decode e (dec_sections None) (key_core addr) in
  let! noncore := read_and_decode e (dec_sections None) (key_noncore addr) in
  gret (merge_sections core noncore).

(** global_state.rs:50-95 init_genesis.  The HashMap of templates is a list in its order of
    iteration; [debug_assert] on the last layer (line 85) follows from the one on [layer_id]. *)
Fixpoint create_templates (e : env) (ts : list (bytes * sections)) : gm unit :=
  match ts with
  | [] => gret tt
  | (addr, l) :: r =>
    let! (core, noncore) := gsome (remove_noncore l) in
    let! _ := template_create e addr core noncore in
    create_templates e r
  end.
Definition init_genesis (e : env) (ts : list (bytes * sections)) : gm unit := fun g =>
  match genesis_fingerprint (gs_storage g) with
  | Some _ => (Ok tt, g)
  | None =>
    (let! _ := create_templates e ts in
     let! _ := gs_checkpoint e in
     let! (id, _) := gs_commit_raw e in
     if (id =? -1)%Z then gret tt else gpanic) g
  end.

(** global_state.rs:26-42 new, on the contents of the database file; [None] = panic. *)
Definition gs_new (e : env) (d : db) (ts : list (bytes * sections)) : option gstate :=
  match open_db d with
  | Ok s =>
    match init_genesis e ts (mkGstate s None) with
    | (Ok _, g) => Some g
    | _ => None
    end
  | _ => None
  end.

(* ------------------------------------------------------------------------------------ *)
(** * Accounts *)

(** account_storage.rs:395-397, 438-440, 323-329 *)
Definition key_immutable (addr : bytes) : bytes := txt "accounts:" ++ hex_upper addr ++ txt ":immutable".
Definition key_mutable (addr : bytes) : bytes := txt "accounts:" ++ hex_upper addr ++ txt ":mutable".
Definition key_segment (addr : bytes) (n : N) : bytes :=
  txt "accounts:" ++ hex_upper addr ++ txt ":var_segments:" ++ decimal n.

(** account_storage.rs:389-392, 399-430 [AccountData] *)
Record account_data := mkAccountData { ad_name : bytes; ad_template : bytes }.
Definition enc_account_data : encoder account_data := fun d =>
  let? v := enc_u8 0 in
  let? t := enc_array (ad_template d) in
  let? n := enc_string (ad_name d) in
  Some (v ++ t ++ n).
Definition dec_account_data : decoder account_data := fun bs =>
  let* (v, r) := dec_u8 bs in
  if negb (v =? 0) then Err (BadByte v)
  else
    let* (t, r) := dec_array ADDRESS_LEN r in
    let* (n, r) := dec_string r in
    Ok (mkAccountData n t, r).

(** account_storage.rs:432-435, 443-466 [AccountMut] *)
Record account_mut := mkAccountMut { am_balance : N; am_counter : N }.
Definition enc_account_mut : encoder account_mut := fun d =>
  let? v := enc_u8 0 in
  let? b := enc_u64 (am_balance d) in
  let? c := enc_u128 (am_counter d) in
  Some (v ++ b ++ c).
Definition dec_account_mut : decoder account_mut := fun bs =>
  let* (v, r) := dec_u8 bs in
  if negb (v =? 0) then Err (BadByte v)
  else
    let* (b, r) := dec_u64 r in
    let* (c, r) := dec_u128 r in
    Ok (mkAccountMut b c, r).

(** account_storage.rs:16-26 [AccountStorage]. *)
Record account := mkAccount { ac_addr : bytes; ac_template : bytes; ac_layout : fixed_layout }.

(** types/src/address.rs:17-21 stub *)
Definition stub_template : bytes := repeat 0 20.

(** account_storage.rs:331-340 template_layout *)
Definition template_layout (e : env) (taddr : bytes) : gm fixed_layout :=
  let! l := template_sections e taddr in
  match get_section KData l with
  | Some (SData (layout :: _)) => gret layout
  | _ => gpanic
  end.

Definition write_account (e : env) (addr name taddr : bytes) (balance counter : N) : gm unit :=
  let! _ := encode_and_write e enc_account_data (mkAccountData name taddr) (key_immutable addr) in
  encode_and_write e enc_account_mut (mkAccountMut balance counter) (key_mutable addr).

(** account_storage.rs:32-60 create_stub *)
Definition account_create_stub (e : env) (addr name : bytes) (balance counter : N) : gm account :=
  let! _ := write_account e addr name stub_template balance counter in
  gret (mkAccount addr stub_template default_layout).

(** account_storage.rs:63-91 create *)
Definition account_create (e : env) (addr name taddr : bytes) (balance counter : N) : gm account :=
  let! layout := template_layout e taddr in
  let! _ := write_account e addr name taddr balance counter in
  gret (mkAccount addr taddr layout).

(** account_storage.rs:94-104 load *)
Definition account_load (e : env) (addr : bytes) : gm account :=
  let! d := read_and_decode e dec_account_data (key_immutable addr) in
  let! layout := template_layout e (ad_template d) in
  gret (mkAccount addr (ad_template d) layout).

(** account_storage.rs:268-321 name, template_addr, balance, counter, set_balance,
    set_counter *)
Definition account_name (e : env) (addr : bytes) : gm bytes :=
  let! d := read_and_decode e dec_account_data (key_immutable addr) in gret (ad_name d).
Definition account_template (e : env) (addr : bytes) : gm bytes :=
  let! d := read_and_decode e dec_account_data (key_immutable addr) in gret (ad_template d).
Definition account_balance (e : env) (addr : bytes) : gm N :=
  let! d := read_and_decode e dec_account_mut (key_mutable addr) in gret (am_balance d).
Definition account_counter (e : env) (addr : bytes) : gm N :=
  let! d := read_and_decode e dec_account_mut (key_mutable addr) in gret (am_counter d).
Definition set_balance (e : env) (addr : bytes) (b : N) : gm unit :=
  replace e dec_account_mut enc_account_mut (key_mutable addr) (fun d => mkAccountMut b (am_counter d)).
Definition set_counter (e : env) (addr : bytes) (c : N) : gm unit :=
  replace e dec_account_mut enc_account_mut (key_mutable addr) (fun d => mkAccountMut (am_balance d) c).

(* ------------------------------------------------------------------------------------ *)
(** * Storage variables *)

(** account_storage.rs:11 *)
Definition SEGMENT_SIZE : N := 32.
(** account_storage.rs:342-353 [Segment]: its number and its inclusive byte range. *)
Record segment := mkSegment { sg_index : N; sg_start : N; sg_end : N }.
Definition sg_len (s : segment) : N := sg_end s - sg_start s + 1.

(** account_storage.rs:370-379, the loop of var_segments. *)
Fixpoint segments_loop (fuel : nat) (index remaining : N) : list segment :=
  match fuel with
  | O => []
  | S fuel' =>
    if remaining =? 0 then []
    else mkSegment (index + 1) 0 (N.min (SEGMENT_SIZE - 1) (remaining - 1))
         :: segments_loop fuel' (index + 1) (remaining - SEGMENT_SIZE)
  end.
(** account_storage.rs:355-387 var_segments; [None] = panic (subtraction underflow for an
    empty variable). *)
Definition var_segments (offset size : N) : option (list segment) :=
  if size =? 0 then None
  else
    let index := offset / SEGMENT_SIZE in
    let start := offset mod SEGMENT_SIZE in
    let fin := N.min (start + size - 1) (SEGMENT_SIZE - 1) in
    Some (mkSegment index start fin
          :: segments_loop (N.to_nat size) index (size - (fin - start + 1))).

Definition zero_segment : bytes := repeat 0 32.

(** account_storage.rs:132-139 and 219-226: a segment never written is all zeros; the read
    is always of the current value, whatever the layer parameter. *)
Definition read_segment (e : env) (addr : bytes) (n : N) : gm bytes :=
  let! o := gs_get e (key_segment addr n) None in
  match o with
  | None => gret zero_segment
  | Some bs => if nlen bs =? SEGMENT_SIZE then gret bs else gpanic
  end.

(** account_storage.rs:132-144, the loop of get_var. *)
Fixpoint read_segments (e : env) (addr : bytes) (segs : list segment) : gm bytes :=
  match segs with
  | [] => gret []
  | s :: r =>
    let! bs := read_segment e addr (sg_index s) in
    let part := firstn (N.to_nat (sg_len s)) (skipn (N.to_nat (sg_start s)) bs) in
    let! rest := read_segments e addr r in
    gret (part ++ rest)
  end.

(** account_storage.rs:218-235, the loop of set_var_bytes. *)
Fixpoint write_segments (e : env) (addr : bytes) (segs : list segment) (v : bytes) : gm unit :=
  match segs with
  | [] => gret tt
  | s :: r =>
    let! bs := read_segment e addr (sg_index s) in
    let part := firstn (N.to_nat (sg_len s)) v in
    let bs' := firstn (N.to_nat (sg_start s)) bs ++ part ++ skipn (N.to_nat (sg_end s + 1)) bs in
    let! _ := gs_upsert e (key_segment addr (sg_index s)) bs' in
    write_segments e addr r (skipn (N.to_nat (sg_len s)) v)
  end.

(** account_storage.rs:116-130 and 202-216: the checks before either loop.  The u32
    addition [offset + byte_size] panics on overflow. *)
Definition var_range (a : account) (id : N) (buffer_len : N) : option (N * list segment) :=
  let? v := layout_get (ac_layout a) id in
  if buffer_len <? rv_size v then None
  else if u32_max <? rv_offset v + rv_size v then None
  else
    let? segs := var_segments (rv_offset v) (rv_size v) in
    Some (rv_size v, segs).

(** account_storage.rs:115-148 get_var: the buffer after the call. *)
Definition get_var (e : env) (a : account) (id : N) (buffer : bytes) : gm bytes :=
  let! (size, segs) := gsome (var_range a id (nlen buffer)) in
  let! bs := read_segments e (ac_addr a) segs in
  gret (bs ++ skipn (N.to_nat size) buffer).

(** account_storage.rs:150-158 get_var_vec *)
Definition get_var_vec (e : env) (a : account) (id : N) : gm bytes :=
  let! v := gsome (layout_get (ac_layout a) id) in
  get_var e a id (repeat 0 (N.to_nat (rv_size v))).

(** account_storage.rs:168-173 get_var_array *)
Definition get_var_array (e : env) (a : account) (n : nat) (id : N) : gm bytes :=
  get_var e a id (repeat 0 n).

(** account_storage.rs:176-181 get_var_i64, 184-189 get_var_i32: little endian; the model
    returns the unsigned value of the same bytes. *)
Definition get_var_i64 (e : env) (a : account) (id : N) : gm N :=
  let! bs := get_var_array e a 8 id in gret (le_value bs).
Definition get_var_i32 (e : env) (a : account) (id : N) : gm N :=
  let! bs := get_var_array e a 4 id in gret (le_value bs).

(** account_storage.rs:201-238 set_var_bytes *)
Definition set_var_bytes (e : env) (a : account) (id : N) (v : bytes) : gm unit :=
  let! (size, segs) := gsome (var_range a id (nlen v)) in
  write_segments e (ac_addr a) segs (firstn (N.to_nat size) v).

(** account_storage.rs:241-244 set_var_i64, 247-250 set_var_i32 *)
Definition set_var_i64 (e : env) (a : account) (id n : N) : gm unit :=
  set_var_bytes e a id (le_bytes 8 n).
Definition set_var_i32 (e : env) (a : account) (id n : N) : gm unit :=
  set_var_bytes e a id (le_bytes 4 n).
