(** Model of the client's view of an account's storage: crates/host/query/src (schema.rs,
    query.rs, render.rs). *)
From Coq Require Import String List NArith ZArith Bool.
From Verif Require Import Base Text JsonModel.
Import ListNotations.
Open Scope string_scope.
Open Scope list_scope.
Open Scope N_scope.

(** schema.rs:36-54 *)
Inductive var_type : Type := TBool | TInt (signed : bool) | TBlob | TBalance | TPubKey | TAddress.
(** schema.rs:7-32; the name and the description are for display only and left out. *)
Record qvar : Type := mkQvar { q_id : N; q_offset : N; q_length : N; q_type : var_type }.
(** schema.rs:58-75: a hash map, as a list with the newest first; [add_var] replaces. *)
Definition schema := list (N * qvar).
Definition schema_new : schema := [].
Definition add_var (s : schema) (v : qvar) : schema := (q_id v, v) :: filter (fun e => negb (fst e =? q_id v)) s.
Definition schema_var (s : schema) (id : N) : option qvar := option_map snd (find (fun e => fst e =? id) s).

(** byteorder 1.4.3, BigEndian::read_uint: [None] for the failed assertion
    [1 <= nbytes && nbytes <= 8 && nbytes <= buf.len()]. *)
Definition read_uint (buf : bytes) (nbytes : N) : option N :=
  if (1 <=? nbytes) && (nbytes <=? 8) && (nbytes <=? nlen buf) then Some (be_value (firstn (N.to_nat nbytes) buf)) else None.
(** read_int: read_uint and extend_sign, [((val << shift) as i64) >> shift] with
    [shift = (8 - nbytes) * 8] *)
Definition as_i64 (n : N) : Z := if n <? 2 ^ 63 then Z.of_N n else (Z.of_N n - 2 ^ 64)%Z.
Definition extend_sign (val nbytes : N) : Z :=
  let shift := (8 - nbytes) * 8 in
  (as_i64 (N.shiftl val shift mod 2 ^ 64) / 2 ^ Z.of_N shift)%Z.
Definition read_int (buf : bytes) (nbytes : N) : option Z :=
  let? n := read_uint buf nbytes in Some (extend_sign n nbytes).

(** render.rs:33-55 render_int.  The outer [option] is a panic, the inner one Rust's. *)
Definition render_int (v : qvar) (bs : bytes) (signed : bool) : option (option json) :=
  let length := q_length v in
  if 8 <? length then Some None else
  let nbytes := nlen bs in
  (** the slices of line 44 need [length <= nbytes] *)
  if nbytes <? length then None else
  let buf := firstn (N.to_nat length) bs ++ repeat 0 (N.to_nat (nbytes - length)) in
  if signed then let? z := read_int buf nbytes in Some (Some (JNum z))
  else let? n := read_uint buf nbytes in Some (Some (JNum (Z.of_N n))).
(** render.rs:61-71 render_bool *)
Definition render_bool (bs : bytes) : option (option json) :=
  match bs with
  | [0] => Some (Some (JBool false))
  | [1] => Some (Some (JBool true))
  | [_] => Some None
  | _ => None
  end.
(** render.rs:85-90 render_hex *)
Definition render_hex (bs : bytes) (prefix : bytes) : option (option json) := Some (Some (JStr (prefix ++ hex_upper bs))).
(** render.rs:20-29 render, with 57-59 (render_balance is a [todo!]), 73-83 *)
Definition render (v : qvar) (bs : bytes) : option (option json) :=
  match q_type v with
  | TInt signed => render_int v bs signed
  | TBool => render_bool bs
  | TBlob => render_hex bs []
  | TBalance => None
  | TAddress => render_hex bs (txt "0x")
  | TPubKey => render_hex bs (txt "0x")
  end.

(** query.rs:41-58: the storage is the implementor's; [raw] is its [read_var_raw], which may
    change it.  A request is its [var_id]; its kind has one value and its parameters are only
    passed to [read_var_raw] (query.rs:21-30). *)
Definition read_var {St : Type} (raw : St -> N -> qvar -> option bytes * St) (s : schema) (st : St) (id : N) : option (option json) * St :=
  match schema_var s id with
  | None => (Some None, st)
  | Some v =>
      let (bs, st) := raw st id v in
      match bs with
      | None => (Some None, st)
      | Some bs => (render v bs, st)
      end
  end.
(** query.rs:79-91 run; a panic ends it. *)
Fixpoint run_query {St : Type} (raw : St -> N -> qvar -> option bytes * St) (s : schema) (ids : list N) (st : St)
  : option (list (option json)) * St :=
  match ids with
  | [] => (Some [], st)
  | id :: ids' =>
      let (r, st) := read_var raw s st id in
      match r with
      | None => (None, st)
      | Some j => let (l, st) := run_query raw s ids' st in (option_map (cons j) l, st)
      end
  end.
