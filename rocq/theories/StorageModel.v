(** Model of crates/host/state/src/storage.rs: the layered key-value store.

    SQLite is modelled by the contents of its two tables and by the effect of exactly the
    statements the code issues; the UNIQUE, FOREIGN KEY and ON DELETE CASCADE clauses of
    resources/schema.sql are honoured (sqlx enables foreign keys by default).  Row ids of
    "values" are not represented: no statement reads them.  I/O failures of SQLite are
    modelled by [failed_commit] below; elsewhere statements do not fail except for
    constraint violations and missing rows.  Layer ids are [Z] (the code uses i64, which
    cannot overflow before 2^63 commits). *)
From Coq Require Import List NArith ZArith Bool.
From Verif Require Import Base CodecModel ReceiptModel.
Import ListNotations.
Open Scope Z_scope.

(** state/src/storage.rs:24 [type Changes = HashMap<State, Vec<u8>>], as an association
    list; the key is the 32-byte hash. *)
Definition changes := list (bytes * bytes).

(** [HashMap::get] *)
Fixpoint ch_get (k : bytes) (c : changes) : option bytes :=
  match c with
  | [] => None
  | (k', v) :: c' => if bytes_eqb k k' then Some v else ch_get k c'
  end.

(** [HashMap::insert] *)
Fixpoint ch_insert (k v : bytes) (c : changes) : changes :=
  match c with
  | [] => [(k, v)]
  | (k', v') :: c' => if bytes_eqb k k' then (k, v) :: c' else (k', v') :: ch_insert k v c'
  end.

(** resources/schema.sql:3-8 table "layers" *)
Record layer_row := mkLayerRow { lr_id : Z; lr_fp : bytes; lr_complete : bool }.
(** resources/schema.sql:10-17 table "values" *)
Record value_row := mkValueRow { vr_key : bytes; vr_value : bytes; vr_layer : Z }.
Record db := mkDb { db_layers : list layer_row; db_values : list value_row }.

(** The database after running resources/schema.sql on an empty file. *)
Definition empty_db : db := mkDb [] [].

(** storage.rs:29-30 *)
Definition state_zeros : bytes := repeat 0%N 32.
Definition state_ones : bytes := repeat 255%N 32.
(** storage.rs:36-37 *)
Definition initial_layer_id : Z := -2.
Definition initial_layer_state : bytes := state_zeros.

(** storage.rs:40-44, 53-57: [NextLayer] is inlined in [Storage]. *)
Record storage := mkStorage {
  st_db : db;
  st_dirty : changes;
  st_next_id : Z;
  st_changes : changes;
  st_xor : bytes }.

(** What the code does not determine itself: the Blake3 hash and the (arbitrary) order in
    which a [HashMap] is iterated. *)
Record env := mkEnv { env_hash : bytes -> bytes; env_iter : changes -> changes }.

(** state/src/error.rs: only the variants used here. *)
Inductive storage_error := EDirtyChanges | ESqlite.

(* ------------------------------------------------------------------------------------ *)
(** * SQL statements *)

(** "ORDER BY layer_id DESC LIMIT 1".  SQLite does not specify which of several rows with
    the same layer comes first; the model takes the first one in table order. *)
Fixpoint pick_latest (rows : list value_row) : option value_row :=
  match rows with
  | [] => None
  | r :: rest =>
    match pick_latest rest with
    | None => Some r
    | Some r' => if vr_layer r' <=? vr_layer r then Some r else Some r'
    end
  end.

(** storage.rs:177-189.  The join condition does not relate "values"."layer_id" to
    "layers"."id": every value row is paired with every complete layer. *)
Definition sql_get_current (d : db) (hash : bytes) : option bytes :=
  let joined := flat_map (fun v => map (fun _ => v)
                  (filter (fun l => lr_complete l && bytes_eqb (vr_key v) hash) (db_layers d)))
                  (db_values d) in
  option_map vr_value (pick_latest joined).

(** storage.rs:197-218 get_by_hash_historical *)
Definition sql_get_historical (d : db) (hash : bytes) (layer_id : Z) : option bytes :=
  let joined := flat_map (fun v => map (fun _ => v)
                  (filter (fun l => (vr_layer v <=? layer_id) && lr_complete l
                                    && bytes_eqb (vr_key v) hash) (db_layers d)))
                  (db_values d) in
  option_map vr_value (pick_latest joined).

(** storage.rs:338-352 layer_fingerprint: fetch_one fails when there is no such row. *)
Definition layer_fingerprint (d : db) (layer_id : Z) (complete : bool) : outcome storage_error bytes :=
  match find (fun l => (lr_id l =? layer_id) && Bool.eqb (lr_complete l) complete) (db_layers d) with
  | Some l => Ok (lr_fp l)
  | None => Err ESqlite
  end.

(** storage.rs:323-336 insert_layer; the id is UNIQUE. *)
Definition insert_layer (d : db) (id : Z) (fp : bytes) (complete : bool) : outcome storage_error db :=
  if existsb (fun l => lr_id l =? id) (db_layers d) then Err ESqlite
  else Ok (mkDb (db_layers d ++ [mkLayerRow id fp complete]) (db_values d)).

(** storage.rs:269-278: one INSERT INTO "values"; the layer must exist (FOREIGN KEY). *)
Definition insert_value (d : db) (layer_id : Z) (k v : bytes) : outcome storage_error db :=
  if existsb (fun l => lr_id l =? layer_id) (db_layers d)
  then Ok (mkDb (db_layers d) (db_values d ++ [mkValueRow k v layer_id]))
  else Err ESqlite.

(** storage.rs:266-282: all the inserts of a commit, in the order given. *)
Fixpoint insert_values (d : db) (layer_id : Z) (c : changes) : outcome storage_error db :=
  match c with
  | [] => Ok d
  | (k, v) :: c' => let* d' := insert_value d layer_id k v in insert_values d' layer_id c'
  end.

(** storage.rs:284-294: UPDATE "layers" SET fingerprint, complete = 1 WHERE id AND complete = 0 *)
Definition update_layer (d : db) (layer_id : Z) (fp : bytes) : db :=
  mkDb (map (fun l => if (lr_id l =? layer_id) && negb (lr_complete l)
                      then mkLayerRow (lr_id l) fp true else l) (db_layers d))
       (db_values d).

(** storage.rs:361-369: DELETE FROM "layers" WHERE id > layer, cascading to "values". *)
Definition delete_layers_above (d : db) (layer_id : Z) : db :=
  mkDb (filter (fun l => negb (layer_id <? lr_id l)) (db_layers d))
       (filter (fun v => negb (existsb (fun l => (lr_id l =? vr_layer v) && (layer_id <? lr_id l))
                                       (db_layers d))) (db_values d)).

(** storage.rs:102-125 delete_bad_layers *)
Definition delete_bad_layers (d : db) : db :=
  mkDb (db_layers d)
       (filter (fun v => negb (existsb (fun l => (lr_id l =? vr_layer v) && negb (lr_complete l))
                                       (db_layers d))) (db_values d)).

(** storage.rs:389-402 max_layer_id *)
Definition max_layer_id (d : db) : option Z :=
  fold_right (fun l m => match m with None => Some (lr_id l) | Some x => Some (Z.max (lr_id l) x) end)
             None (db_layers d).

(** storage.rs:384-386 last_layer_id *)
Definition last_layer_id (s : storage) : option Z := max_layer_id (st_db s).

(* ------------------------------------------------------------------------------------ *)
(** * Storage operations *)

(** storage.rs:68-90 new_with_pool, on the contents of the database file. *)
Definition open_db (d : db) : outcome storage_error storage :=
  let next := match max_layer_id d with Some m => m | None => initial_layer_id + 1 end in
  let* d1 := insert_layer d initial_layer_id initial_layer_state true in
  Ok (mkStorage (delete_bad_layers d1) [] next [] initial_layer_state).

(** storage.rs:129-136 last_layer; the debug_assert panics below the initial layer. *)
Definition last_layer (s : storage) : outcome storage_error (Z * bytes) :=
  if initial_layer_id <? st_next_id s then
    let* fp := layer_fingerprint (st_db s) (st_next_id s - 1) true in
    Ok (st_next_id s - 1, fp)
  else Panic.

(** storage.rs:142-144 *)
Definition has_uncommitted_changes (s : storage) : bool :=
  match st_dirty s with [] => false | _ => true end.

(** storage.rs:164-195 get_by_hash *)
Definition get_by_hash (s : storage) (hash : bytes) (layer_id : option Z) : outcome storage_error (option bytes) :=
  match layer_id with
  | Some l => if l <? st_next_id s then Ok (sql_get_historical (st_db s) hash l) else Panic
  | None =>
    match ch_get hash (st_dirty s) with
    | Some v => Ok (Some v)
    | None =>
      match ch_get hash (st_changes s) with
      | Some v => Ok (Some v)
      | None => Ok (sql_get_current (st_db s) hash)
      end
    end
  end.

(** storage.rs:152-155 get *)
Definition get (e : env) (s : storage) (key : bytes) (layer_id : option Z) :=
  get_by_hash s (env_hash e key) layer_id.

(** storage.rs:232-237 upsert_by_hash *)
Definition upsert_by_hash (s : storage) (hash value : bytes) : storage :=
  mkStorage (st_db s) (ch_insert hash value (st_dirty s)) (st_next_id s) (st_changes s) (st_xor s).

(** storage.rs:222-228 upsert *)
Definition upsert (e : env) (s : storage) (key value : bytes) : storage :=
  upsert_by_hash s (env_hash e key) value.

(** storage.rs:404-409 hash_key_value_pair *)
Definition hash_key_value_pair (e : env) (k v : bytes) : bytes := env_hash e (k ++ v).

(** storage.rs:411-415 xor_fingerprint *)
Fixpoint xor_fingerprint (a b : bytes) : bytes :=
  match a, b with
  | x :: a', y :: b' => N.lxor x y :: xor_fingerprint a' b'
  | _, _ => a
  end.

(** storage.rs:239-251 checkpoint.  The loop updates the local variable [fingerprint],
    which is dropped at the end: [changes_xor_fingerprint] keeps its value. *)
Definition checkpoint (e : env) (s : storage) : storage :=
  let '(_fingerprint, chs) :=
    fold_left (fun '(fp, chs) '(k, v) =>
                 (xor_fingerprint fp (hash_key_value_pair e k v), ch_insert k v chs))
              (env_iter e (st_dirty s)) (st_xor s, st_changes s) in
  mkStorage (st_db s) [] (st_next_id s) chs (st_xor s).

(** storage.rs:253-301 commit.  [mem::take] empties the changes before the first fallible
    statement. *)
Definition commit (e : env) (s : storage) : outcome storage_error (Z * bytes) * storage :=
  match st_dirty s with
  | _ :: _ => (Err EDirtyChanges, s)
  | [] =>
    let id := st_next_id s in
    let taken d := mkStorage d [] id [] (st_xor s) in
    match layer_fingerprint (st_db s) (id - 1) true with
    | Ok prev =>
      let fp := xor_fingerprint prev (st_xor s) in
      match insert_layer (st_db s) id fp false with
      | Ok d1 =>
        match insert_values d1 id (env_iter e (st_changes s)) with
        | Ok d2 => (Ok (id, fp), mkStorage (update_layer d2 id fp) [] (id + 1) [] state_ones)
        | Err er => (Err er, taken d1)
        | Panic => (Panic, taken d1)
        end
      | Err er => (Err er, taken (st_db s))
      | Panic => (Panic, taken (st_db s))
      end
    | Err er => (Err er, taken (st_db s))
    | Panic => (Panic, taken (st_db s))
    end
  end.

(** storage.rs:303-320 genesis_fingerprint *)
Definition genesis_fingerprint (s : storage) : option bytes :=
  option_map lr_fp (find (fun l => (lr_id l =? initial_layer_id + 1) && lr_complete l)
                         (db_layers (st_db s))).

(** storage.rs:354-377 rewind *)
Definition rewind (s : storage) (layer_id : Z) : outcome storage_error unit * storage :=
  if layer_id <? st_next_id s then
    match st_dirty s with
    | _ :: _ => (Err EDirtyChanges, s)
    | [] => (Ok tt, mkStorage (delete_layers_above (st_db s) layer_id) [] (layer_id + 1) [] state_ones)
    end
  else (Panic, s).

(** storage.rs:379-382 rollback *)
Definition rollback (s : storage) : storage :=
  mkStorage (st_db s) [] (st_next_id s) (st_changes s) (st_xor s).

(* ------------------------------------------------------------------------------------ *)
(** * Interrupted commits *)

(** The databases a commit (storage.rs:262-294) can leave behind when it stops part-way:
    nothing written; the incomplete layer and any part of its values (the inserts run
    concurrently, so any subset in any order); everything but the process did not return. *)
Inductive interrupted_commit (e : env) (s : storage) : db -> Prop :=
| ic_nothing : interrupted_commit e s (st_db s)
| ic_values prev d1 rows :
    layer_fingerprint (st_db s) (st_next_id s - 1) true = Ok prev ->
    insert_layer (st_db s) (st_next_id s) (xor_fingerprint prev (st_xor s)) false = Ok d1 ->
    (forall r, In r rows -> In (vr_key r, vr_value r) (st_changes s) /\ vr_layer r = st_next_id s) ->
    interrupted_commit e s (mkDb (db_layers d1) (db_values d1 ++ rows))
| ic_done r s' : commit e s = (Ok r, s') -> interrupted_commit e s (st_db s').

(** A commit whose statements start failing with an I/O error returns [Err] and leaves the
    storage with such a database; [changes] has already been emptied (storage.rs:259). *)
Definition failed_commit (e : env) (s s' : storage) : Prop :=
  st_dirty s = [] /\ exists d, interrupted_commit e s d /\
    s' = mkStorage d [] (st_next_id s) [] (st_xor s).
