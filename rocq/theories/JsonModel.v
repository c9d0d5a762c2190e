(** Model of the JSON interface of the codec (crates/host/codec/src/api/json).

    Documents are trees: printing and parsing JSON text is serde_json's and not modelled, so a
    function of the code that takes a [&str] takes here the tree that [parse_json] (mod.rs:57-61)
    yields, and the round trips through [to_string] in call.rs:68-74 are the identity. *)
From Coq Require Import String List NArith ZArith Bool.
From Verif Require Import Base Text SdkModel AbiModel CodecModel ReceiptModel.
Import ListNotations.
Open Scope list_scope.
Open Scope N_scope.

(** [serde_json::Value].  Numbers are the integers from [i64::MIN] to [u64::MAX]; other numbers
    are [JFloat], their value does not matter.  Strings are their UTF-8 bytes.  Objects are
    their fields, in the order of the keys (a [BTreeMap]) when built here. *)
Inductive json : Type :=
| JNull
| JBool (b : bool)
| JNum (z : Z)
| JFloat
| JStr (s : bytes)
| JArr (l : list json)
| JObj (fields : list (bytes * json)).

(** error.rs:5-31; [InvalidWhole]: call.rs:62-66 puts the whole document in the path of
    [InvalidField].  [Eof] and [InvalidJson] come from the parser only. *)
Inductive json_error : Type :=
| MissingField (name : bytes)
| InvalidField (path : bytes)
| InvalidWhole
| NotAnObject.
Definition jm A := outcome json_error A.
Definition unwrap {A} (o : option A) : jm A := match o with Some a => Ok a | None => Panic end.
(** [Result::unwrap] *)
Definition expect {A} (o : jm A) : jm A := match o with Err _ => Panic | r => r end.

(* ------------------------------------------------------------------------- *)
(** * serde_types.rs *)

(** serde_types.rs:11-21 *)
Definition hex_to_json (bs : bytes) : json := JStr (hex_upper bs).
(** serde_types.rs:23-35 *)
Definition hex_of_json (j : json) : option bytes := match j with JStr s => unhex s | _ => None end.
(** serde_types.rs:53-68 and 80-95: addresses of accounts and of templates *)
Definition address_of_json (j : json) : option bytes :=
  let? bs := hex_of_json j in
  if nlen bs =? 20 then Some bs else None.

(* ------------------------------------------------------------------------- *)
(** * mod.rs *)

(** mod.rs:21-27: [u64 as i64] *)
Definition gas_to_json (g : gas) : json :=
  match g with Some n => JNum (as_ity I64 (Z.of_N n)) | None => JNum (-1) end.
(** mod.rs:29-39 *)
Fixpoint logs_to_json (logs : list bytes) : option (list json) :=
  match logs with
  | [] => Some []
  | l :: logs' =>
      let? _ := ensure (utf8_valid l) in
      let? js := logs_to_json logs' in
      Some (JObj [(txt "data", JStr l)] :: js)
  end.
Fixpoint assoc (name : bytes) (fields : list (bytes * json)) : option json :=
  match fields with
  | [] => None
  | (k, v) :: fields' => if bytes_eqb k name then Some v else assoc name fields'
  end.
(** mod.rs:41-55; [f] is the deserializer of the type.  Simplified: the field is not replaced
    by [null]; every caller asks for different names. *)
Definition get_field {A} (f : json -> option A) (j : json) (name : string) : jm A :=
  match j with
  | JObj fields =>
      match assoc (txt name) fields with
      | None => Err (MissingField (txt name))
      | Some v => match f v with Some a => Ok a | None => Err (InvalidField (txt name)) end
      end
  | _ => Err NotAnObject
  end.
(** The deserializers of [u16], [String], [Vec<T>] and [Json]. *)
Definition u16_of_json (j : json) : option N :=
  match j with JNum z => if ((0 <=? z) && (z <=? 65535))%Z then Some (Z.to_N z) else None | _ => None end.
Definition string_of_json (j : json) : option bytes := match j with JStr s => Some s | _ => None end.
Definition all_some {A B} (f : A -> option B) : list A -> option (list B) :=
  fix all (l : list A) : option (list B) :=
    match l with
    | [] => Some []
    | x :: l' => let? y := f x in let? ys := all l' in Some (y :: ys)
    end.
Definition list_of_json {A} (f : json -> option A) (j : json) : option (list A) :=
  match j with JArr l => all_some f l | _ => None end.

(* ------------------------------------------------------------------------- *)
(** * inputdata.rs *)

(** inputdata.rs:202-208, 248-262 *)
Inductive tysig : Type := TPrim (t : pty) | TArr (ts : list tysig).
Definition pty_name (t : pty) : bytes :=
  match t with
  | YBool => txt "bool"
  | YInt I8 => txt "i8" | YInt U8 => txt "u8" | YInt I16 => txt "i16" | YInt U16 => txt "u16"
  | YInt I32 => txt "i32" | YInt U32 => txt "u32" | YInt I64 => txt "i64" | YInt U64 => txt "u64"
  | YAmount => txt "amount"
  | YAddress => txt "address"
  end.
Definition all_ptys : list pty :=
  [YBool; YInt I8; YInt U8; YInt I16; YInt U16; YInt I32; YInt U32; YInt I64; YInt U64; YAmount; YAddress].
Definition pty_of_name (s : bytes) : option pty := find (fun t => bytes_eqb (pty_name t) s) all_ptys.
(** The untagged enumeration: a primitive (the derived deserializer of a unit variant accepts
    its name, and an object with the name as only key and [null]), else an array. *)
Fixpoint sig_of_json (j : json) : option tysig :=
  match j with
  | JStr s => let? t := pty_of_name s in Some (TPrim t)
  | JObj [(s, JNull)] => let? t := pty_of_name s in Some (TPrim t)
  | JArr l => let? ts := all_some sig_of_json l in Some (TArr ts)
  | _ => None
  end.
Fixpoint sig_to_json (t : tysig) : json :=
  match t with TPrim t => JStr (pty_name t) | TArr ts => JArr (map sig_to_json ts) end.

(** inputdata.rs:44-49 *)
Record input := mkInput { in_abi : list tysig; in_data : list json }.
(** inputdata.rs:52-64 *)
Definition input_new (j : json) : jm input :=
  let* abi := get_field (list_of_json sig_of_json) j "abi" in
  let* data := get_field (list_of_json Some) j "data" in
  if nlen abi =? nlen data then Ok (mkInput abi data) else Err (InvalidField (txt "data")).
(** The derived deserializer of inputdata.rs:44-49: an object, or the two fields in an array;
    the lengths are not compared. *)
Definition input_of_json (j : json) : option input :=
  let? (a, d) := match j with
    | JObj fields => let? a := assoc (txt "abi") fields in let? d := assoc (txt "data") fields in Some (a, d)
    | JArr [a; d] => Some (a, d)
    | _ => None end in
  let? abi := list_of_json sig_of_json a in
  let? data := list_of_json Some d in
  Some (mkInput abi data).
(** The derived serializer. *)
Definition input_to_json (i : input) : json :=
  JObj [(txt "abi", JArr (map sig_to_json (in_abi i))); (txt "data", JArr (in_data i))].

(** [json.as_bool()], [json.as_u64()], [json.as_i64()] *)
Definition as_bool (j : json) : option bool := match j with JBool b => Some b | _ => None end.
Definition as_u64 (j : json) : option Z := match j with JNum z => if ((0 <=? z) && (z <? 2 ^ 64))%Z then Some z else None | _ => None end.
Definition as_i64 (j : json) : option Z := match j with JNum z => if ((- 2 ^ 63 <=? z) && (z <? 2 ^ 63))%Z then Some z else None | _ => None end.
(** [T::try_from(i64)] *)
Definition ity_min (t : ity) : Z := (if ity_signed t then - 2 ^ (ity_bits t - 1) else 0)%Z.
Definition try_from_i64 (t : ity) (z : Z) : option Z :=
  if ((ity_min t <=? z) && (z <=? ity_max t))%Z then Some z else None.
(** inputdata.rs:168-199 *)
Definition sdk_value_from_json (j : json) (t : pty) : option primitive :=
  match t with
  | YBool => let? b := as_bool j in Some (PBool b)
  | YAmount => let? z := as_u64 j in Some (PAmount (Z.to_N z))
  | YAddress => let? a := address_of_json j in Some (PAddress a)
  | YInt U64 => let? z := as_u64 j in Some (PInt U64 z)
  | YInt t => let? z := as_i64 j in let? z := try_from_i64 t z in Some (PInt t z)
  end.

Definition calldata_error {A} : jm A := Err (InvalidField (txt "calldata")).
Fixpoint sum_sizes {A} (f : A -> jm N) (l : list A) : jm N :=
  match l with
  | [] => Ok 0
  | x :: l' => let* a := f x in let* b := sum_sizes f l' in Ok (a + b)
  end.
(** inputdata.rs:210-245; the sums cannot exceed [usize] for documents that fit in memory *)
Fixpoint value_byte_size (t : tysig) (j : json) : jm N :=
  match t with
  | TPrim t => Ok (prim_max_byte_size t)
  | TArr [t] =>
      match j with
      | JArr elems => let* n := sum_sizes (value_byte_size t) elems in Ok (1 + n)
      | _ => calldata_error
      end
  | TArr _ => Panic
  end.
(** inputdata.rs:304-308 *)
Fixpoint push_values {A} (f : A -> jm value) (l : list A) (w : fvec value) : jm (fvec value) :=
  match l with
  | [] => Ok w
  | x :: l' => let* v := f x in let* w := unwrap (vec_push w v) in push_values f l' w
  end.
(** inputdata.rs:281-313 [encode_value] and [encode_array] *)
Fixpoint value_of_json (t : tysig) (j : json) : jm value :=
  match t with
  | TPrim t => match sdk_value_from_json j t with Some p => Ok (VPrim p) | None => calldata_error end
  | TArr [t] =>
      match j with
      | JArr elems =>
          let* w := push_values (value_of_json t) elems (vec_with_capacity 10) in
          let* vs := unwrap (vec_as_slice w) in
          Ok (VVec vs)
      | _ => calldata_error
      end
  | TArr _ => Panic
  end.
(** inputdata.rs:66-89: [zip] stops with the shorter list *)
Definition zip (i : input) : list (tysig * json) := combine (in_abi i) (in_data i).
Definition cap (i : input) : jm N := sum_sizes (fun '(t, j) => value_byte_size t j) (zip i).
Fixpoint write_values (l : list (tysig * json)) (w : fvec N) : jm (fvec N) :=
  match l with
  | [] => Ok w
  | (t, j) :: l' =>
      let* v := value_of_json t j in
      let* w := unwrap (encode_value v w) in
      write_values l' w
  end.
Definition input_encode (i : input) : jm bytes :=
  let* c := cap i in
  let* w := write_values (zip i) (vec_with_capacity c) in
  unwrap (vec_as_slice w).

(** inputdata.rs:113-136 and 140-166; [None]: [unreachable!] *)
Definition prim_to_json (p : primitive) : option json :=
  match p with
  | PNone | PUnit => None
  | PBool b => Some (JBool b)
  | PInt _ z => Some (JNum z)
  | PAmount n => Some (JNum (Z.of_N n))
  | PAddress a => Some (hex_to_json a)
  end.
Fixpoint sdk_value_to_json (v : value) : option json :=
  match v with
  | VPrim p => prim_to_json p
  | VVec vs => let? js := all_some sdk_value_to_json vs in Some (JArr js)
  end.
Definition prim_sig (p : primitive) : option json :=
  match p with
  | PNone | PUnit => None
  | PBool _ => Some (JStr (pty_name YBool))
  | PInt t _ => Some (JStr (pty_name (YInt t)))
  | PAmount _ => Some (JStr (pty_name YAmount))
  | PAddress _ => Some (JStr (pty_name YAddress))
  end.
Fixpoint ty_sig_of_sdk_value (v : value) : option json :=
  match v with
  | VPrim p => prim_sig p
  | VVec vs =>
      (fix last_sig (vs : list value) : option json :=
         match vs with
         | [] => Some JNull
         | [v] => let? s := ty_sig_of_sdk_value v in Some (JArr [s])
         | _ :: vs' => last_sig vs'
         end) vs
  end.
(** inputdata.rs:92-102: the loop; every value takes at least one byte, so [fuel] is never
    short when it is the number of bytes (theorem [C76_iteration_ends]). *)
Fixpoint calldata_loop (fuel : nat) (c : cursor) : option (list json * list json) :=
  let? r := calldata_next c in
  match r with
  | None => Some ([], [])
  | Some (v, c) =>
      match fuel with
      | O => None
      | S fuel =>
          let? s := ty_sig_of_sdk_value v in
          let? j := sdk_value_to_json v in
          let? (abi, data) := calldata_loop fuel c in
          Some (s :: abi, j :: data)
      end
  end.
Definition calldata_to_json (bs : bytes) : jm json :=
  let* (abi, data) := unwrap (calldata_loop (length bs) (calldata_new bs)) in
  Ok (JObj [(txt "abi", JArr abi); (txt "data", JArr data)]).

(** inputdata.rs:25-29 *)
Definition encode_inputdata (j : json) : jm json :=
  let* i := input_new j in
  let* bs := expect (input_encode i) in
  Ok (JObj [(txt "data", hex_to_json bs)]).
(** inputdata.rs:31-34 *)
Definition decode_raw_input (bs : bytes) : jm json := calldata_to_json bs.
(** inputdata.rs:37-42 *)
Definition decode_inputdata (j : json) : jm json :=
  let* bs := get_field hex_of_json j "data" in
  calldata_to_json bs.

(* ------------------------------------------------------------------------- *)
(** * call.rs and spawn.rs *)

(** call.rs:85-101: the untagged enumeration *)
Inductive calldata_arg : Type := Encoded (bs : bytes) | Decoded (i : input).
Definition arg_of_json (j : json) : option calldata_arg :=
  match hex_of_json j with
  | Some bs => Some (Encoded bs)
  | None => let? i := input_of_json j in Some (Decoded i)
  end.
Definition arg_encode (a : calldata_arg) : jm bytes :=
  match a with Encoded bs => Ok bs | Decoded i => expect (input_encode i) end.

(** call.rs:39-50 *)
Definition encode_call_raw (j : json) : jm bytes :=
  let* version := get_field u16_of_json j "version" in
  let* target := get_field address_of_json j "target" in
  let* func_name := get_field string_of_json j "func_name" in
  let* v := get_field arg_of_json j "verifydata" in
  let* verifydata := arg_encode v in
  let* c := get_field arg_of_json j "calldata" in
  let* calldata := arg_encode c in
  unwrap (enc_transaction (mkTransaction version target func_name verifydata calldata)).
(** call.rs:31-35 *)
Definition encode_call (j : json) : jm json :=
  let* bs := encode_call_raw j in
  Ok (JObj [(txt "data", hex_to_json bs)]).
(** [Codec::decode_bytes]: codec.rs:35-40; what follows the value is ignored *)
Definition decode_bytes {A} (d : decoder A) (bs : bytes) : outcome parse_error A :=
  let* (a, _) := d bs in Ok a.
(** call.rs:60-83 *)
Definition decode_call (j : json) : jm json :=
  let* data := get_field hex_of_json j "data" in
  match decode_bytes dec_transaction data with
  | Err _ => Err InvalidWhole
  | Panic => Panic
  | Ok tx =>
      let* v := decode_raw_input (tx_verifydata tx) in
      let* verifydata := expect (input_new v) in
      let* c := decode_raw_input (tx_calldata tx) in
      let* calldata := expect (input_new c) in
      Ok (JObj [(txt "calldata", input_to_json calldata);
                (txt "func_name", JStr (tx_func_name tx));
                (txt "target", hex_to_json (tx_target tx));
                (txt "verifydata", input_to_json verifydata);
                (txt "version", JNum (Z.of_N (tx_version tx)))])
  end.

(** spawn.rs:21-37 *)
Definition encode_spawn (j : json) : jm bytes :=
  let* version := get_field u16_of_json j "version" in
  let* template := get_field address_of_json j "template" in
  let* name := get_field string_of_json j "name" in
  let* ctor_name := get_field string_of_json j "ctor_name" in
  let* c := get_field arg_of_json j "calldata" in
  let* calldata := arg_encode c in
  unwrap (enc_spawn (mkSpawn version template name ctor_name calldata)).
(** spawn.rs:41-55 *)
Definition decode_spawn (j : json) : jm json :=
  let* data := get_field hex_of_json j "data" in
  match decode_bytes dec_spawn data with
  | Err _ | Panic => Panic
  | Ok sp =>
      let* calldata := decode_raw_input (sp_calldata sp) in
      Ok (JObj [(txt "calldata", calldata);
                (txt "ctor_name", JStr (sp_ctor sp));
                (txt "name", JStr (sp_name sp));
                (txt "template", hex_to_json (sp_template sp));
                (txt "version", JNum (Z.of_N (sp_version sp)))])
  end.

(* ------------------------------------------------------------------------- *)
(** * receipt.rs *)

(** receipt.rs:38-44 *)
Definition receipt_type (r : receipt) : bytes :=
  match r with
  | RDeploy _ => txt "deploy-template"
  | RSpawn _ => txt "spawn-account"
  | RCall _ => txt "call-account"
  end.
(** receipt.rs:46-128: the fields of the error *)
Definition error_fields (e : runtime_error) : list (bytes * json) :=
  match e with
  | OOG => [(txt "err_type", JStr (txt "oog"))]
  | TemplateNotFound t =>
      [(txt "err_type", JStr (txt "template-not-found")); (txt "template_addr", hex_to_json t)]
  | AccountNotFound a =>
      [(txt "account_addr", hex_to_json a); (txt "err_type", JStr (txt "account-not-found"))]
  | CompilationFailed a t m =>
      [(txt "account_addr", hex_to_json a); (txt "err_type", JStr (txt "compilation-failed"));
       (txt "message", JStr m); (txt "template_addr", hex_to_json t)]
  | InstantiationFailed a t m =>
      [(txt "account_addr", hex_to_json a); (txt "err_type", JStr (txt "instantiation-failed"));
       (txt "message", JStr m); (txt "template_addr", hex_to_json t)]
  | FuncNotFound a t f =>
      [(txt "account_addr", hex_to_json a); (txt "err_type", JStr (txt "function-not-found"));
       (txt "func", JStr f); (txt "template_addr", hex_to_json t)]
  | FuncFailed a t f m =>
      [(txt "account_addr", hex_to_json a); (txt "err_type", JStr (txt "function-failed"));
       (txt "func", JStr f); (txt "message", JStr m); (txt "template_addr", hex_to_json t)]
  | FuncNotCtor t f =>
      [(txt "err_type", JStr (txt "function-not-ctor")); (txt "func", JStr f); (txt "template_addr", hex_to_json t)]
  | FuncNotAllowed a t f m =>
      [(txt "account_addr", hex_to_json a); (txt "err_type", JStr (txt "function-not-allowed"));
       (txt "func", JStr f); (txt "message", JStr m); (txt "template_addr", hex_to_json t)]
  | FuncInvalidSignature a t f =>
      [(txt "account_addr", hex_to_json a); (txt "err_type", JStr (txt "function-invalid-signature"));
       (txt "func", JStr f); (txt "template_addr", hex_to_json t)]
  end.
(** [Map::insert] of a [BTreeMap] of names *)
Fixpoint name_ltb (a b : bytes) : bool :=
  match a, b with
  | [], [] => false
  | [], _ => true
  | _, [] => false
  | x :: a', y :: b' => (x <? y) || ((x =? y) && name_ltb a' b')
  end.
Fixpoint map_insert (k : bytes) (v : json) (m : list (bytes * json)) : list (bytes * json) :=
  match m with
  | [] => [(k, v)]
  | (k', v') :: m' =>
      if bytes_eqb k' k then (k, v) :: m'
      else if name_ltb k k' then (k, v) :: m
      else (k', v') :: map_insert k v m'
  end.
(** receipt.rs:130-142 *)
Definition decode_error_json (ty : bytes) (e : runtime_error) (logs : list bytes) : option json :=
  let? logs := logs_to_json logs in
  Some (JObj (map_insert (txt "logs") (JArr logs)
             (map_insert (txt "success") (JBool false)
             (map_insert (txt "type") (JStr ty) (error_fields e))))).
(** receipt.rs:144-163 *)
Definition deploy_to_json (r : deploy_receipt) (ty : bytes) : option json :=
  let? _ := ensure (match dr_error r with None => true | _ => false end) in
  let? addr := dr_addr r in
  let? logs := logs_to_json (dr_logs r) in
  Some (JObj [(txt "addr", hex_to_json addr); (txt "gas_used", gas_to_json (dr_gas_used r));
              (txt "logs", JArr logs); (txt "success", JBool true); (txt "type", JStr ty)]).
(** receipt.rs:165-190 *)
Definition spawn_to_json (r : spawn_receipt) (ty : bytes) : option json :=
  let? _ := ensure (match sr_error r with None => true | _ => false end) in
  let? account := sr_account r in
  let? state := sr_init_state r in
  let? returndata := sr_returndata r in
  let? logs := logs_to_json (sr_logs r) in
  Some (JObj [(txt "account", hex_to_json account); (txt "gas_used", gas_to_json (sr_gas_used r));
              (txt "logs", JArr logs); (txt "returndata", hex_to_json returndata);
              (txt "state", hex_to_json state); (txt "success", JBool true);
              (txt "touched_accounts", JArr (map hex_to_json (sr_touched r))); (txt "type", JStr ty)]).
(** receipt.rs:192-215 *)
Definition call_to_json (r : call_receipt) (ty : bytes) : option json :=
  let? _ := ensure (match cr_error r with None => true | _ => false end) in
  let? new_state := cr_new_state r in
  let? returndata := cr_returndata r in
  let? logs := logs_to_json (cr_logs r) in
  Some (JObj [(txt "gas_used", gas_to_json (cr_gas_used r)); (txt "logs", JArr logs);
              (txt "new_state", hex_to_json new_state); (txt "returndata", hex_to_json returndata);
              (txt "success", JBool true);
              (txt "touched_accounts", JArr (map hex_to_json (cr_touched r))); (txt "type", JStr ty)]).
(** types/src/receipt/mod.rs:78-127 [success], [logs], [error] (unwraps) *)
Definition receipt_success (r : receipt) : bool :=
  match r with RDeploy d => dr_success d | RSpawn s => sr_success s | RCall c => cr_success c end.
Definition receipt_error (r : receipt) : option runtime_error :=
  match r with RDeploy d => dr_error d | RSpawn s => sr_error s | RCall c => cr_error c end.
Definition receipt_logs (r : receipt) : list bytes :=
  match r with RDeploy d => dr_logs d | RSpawn s => sr_logs s | RCall c => cr_logs c end.
(** receipt.rs:12-36 *)
Definition decode_receipt (j : json) : jm json :=
  let* data := get_field hex_of_json j "data" in
  let* _ := unwrap (ensure (0 <? nlen data)) in
  match decode_bytes dec_receipt data with
  | Err _ | Panic => Panic
  | Ok r =>
      let ty := receipt_type r in
      unwrap (if receipt_success r then
                match r with
                | RDeploy d => deploy_to_json d ty
                | RSpawn s => spawn_to_json s ty
                | RCall c => call_to_json c ty
                end
              else
                let? e := receipt_error r in
                decode_error_json ty e (receipt_logs r))
  end.
