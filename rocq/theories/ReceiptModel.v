(** Model of crates/host/codec/src/receipt/*.rs and crates/host/types/src/{error.rs,receipt/*}. *)
From Coq Require Import List NArith Bool.
From Verif Require Import Base CodecModel.
Import ListNotations.
Open Scope N_scope.

(** types/src/error.rs:7-47 [RuntimeError].  Addresses and strings are byte strings. *)
Inductive runtime_error : Type :=
| OOG
| TemplateNotFound (template : bytes)
| AccountNotFound (target : bytes)
| CompilationFailed (target template msg : bytes)
| InstantiationFailed (target template msg : bytes)
| FuncNotFound (target template func : bytes)
| FuncFailed (target template func msg : bytes)
| FuncNotCtor (template func : bytes)
| FuncNotAllowed (target template func msg : bytes)
| FuncInvalidSignature (target template func : bytes).

(** receipt/logs.rs:18-52 [impl Codec for Vec<ReceiptLog>]; a log is its bytes. *)
Definition enc_log : encoder bytes := fun l =>
  if nlen l <=? u16_max then Some (be_bytes 2 (nlen l) ++ l) else None.
Definition enc_logs : encoder (list bytes) := fun ls =>
  if nlen ls <=? u8_max then
    let? b := enc_seq enc_log ls in Some (nlen ls :: b)
  else None.
(** receipt/logs.rs:54-61 [decode_log]. *)
Definition dec_log : decoder bytes := fun bs =>
  let* (n, r) := dec_u16 bs in read_bytes (N.to_nat n) r.
Definition dec_logs : decoder (list bytes) := fun bs =>
  let* (n, r) := read_byte bs in dec_seq dec_log (N.to_nat n) r.

(** receipt/touched_accounts.rs:7-28 [impl Codec for HashSet<Address>].  A [HashSet] is a
    duplicate-free list standing for one iteration order of the set; every order is some
    such list. *)
Fixpoint bytes_eqb (a b : bytes) : bool :=
  match a, b with
  | [], [] => true
  | x :: a', y :: b' => (x =? y) && bytes_eqb a' b'
  | _, _ => false
  end.
Definition set_insert (x : bytes) (s : list bytes) : list bytes :=
  if existsb (bytes_eqb x) s then s else s ++ [x].
Definition enc_touched : encoder (list bytes) := fun s =>
  if nlen s <=? u16_max then Some (be_bytes 2 (nlen s) ++ concat s) else None.
Fixpoint dec_touched_loop (n : nat) (s : list bytes) : decoder (list bytes) := fun bs =>
  match n with
  | O => Ok (s, bs)
  | S n' => let* (a, r) := read_bytes 20 bs in dec_touched_loop n' (set_insert a s) r
  end.
Definition dec_touched : decoder (list bytes) := fun bs =>
  let* (n, r) := dec_u16 bs in dec_touched_loop (N.to_nat n) [] r.

(** receipt/error.rs:198-213 [encode_err_type]. *)
Definition err_code (e : runtime_error) : N :=
  match e with
  | OOG => 0
  | TemplateNotFound _ => 1
  | AccountNotFound _ => 2
  | CompilationFailed _ _ _ => 3
  | InstantiationFailed _ _ _ => 4
  | FuncNotFound _ _ _ => 5
  | FuncFailed _ _ _ _ => 6
  | FuncNotCtor _ _ => 7
  | FuncNotAllowed _ _ _ _ => 8
  | FuncInvalidSignature _ _ _ => 9
  end.

(** receipt/error.rs:188-196 [encode_msg]: cuts at byte 255 and panics (unwrap) if that
    splits a character. *)
Definition enc_msg : encoder bytes := fun m =>
  if 255 <? nlen m then
    let m' := firstn 255 m in
    if utf8_valid m' then enc_string m' else None
  else enc_string m.

(** receipt/error.rs:99-161: the error blob. *)
Definition enc_err_body (e : runtime_error) : option bytes :=
  match e with
  | OOG => Some []
  | TemplateNotFound t => enc_array t
  | AccountNotFound a => enc_array a
  | CompilationFailed a t m | InstantiationFailed a t m =>
      let? x := enc_array t in let? y := enc_array a in let? z := enc_string m in
      Some (x ++ y ++ z)
  | FuncNotFound a t f | FuncInvalidSignature a t f =>
      let? x := enc_array t in let? y := enc_array a in let? z := enc_string f in
      Some (x ++ y ++ z)
  | FuncFailed a t f m | FuncNotAllowed a t f m =>
      let? x := enc_array t in let? y := enc_array a in let? z := enc_string f in
      let? u := enc_msg m in Some (x ++ y ++ z ++ u)
  | FuncNotCtor t f =>
      let? x := enc_array t in let? z := enc_string f in Some (x ++ z)
  end.

(** receipt/error.rs:94-162 [RuntimeFailure::encode]. *)
Definition enc_failure (e : runtime_error) (logs : list bytes) : option bytes :=
  let? l := enc_logs logs in
  let? b := enc_err_body e in
  Some (err_code e :: l ++ b).

(** [unwrap()] on a decoding result: an error becomes a panic. *)
Definition unwrapped {A} (d : decoder A) : decoder A := fun bs =>
  match d bs with Ok x => Ok x | _ => Panic end.

(** receipt/error.rs:215-313: the error readers, all of them unwrapping. *)
Definition dec_addr3 (k : bytes -> bytes -> bytes -> runtime_error) : decoder runtime_error := fun bs =>
  let* (t, r) := unwrapped (dec_array ADDRESS_LEN) bs in
  let* (a, r) := unwrapped (dec_array ADDRESS_LEN) r in
  let* (s, r) := unwrapped dec_string r in
  Ok (k a t s, r).
Definition dec_addr4 (k : bytes -> bytes -> bytes -> bytes -> runtime_error) : decoder runtime_error := fun bs =>
  let* (t, r) := unwrapped (dec_array ADDRESS_LEN) bs in
  let* (a, r) := unwrapped (dec_array ADDRESS_LEN) r in
  let* (f, r) := unwrapped dec_string r in
  let* (m, r) := unwrapped dec_string r in
  Ok (k a t f m, r).
Definition dec_err_body (ty : N) : decoder runtime_error := fun bs =>
  match ty with
  | 0 => Ok (OOG, bs)
  | 1 => let* (t, r) := unwrapped (dec_array ADDRESS_LEN) bs in Ok (TemplateNotFound t, r)
  | 2 => let* (a, r) := unwrapped (dec_array ADDRESS_LEN) bs in Ok (AccountNotFound a, r)
  | 3 => dec_addr3 CompilationFailed bs
  | 4 => dec_addr3 InstantiationFailed bs
  | 5 => dec_addr3 FuncNotFound bs
  | 6 => dec_addr4 FuncFailed bs
  | 7 => let* (t, r) := unwrapped (dec_array ADDRESS_LEN) bs in
         let* (f, r) := unwrapped dec_string r in Ok (FuncNotCtor t f, r)
  | 8 => dec_addr4 FuncNotAllowed bs
  | 9 => dec_addr3 FuncInvalidSignature bs
  | _ => Panic
  end.

(** receipt/error.rs:164-185 [RuntimeFailure::decode]. *)
Definition dec_failure : decoder (runtime_error * list bytes) := fun bs =>
  let* (ty, r) := unwrapped read_byte bs in
  let* (logs, r) := unwrapped dec_logs r in
  let* (e, r) := dec_err_body ty r in
  Ok ((e, logs), r).

(** types/src/receipt/call.rs:9-33 [CallReceipt]. *)
Record call_receipt := mkCallReceipt {
  cr_version : N;
  cr_success : bool;
  cr_error : option runtime_error;
  cr_new_state : option bytes;
  cr_returndata : option bytes;
  cr_gas_used : gas;
  cr_touched : list bytes;
  cr_logs : list bytes
}.

(** types/src/receipt/call.rs:48-59 [from_err]. *)
Definition call_from_err (e : runtime_error) (logs : list bytes) : call_receipt :=
  mkCallReceipt 0 false (Some e) None None None [] logs.

Definition TY_DEPLOY : N := 0.
Definition TY_SPAWN : N := 1.
Definition TY_CALL : N := 2.

(** receipt/call.rs:44-59 [encode]; the accessors unwrap, so a missing field panics. *)
Definition enc_call_receipt : encoder call_receipt := fun c =>
  let? v := enc_u16 (cr_version c) in
  let? s := enc_bool (cr_success c) in
  if cr_success c then
    let? st := cr_new_state c in
    let? a := enc_array st in
    let? rd := cr_returndata c in
    let? b := enc_return rd in
    let? g := enc_gas (cr_gas_used c) in
    let? t := enc_touched (cr_touched c) in
    let? l := enc_logs (cr_logs c) in
    Some (TY_CALL :: v ++ s ++ a ++ b ++ g ++ t ++ l)
  else
    let? e := cr_error c in
    let? f := enc_failure e (cr_logs c) in
    Some (TY_CALL :: v ++ s ++ f).

(** receipt/call.rs:61-91 [decode], with the [debug_assert]s of a debug build. *)
Definition dec_call_receipt : decoder call_receipt := fun bs =>
  let* (ty, r) := read_byte bs in
  if negb (ty =? TY_CALL) then Panic else
  let* (v, r) := dec_u16 r in
  if negb (v =? 0) then Panic else
  let* (s, r) := dec_bool r in
  if s : bool then
    let* (st, r) := dec_array STATE_LEN r in
    let* (rd, r) := dec_return r in
    let* (g, r) := dec_gas r in
    let* (t, r) := dec_touched r in
    let* (l, r) := dec_logs r in
    Ok (mkCallReceipt v true None (Some st) (Some rd) g t l, r)
  else
    let* (x, r) := dec_failure r in
    Ok (call_from_err (fst x) (snd x), r).

(** types/src/receipt/spawn.rs:8-35 [SpawnReceipt]. *)
Record spawn_receipt := mkSpawnReceipt {
  sr_version : N;
  sr_success : bool;
  sr_error : option runtime_error;
  sr_account : option bytes;
  sr_init_state : option bytes;
  sr_returndata : option bytes;
  sr_gas_used : gas;
  sr_touched : list bytes;
  sr_logs : list bytes
}.

(** types/src/receipt/spawn.rs:44-56 [from_err]. *)
Definition spawn_from_err (e : runtime_error) (logs : list bytes) : spawn_receipt :=
  mkSpawnReceipt 0 false (Some e) None None None None [] logs.

(** receipt/spawn.rs:45-60 [encode]. *)
Definition enc_spawn_receipt : encoder spawn_receipt := fun c =>
  let? v := enc_u16 (sr_version c) in
  let? s := enc_bool (sr_success c) in
  if sr_success c then
    let? ac := sr_account c in
    let? x := enc_array ac in
    let? st := sr_init_state c in
    let? a := enc_array st in
    let? rd := sr_returndata c in
    let? b := enc_return rd in
    let? g := enc_gas (sr_gas_used c) in
    let? t := enc_touched (sr_touched c) in
    let? l := enc_logs (sr_logs c) in
    Some (TY_SPAWN :: v ++ s ++ x ++ a ++ b ++ g ++ t ++ l)
  else
    let? e := sr_error c in
    let? f := enc_failure e (sr_logs c) in
    Some (TY_SPAWN :: v ++ s ++ f).

(** receipt/spawn.rs:62-94 [decode] (line 91 unwraps). *)
Definition dec_spawn_receipt : decoder spawn_receipt := fun bs =>
  let* (ty, r) := read_byte bs in
  if negb (ty =? TY_SPAWN) then Panic else
  let* (v, r) := dec_u16 r in
  if negb (v =? 0) then Panic else
  let* (s, r) := dec_bool r in
  if s : bool then
    let* (ac, r) := dec_array ADDRESS_LEN r in
    let* (st, r) := dec_array STATE_LEN r in
    let* (rd, r) := dec_return r in
    let* (g, r) := dec_gas r in
    let* (t, r) := dec_touched r in
    let* (l, r) := dec_logs r in
    Ok (mkSpawnReceipt v true None (Some ac) (Some st) (Some rd) g t l, r)
  else
    let* (x, r) := unwrapped dec_failure r in
    Ok (spawn_from_err (fst x) (snd x), r).

(** types/src/receipt/deploy.rs:10-28 [DeployReceipt]. *)
Record deploy_receipt := mkDeployReceipt {
  dr_version : N;
  dr_success : bool;
  dr_error : option runtime_error;
  dr_addr : option bytes;
  dr_gas_used : gas;
  dr_logs : list bytes
}.

(** types/src/receipt/deploy.rs:33-42 [new], 50-59 [from_err]. *)
Definition deploy_new (addr : bytes) (g : gas) : deploy_receipt :=
  mkDeployReceipt 0 true None (Some addr) g [].
Definition deploy_from_err (e : runtime_error) (logs : list bytes) : deploy_receipt :=
  mkDeployReceipt 0 false (Some e) None None logs.

(** receipt/deploy.rs:27-39 [encode]: a failed deploy is written with empty logs (line 37). *)
Definition enc_deploy_receipt : encoder deploy_receipt := fun c =>
  let? v := enc_u16 (dr_version c) in
  let? s := enc_bool (dr_success c) in
  if dr_success c then
    let? ad := dr_addr c in
    let? x := enc_array ad in
    let? g := enc_gas (dr_gas_used c) in
    let? l := enc_logs (dr_logs c) in
    Some (TY_DEPLOY :: v ++ s ++ x ++ g ++ l)
  else
    let? e := dr_error c in
    let? f := enc_failure e [] in
    Some (TY_DEPLOY :: v ++ s ++ f).

(** receipt/deploy.rs:41-67 [decode]. *)
Definition dec_deploy_receipt : decoder deploy_receipt := fun bs =>
  let* (ty, r) := read_byte bs in
  if negb (ty =? TY_DEPLOY) then Panic else
  let* (v, r) := dec_u16 r in
  if negb (v =? 0) then Panic else
  let* (s, r) := dec_bool r in
  if s : bool then
    let* (ad, r) := dec_array ADDRESS_LEN r in
    let* (g, r) := dec_gas r in
    let* (l, r) := dec_logs r in
    Ok (mkDeployReceipt v true None (Some ad) g l, r)
  else
    let* (x, r) := dec_failure r in
    Ok (deploy_from_err (fst x) (snd x), r).

(** types/src/receipt/mod.rs:67-76 [Receipt]. *)
Inductive receipt : Type :=
| RDeploy (r : deploy_receipt)
| RSpawn (r : spawn_receipt)
| RCall (r : call_receipt).

(** receipt/mod.rs:18-30 [encode], 32-48 [decode]: peeks at the first byte, unwrapping. *)
Definition enc_receipt : encoder receipt := fun r =>
  match r with
  | RDeploy d => enc_deploy_receipt d
  | RSpawn s => enc_spawn_receipt s
  | RCall c => enc_call_receipt c
  end.
Definition dec_receipt : decoder receipt := fun bs =>
  match bs with
  | [] => Panic
  | b :: _ =>
      if b =? TY_DEPLOY then let* (d, r) := dec_deploy_receipt bs in Ok (RDeploy d, r)
      else if b =? TY_SPAWN then let* (s, r) := dec_spawn_receipt bs in Ok (RSpawn s, r)
      else if b =? TY_CALL then let* (c, r) := dec_call_receipt bs in Ok (RCall c, r)
      else Err (BadByte b)
  end.

(** types/src/receipt/spawn.rs:106-137 [into_spawn_receipt]; [None] = panic (unwrap of a
    missing error). *)
Definition into_spawn_receipt (c : call_receipt) (account : bytes) : option spawn_receipt :=
  if cr_success c then
    Some (mkSpawnReceipt 0 true None (Some account) (cr_new_state c) (cr_returndata c)
            (cr_gas_used c) (cr_touched c) (cr_logs c))
  else
    let? e := cr_error c in
    Some (mkSpawnReceipt 0 false (Some e) None None None None [] (cr_logs c)).
