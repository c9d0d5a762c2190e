(** What the JSON interface promises, stated on documents and the bytes they stand for. *)
From Coq Require Import String List NArith ZArith Bool.
From Verif Require Import Base Text AbiModel AbiSpec CodecModel CodecSpec ReceiptModel ReceiptSpec JsonModel.
Import ListNotations.
Open Scope list_scope.
Open Scope N_scope.

(** ** Hexadecimal *)
(** The value of a digit, of either case. *)
Definition digit_value (c : N) (d : N) : Prop :=
  (48 <= c <= 57 /\ d = c - 48) \/ (65 <= c <= 70 /\ d = c - 65 + 10) \/ (97 <= c <= 102 /\ d = c - 97 + 10).
(** Two digits for each byte, the upper half first. *)
Fixpoint spelled (s : bytes) (bs : bytes) : Prop :=
  match s, bs with
  | [], [] => True
  | c1 :: c2 :: s', b :: bs' => (exists h l, digit_value c1 h /\ digit_value c2 l /\ b = 16 * h + l) /\ spelled s' bs'
  | _, _ => False
  end.
Definition upper_case (s : bytes) : Prop := Forall (fun c => 48 <= c <= 57 \/ 65 <= c <= 70) s.

(** ** Documents *)
(** The value of a field of an object. *)
Definition field (name : string) (j : json) (v : json) : Prop :=
  exists fields, j = JObj fields /\ assoc (txt name) fields = Some v.
(** The document [{"data": "..."}] with upper-case digits. *)
Definition data_doc (bs : bytes) : json := JObj [(txt "data", JStr (hex_upper bs))].

(** The name of a type. *)
Definition type_name (t : pty) : bytes :=
  match t with
  | YBool => txt "bool"
  | YInt I8 => txt "i8" | YInt U8 => txt "u8" | YInt I16 => txt "i16" | YInt U16 => txt "u16"
  | YInt I32 => txt "i32" | YInt U32 => txt "u32" | YInt I64 => txt "i64" | YInt U64 => txt "u64"
  | YAmount => txt "amount"
  | YAddress => txt "address"
  end.
(** A type, as the interface spells it. *)
Fixpoint spells (t : tysig) (j : json) : Prop :=
  match t with
  | TPrim t => j = JStr (type_name t) \/ j = JObj [(type_name t, JNull)]
  | TArr ts =>
      exists js, j = JArr js /\
      (fix all (ts : list tysig) (js : list json) : Prop :=
         match ts, js with
         | [], [] => True
         | t :: ts', j :: js' => spells t j /\ all ts' js'
         | _, _ => False
         end) ts js
  end.

(** ** The value that a document stands for at a type *)
Definition prim_reads (t : pty) (j : json) (p : primitive) : Prop :=
  match t, p with
  | YBool, PBool b => j = JBool b
  | YAmount, PAmount n => j = JNum (Z.of_N n) /\ n < 2 ^ 64
  | YAddress, PAddress a => exists s, j = JStr s /\ spelled s a /\ length a = 20%nat
  | YInt t, PInt t' z => t' = t /\ j = JNum z /\ AbiSpec.in_range t z
  | _, _ => False
  end.
(** Arrays have one element type and at most ten elements. *)
Fixpoint reads (t : tysig) (j : json) (v : value) : Prop :=
  match t, v with
  | TPrim t, VPrim p => prim_reads t j p
  | TArr [t], VVec vs => exists js, j = JArr js /\ nlen js <= 10 /\ Forall2 (reads t) js vs
  | _, _ => False
  end.
(** Pairwise, as far as both lists go. *)
Fixpoint zip_reads (ts : list tysig) (js : list json) (vs : list value) : Prop :=
  match ts, js, vs with
  | t :: ts', j :: js', v :: vs' => reads t j v /\ zip_reads ts' js' vs'
  | [], _, [] | _, [], [] => True
  | _, _, _ => False
  end.
(** An object with the types [ts] in "abi" and the documents [ds] in "data". *)
Definition input_fields (j : json) (ts : list tysig) (ds : list json) : Prop :=
  exists abi, field "abi" j (JArr abi) /\ Forall2 spells ts abi /\ field "data" j (JArr ds).
(** The argument of a call: encoded bytes in hexadecimal, or types and values. *)
Definition arg_fields (j : json) (ts : list tysig) (ds : list json) : Prop :=
  input_fields j ts ds \/ exists abi, j = JArr [JArr abi; JArr ds] /\ Forall2 spells ts abi.
Definition arg_bytes (j : json) (bs : bytes) : Prop :=
  (exists s, j = JStr s /\ spelled s bs) \/
  (exists ts ds vs, arg_fields j ts ds /\ zip_reads ts ds vs /\ bs = flat_map format vs).

(** ** How values are shown *)
Definition show_prim (p : primitive) : json :=
  match p with
  | PBool b => JBool b
  | PInt _ z => JNum z
  | PAmount n => JNum (Z.of_N n)
  | PAddress a => JStr (hex_upper a)
  | PNone | PUnit => JNull
  end.
Definition show_value (v : value) : json :=
  match v with
  | VPrim p => show_prim p
  | VVec vs => JArr (map (fun v => match v with VPrim p => show_prim p | VVec _ => JNull end) vs)
  end.
(** Types with a decodable value: primitives and arrays of primitives. *)
Definition show_sig (t : tysig) : json :=
  match t with
  | TPrim t => JStr (type_name t)
  | TArr [TPrim t] => JArr [JStr (type_name t)]
  | TArr _ => JNull
  end.
Definition flat_sig (t : tysig) : Prop := match t with TPrim _ => True | TArr [TPrim _] => True | TArr _ => False end.
Definition show_input (ts : list tysig) (vs : list value) : json :=
  JObj [(txt "abi", JArr (map show_sig ts)); (txt "data", JArr (map show_value vs))].
(** Values that can be read back: no nested arrays, none of eight elements, and no empty ones
    (an empty array does not say its type). *)
Definition readable (v : value) : Prop :=
  match v with VPrim _ => True | VVec vs => vs <> [] /\ nlen vs <> 8 end.

(** Documents in normal form: as they are shown. *)
Definition normal_prim (t : pty) (j : json) : Prop :=
  match t with YAddress => exists s, j = JStr s /\ upper_case s | _ => True end.
Definition normal (t : tysig) (j : json) : Prop :=
  match t with
  | TPrim t => normal_prim t j
  | TArr [TPrim t] => forall js, j = JArr js -> Forall (normal_prim t) js
  | TArr _ => True
  end.

(** ** Receipts *)
Definition text (name : string) (j : json) (s : bytes) : Prop := field name j (JStr s).
Definition hex (name : string) (j : json) (bs : bytes) : Prop := field name j (JStr (hex_upper bs)).
Definition shown_logs (logs : list bytes) (j : json) : Prop :=
  field "logs" j (JArr (map (fun l => JObj [(txt "data", JStr l)]) logs)).
Definition text_logs (logs : list bytes) : Prop := Forall (fun l => utf8_valid l = true) logs.
(** Gas that is shown unambiguously, and how. *)
Definition small_gas (g : gas) : Prop := match g with Some n => n < 2 ^ 63 | None => True end.
Definition shown_gas (g : gas) (j : json) : Prop :=
  field "gas_used" j (JNum (match g with Some n => Z.of_N n | None => -1 end)).
Definition shown_touched (l : list bytes) (j : json) : Prop :=
  field "touched_accounts" j (JArr (map (fun a => JStr (hex_upper a)) l)).
Definition shows_error (e : runtime_error) (j : json) : Prop :=
  let kind s := text "err_type" j (txt s) in
  let account := hex "account_addr" j in
  let template := hex "template_addr" j in
  let func := text "func" j in
  let message := text "message" j in
  match e with
  | OOG => kind "oog"%string
  | TemplateNotFound t => kind "template-not-found"%string /\ template t
  | AccountNotFound a => kind "account-not-found"%string /\ account a
  | CompilationFailed a t m => kind "compilation-failed"%string /\ account a /\ template t /\ message m
  | InstantiationFailed a t m => kind "instantiation-failed"%string /\ account a /\ template t /\ message m
  | FuncNotFound a t f => kind "function-not-found"%string /\ account a /\ template t /\ func f
  | FuncFailed a t f m => kind "function-failed"%string /\ account a /\ template t /\ func f /\ message m
  | FuncNotCtor t f => kind "function-not-ctor"%string /\ template t /\ func f
  | FuncNotAllowed a t f m => kind "function-not-allowed"%string /\ account a /\ template t /\ func f /\ message m
  | FuncInvalidSignature a t f => kind "function-invalid-signature"%string /\ account a /\ template t /\ func f
  end.
Definition kind_name (k : receipt_kind) : bytes :=
  match k with
  | KindDeploy => txt "deploy-template" | KindSpawn => txt "spawn-account" | KindCall => txt "call-account"
  end.
(** The document shows the type and the outcome of the receipt; of a success the state or
    address, the returned bytes, the gas, the touched accounts and the logs; of a failure the
    error, and the logs unless it is a deployment (a failed one has none on the wire). *)
Definition shows_with (wire : runtime_error -> runtime_error) (r : receipt) (j : json) : Prop :=
  text "type" j (kind_name (ReceiptSpec.kind_of r)) /\ field "success" j (JBool (succeeded r)) /\
  match r with
  | RDeploy d =>
      if dr_success d then
        (forall a, dr_addr d = Some a -> hex "addr" j a) /\ (small_gas (dr_gas_used d) -> shown_gas (dr_gas_used d) j) /\
        shown_logs (dr_logs d) j
      else forall e, dr_error d = Some e -> shows_error (wire e) j
  | RSpawn s =>
      if sr_success s then
        (forall a, sr_account s = Some a -> hex "account" j a) /\ (forall st, sr_init_state s = Some st -> hex "state" j st) /\
        (forall rd, sr_returndata s = Some rd -> hex "returndata" j rd) /\ (small_gas (sr_gas_used s) -> shown_gas (sr_gas_used s) j) /\
        shown_touched (sr_touched s) j /\ shown_logs (sr_logs s) j
      else (forall e, sr_error s = Some e -> shows_error (wire e) j) /\ shown_logs (sr_logs s) j
  | RCall c =>
      if cr_success c then
        (forall st, cr_new_state c = Some st -> hex "new_state" j st) /\
        (forall rd, cr_returndata c = Some rd -> hex "returndata" j rd) /\ (small_gas (cr_gas_used c) -> shown_gas (cr_gas_used c) j) /\
        shown_touched (cr_touched c) j /\ shown_logs (cr_logs c) j
      else (forall e, cr_error c = Some e -> shows_error (wire e) j) /\ shown_logs (cr_logs c) j
  end.
(** Of a receipt that is encoded, and of one that was read. *)
Definition shows : receipt -> json -> Prop := shows_with error_on_wire.
Definition shows_read : receipt -> json -> Prop := shows_with (fun e => e).
Definition logs_of (r : receipt) : list bytes :=
  match r with RDeploy d => dr_logs d | RSpawn s => sr_logs s | RCall c => cr_logs c end.
Definition gas_of (r : receipt) : gas :=
  match r with RDeploy d => dr_gas_used d | RSpawn s => sr_gas_used s | RCall c => cr_gas_used c end.
Definition view (r : receipt) : receipt :=
  match r with RDeploy d => RDeploy (deploy_view d) | RSpawn s => RSpawn (spawn_view s) | RCall c => RCall (call_view c) end.

(** ** Calls and spawns *)
(** The transaction that a document stands for. *)
Definition call_doc (j : json) (t : transaction) : Prop :=
  field "version" j (JNum (Z.of_N (tx_version t))) /\ tx_version t < 65536 /\
  (exists s, field "target" j (JStr s) /\ spelled s (tx_target t) /\ length (tx_target t) = 20%nat) /\
  field "func_name" j (JStr (tx_func_name t)) /\
  (exists v, field "verifydata" j v /\ arg_bytes v (tx_verifydata t)) /\
  (exists c, field "calldata" j c /\ arg_bytes c (tx_calldata t)).
Definition spawn_doc (j : json) (s : spawn_account) : Prop :=
  field "version" j (JNum (Z.of_N (sp_version s))) /\ sp_version s < 65536 /\
  (exists x, field "template" j (JStr x) /\ spelled x (sp_template s) /\ length (sp_template s) = 20%nat) /\
  field "name" j (JStr (sp_name s)) /\ field "ctor_name" j (JStr (sp_ctor s)) /\
  (exists c, field "calldata" j c /\ arg_bytes c (sp_calldata s)).
(** Bytes that are the encoding of readable values, and the document that shows them. *)
Definition shown_input (bs : bytes) (j : json) : Prop :=
  exists ts ds vs, length ts = length ds /\ zip_reads ts ds vs /\ Forall flat_sig ts /\ Forall readable vs /\
    bs = flat_map format vs /\ j = show_input ts vs.

(** ** Complaints and order *)
(** What a field of a document that is to be encoded may be. *)
Definition acceptable (name : string) (v : json) : Prop :=
  (name = "version"%string -> exists n, v = JNum (Z.of_N n) /\ n < 65536) /\
  (name = "target"%string \/ name = "template"%string -> exists s a, v = JStr s /\ spelled s a /\ length a = 20%nat) /\
  (name = "func_name"%string \/ name = "name"%string \/ name = "ctor_name"%string -> exists s, v = JStr s) /\
  (name = "verifydata"%string \/ name = "calldata"%string ->
     (exists s bs, v = JStr s /\ spelled s bs) \/ exists ts ds, arg_fields v ts ds).
(** The error names what is wrong with the document: it is no object, lacks one of the expected
    fields, or has one that is not [good]. *)
Definition blames (names : list string) (good : string -> json -> Prop) (j : json) (e : json_error) : Prop :=
  match e with
  | NotAnObject => forall fs, j <> JObj fs
  | MissingField n => exists s fs, In s names /\ n = txt s /\ j = JObj fs /\ assoc n fs = None
  | InvalidField n => exists s v, In s names /\ n = txt s /\ field s j v /\ ~ good s v
  | InvalidWhole => False
  end.
(** Names in the order of their bytes, each once. *)
Definition precedes (a b : bytes) : Prop :=
  (exists p x y a' b', a = p ++ x :: a' /\ b = p ++ y :: b' /\ x < y) \/ (exists y b', b = a ++ y :: b').
Fixpoint in_order (l : list bytes) : Prop :=
  match l with
  | a :: ((b :: _) as l') => precedes a b /\ in_order l'
  | _ => True
  end.
Definition ordered (j : json) : Prop := exists fs, j = JObj fs /\ in_order (map fst fs).
(** The two lists of input data: types that can be read, and as many values. *)
Definition acceptable_input (j : json) (name : string) (v : json) : Prop :=
  (name = "abi"%string -> exists abi ts, v = JArr abi /\ Forall2 spells ts abi) /\
  (name = "data"%string -> exists ds, v = JArr ds /\ forall abi, field "abi" j (JArr abi) -> length abi = length ds).
(** Bytes. *)
Definition acceptable_bytes (name : string) (v : json) : Prop := name = "data"%string -> exists s bs, v = JStr s /\ spelled s bs.
