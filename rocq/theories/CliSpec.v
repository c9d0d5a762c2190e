(** What the user of the command line tool expects. *)
From Coq Require Import String List NArith ZArith Bool.
From Verif Require Import Base Text CodecModel CodecSpec ReceiptModel GraphModel ProgramModel ProgramSpec PricingModel PricingSpec.
From Verif Require Import AbiModel AbiSpec JsonModel JsonSpec CliModel.
Import ListNotations.
Open Scope string_scope.
Open Scope list_scope.
Open Scope N_scope.

(** ** Transactions *)
(** The field [name] of the document gives types and as many values, which are encoded one
    after the other. *)
Definition typed_field (name : string) (j : json) (bs : bytes) : Prop :=
  exists v ts ds vs, field name j v /\ input_fields v ts ds /\ List.length ts = List.length ds /\
    zip_reads ts ds vs /\ bs = flat_map format vs.
(** The call that a document describes. *)
Definition call_file (j : json) (t : transaction) : Prop :=
  field "version" j (JNum (Z.of_N (tx_version t))) /\ tx_version t < 65536 /\
  (exists s, field "target" j (JStr s) /\ spelled s (tx_target t) /\ List.length (tx_target t) = 20%nat) /\
  field "func_name" j (JStr (tx_func_name t)) /\
  typed_field "verifydata" j (tx_verifydata t) /\ typed_field "calldata" j (tx_calldata t).
(** The account that a document describes. *)
Definition spawn_file (j : json) (s : spawn_account) : Prop :=
  field "version" j (JNum (Z.of_N (sp_version s))) /\ sp_version s < 65536 /\
  (exists x, field "template" j (JStr x) /\ spelled x (sp_template s) /\ List.length (sp_template s) = 20%nat) /\
  field "name" j (JStr (sp_name s)) /\ field "ctor_name" j (JStr (sp_ctor s)) /\
  typed_field "calldata" j (sp_calldata s).
(** [bs] is the message for what the document describes: the nodes, which decode the message,
    read just that.  Names and inputs of a message have at most 255 bytes. *)
Definition message (ty : tx_type) (j : json) (bs : bytes) : Prop :=
  bytes_ok bs /\
  match ty with
  | TxCall => exists t, call_file j t /\ dec_transaction bs = Ok (t, [])
  | TxSpawn => exists s, spawn_file j s /\ dec_spawn bs = Ok (s, [])
  end.
Definition short_call (t : transaction) : Prop :=
  nlen (tx_func_name t) <= 255 /\ nlen (tx_verifydata t) <= 255 /\ nlen (tx_calldata t) <= 255.
Definition short_spawn (s : spawn_account) : Prop :=
  nlen (sp_name s) <= 255 /\ nlen (sp_ctor s) <= 255 /\ nlen (sp_calldata s) <= 255.
(** Strings in a parsed document are Unicode. *)
Definition unicode (j : json) : Prop := forall name s, field name j (JStr s) -> bytes_ok s /\ utf8_valid s = true.
Definition parses_unicode (parse_json : bytes -> option json) : Prop :=
  forall text j, parse_json text = Some j -> unicode j.

(** ** Validation *)
(** The parser takes a body up to the [end] that closes it. *)
Fixpoint count (f : instr -> bool) (l : list instr) : N :=
  match l with [] => 0 | i :: l => (if f i then 1 else 0) + count f l end.
Definition opens (i : instr) : bool := match i with Block | Loop | If => true | _ => false end.
Definition closes (i : instr) : bool := match i with End => true | _ => false end.
Definition closed_bodies (m : wmodule) : Prop :=
  forall body, In body (entries (m_code m)) -> count closes body = 1 + count opens body.
(** The functions that the tool knows a price for. *)
Definition priced_imports : list string :=
  ["svm_static_alloc"; "svm_calldata_offset"; "svm_calldata_len"; "svm_set_returndata"; "svm_get32"; "svm_set32";
   "svm_get64"; "svm_set64"; "svm_load160"; "svm_store160"; "svm_log"].
Definition has_price (im : bytes * bytes) : Prop := exists s, In s priced_imports /\ im = (txt "svm", txt s).
(** A module without anything that the rules for contracts forbid in the code itself. *)
Definition plain_code (m : wmodule) : Prop :=
  exists code, m_code m = Some code /\ nlen code <= 65535 /\ function_imports m <= 65535 /\
    forall body i, In body code -> In i body -> refused_instr i = false.
(** The module in a file: the binary format, or the text format, by the name of the file. *)
Inductive contains (parse_wat : bytes -> option bytes) (parse : bytes -> option wmodule) (path content : bytes) (m : wmodule) : Prop :=
| contains_wasm stem : path = stem ++ txt ".wasm" -> parse content = Some m -> contains parse_wat parse path content m
| contains_text stem wasm : path = stem ++ txt ".wat" \/ path = stem ++ txt ".wast" -> utf8_valid content = true ->
    parse_wat content = Some wasm -> parse wasm = Some m -> contains parse_wat parse path content m.
(** The program of a module, as far as prices are concerned. *)
Definition program_of (m : wmodule) (p : program) : Prop := program_new (Some m) false = Ok p.
