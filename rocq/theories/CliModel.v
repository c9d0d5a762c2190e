(** Model of the command line tool (crates/host/cli/src): the subcommands [tx] and [validate].
    The subcommand [craft-deploy] is in MacroModel.v.

    Left out: the parsing of the command line (clap).  Texts are parsed by [parse_json]
    (serde_json), [parse_wat] (the crate wat) and [parse] (parity-wasm), which are arguments.
    A document that is printed and parsed again (subcmd_tx.rs:56-64, 94) is the same
    document. *)
From Coq Require Import String List NArith ZArith Bool.
From Verif Require Import Base Text CodecModel ReceiptModel GraphModel ProgramModel PricingModel.
From Verif Require Import AbiModel JsonModel.
Import ListNotations.
Open Scope string_scope.
Open Scope list_scope.
Open Scope N_scope.

(** The files by path. *)
Definition files := bytes -> option bytes.
Definition put_file (fs : files) (path content : bytes) : files :=
  fun q => if bytes_eqb path q then Some content else fs q.
(** What the system does with a file that is to be created and written. *)
Inductive disk := DRefused | DCut (n : nat) | DWritten.
(** main.rs:43-49 [Error] and the errors of the system *)
Inductive cli_error := EIo | EInvalidUtf8 | EUnknownExtension.

(* ------------------------------------------------------------------------- *)
(** * subcmd_tx.rs *)

(** subcmd_tx.rs:87-101 encode_input; [data["data"].take()] is the text of the only field *)
Definition encode_input (object : json) (key : string) : option json :=
  match object with
  | JObj fields =>
      let? input := assoc (txt key) fields in
      match input with
      | JObj v =>
          let? _ := assoc (txt "abi") v in
          let? _ := assoc (txt "data") v in
          match encode_inputdata input with
          | Ok (JObj d) => assoc (txt "data") d
          | _ => None
          end
      | _ => None
      end
  | _ => None
  end.
(** subcmd_tx.rs:79-85 update_key *)
Definition update_key (object : json) (key : string) : option json :=
  let? v := encode_input object key in
  match object with
  | JObj fields => Some (JObj (map_insert (txt key) v fields))
  | _ => None
  end.
(** subcmd_tx.rs:66-77 encode_inputs, after the parsing *)
Fixpoint encode_inputs (object : json) (keys : list string) : option json :=
  match object with
  | JObj _ =>
      match keys with
      | [] => Some object
      | k :: keys => let? object := update_key object k in encode_inputs object keys
      end
  | _ => None
  end.
(** subcmd_tx.rs:56-64 encode_spawn, encode_call: any error aborts *)
Inductive tx_type := TxSpawn | TxCall.
Definition encode_tx (ty : tx_type) (object : json) : option bytes :=
  match ty with
  | TxSpawn =>
      let? object := encode_inputs object ["calldata"] in
      match encode_spawn object with Ok bs => Some bs | _ => None end
  | TxCall =>
      let? object := encode_inputs object ["verifydata"; "calldata"] in
      match encode_call_raw object with Ok bs => Some bs | _ => None end
  end.
(** subcmd_tx.rs:40-54 subcmd_tx *)
Definition subcmd_tx (parse_json : bytes -> option json) (disk_ : disk) (ty : tx_type) (input output : bytes) (fs : files)
  : outcome cli_error unit * files :=
  match fs input with
  | None => (Err EIo, fs)
  | Some text =>
      if utf8_valid text then
        match (let? object := parse_json text in encode_tx ty object) with
        | None => (Panic, fs)
        | Some bs =>
            match disk_ with
            | DRefused => (Err EIo, fs)
            | DCut n => (Err EIo, put_file fs output (firstn n bs))
            | DWritten => (Ok tt, put_file fs output bs)
            end
        end
      else (Err EIo, fs)
  end.

(* ------------------------------------------------------------------------- *)
(** * subcmd_validate.rs *)

(** gas/src/pricing/resolvers/example.rs [ExampleResolver].  An import without a price aborts;
    here it has a price that no sum of prices can contain, which aborts as well. *)
Definition no_price : N := u64_max + 1.
Fixpoint example_import (name : bytes) (l : list (bytes * N)) : N :=
  match l with
  | [] => no_price
  | (n, p) :: r => if bytes_eqb n name then p else example_import name r
  end.
Definition example_resolver : resolver :=
  mkResolver (fun _ => 1)
    (fun im => if bytes_eqb (fst im) (txt "svm") then
       example_import (snd im)
         [(txt "svm_static_alloc", 100); (txt "svm_calldata_offset", 10); (txt "svm_calldata_len", 10);
          (txt "svm_set_returndata", 20); (txt "svm_get32", 100); (txt "svm_set32", 1000000);
          (txt "svm_get64", 200); (txt "svm_set64", 2000000); (txt "svm_load160", 500);
          (txt "svm_store160", 5000000); (txt "svm_log", 3000)]
     else no_price).

(** gas/src/pricing/func_price.rs:37-51: the lines that are printed, from the least to the
    greatest index.  Aborts when there is no function, or one between them has no price. *)
Fixpoint min_key (fp : func_price) : option N :=
  match fp with
  | [] => None
  | (k, _) :: fp => match min_key fp with Some m => Some (N.min k m) | None => Some k end
  end.
Fixpoint max_key (fp : func_price) : option N :=
  match fp with
  | [] => None
  | (k, _) :: fp => match max_key fp with Some m => Some (N.max k m) | None => Some k end
  end.
Fixpoint price_lines (fp : func_price) (i : N) (count : nat) : option (list (N * N)) :=
  match count with
  | O => Some []
  | S count =>
      let? price := ProgramModel.assoc i fp in
      let? l := price_lines fp (i + 1) count in
      Some ((i, price) :: l)
  end.
Definition show_prices (fp : func_price) : option (list (N * N)) :=
  let? lo := min_key fp in
  let? hi := max_key fp in
  price_lines fp lo (N.to_nat (hi + 1 - lo)).

(** What the tool prints. *)
Inductive line := LNotUtf8 | LValid | LRefused (e : program_error) | LPrices (l : list (N * N)).
(** [str::ends_with] *)
Definition ends_with (s suffix : bytes) : bool :=
  if nlen suffix <=? nlen s then bytes_eqb (skipn (length s - length suffix) s) suffix else false.
(** subcmd_validate.rs:27-58 subcmd_validate; program/src/program.rs:75-79 from_wat *)
Definition report (res : outcome program_error program) : list line * outcome cli_error unit :=
  match res with
  | Panic => ([], Panic)
  | Err e => ([LRefused e], Ok tt)
  | Ok p =>
      match (let? fp := price_program p example_resolver in show_prices fp) with
      | None => ([LValid], Panic)
      | Some l => ([LValid; LPrices l], Ok tt)
      end
  end.
Definition from_wat (parse_wat : bytes -> option bytes) (parse : bytes -> option wmodule) (text : bytes) (validate_exports : bool)
  : outcome program_error program :=
  match parse_wat text with
  | None => Err InvalidWasm
  | Some wasm => program_new (parse wasm) validate_exports
  end.
Definition subcmd_validate (parse_wat : bytes -> option bytes) (parse : bytes -> option wmodule) (path : bytes) (fs : files)
  : list line * outcome cli_error unit :=
  match fs path with
  | None => ([], Err EIo)
  | Some content =>
      if ends_with path (txt ".wat") || ends_with path (txt ".wast") then
        if utf8_valid content then report (from_wat parse_wat parse content false) else ([LNotUtf8], Err EInvalidUtf8)
      else if ends_with path (txt ".wasm") then report (program_new (parse content) false)
      else ([], Err EUnknownExtension)
  end.
