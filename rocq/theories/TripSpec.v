(** A call as a client that only speaks JSON sees it: a document goes in, the document of the
    receipt comes out. *)
From Coq Require Import String List NArith ZArith Bool.
From Verif Require Import Base Text AbiModel AbiSpec CodecModel CodecSpec ReceiptModel SectionModel StorageModel GlobalModel RuntimeModel JsonModel JsonSpec.
Import ListNotations.
Open Scope list_scope.
Open Scope N_scope.

(** The document asks for the function [name] of the account [target] with the arguments
    [args] of the types [ts], which it gives as types and values; names and inputs have the
    sizes that a transaction can carry. *)
Definition call_document (j : json) (target name : bytes) (ts : list pty) (args : list primitive) : Prop :=
  (exists version, field "version" j (JNum (Z.of_N version)) /\ version < 65536)
  /\ (exists s, field "target" j (JStr s) /\ spelled s target /\ length target = 20%nat)
  /\ field "func_name" j (JStr name) /\ string_wf 255 name
  /\ (exists v verifydata, field "verifydata" j v /\ arg_bytes v verifydata /\ nlen verifydata <= 255)
  /\ (exists c ds, field "calldata" j c /\ input_fields c (map TPrim ts) ds
      /\ length ts = length ds /\ zip_reads (map TPrim ts) ds (map VPrim args)
      /\ nlen (flat_map prim_format args) <= 255).

(** Returned types whose values can be shown: primitives, and arrays that are neither empty nor
    of eight elements. *)
Definition presentable (t : aty) : Prop :=
  match t with
  | YPrim _ => True
  | YArray _ n => n <> 0 /\ n <> 8
  | YUnit | YOption _ => False
  end.
(** The document of returned values: their types, and the values. *)
Definition show_type (t : aty) : json :=
  match t with
  | YPrim t => JStr (type_name t)
  | YArray t _ => JArr [JStr (type_name t)]
  | YUnit | YOption _ => JNull
  end.
Definition show_rust (v : rust) : json :=
  match v with
  | RPrim p => show_prim p
  | RArray l => JArr (map show_prim l)
  | RUnit | ROption _ => JNull
  end.
Definition values_doc (ts : list aty) (vs : list rust) : json :=
  JObj [(txt "abi", JArr (map show_type ts)); (txt "data", JArr (map show_rust vs))].

(** ** Spawns *)
(** The document asks for an account called [name] of the template [template], to be made by the
    constructor [ctor] from the arguments [args] of the types [ts]. *)
Definition spawn_document (j : json) (template name ctor : bytes) (ts : list pty) (args : list primitive) : Prop :=
  (exists version, field "version" j (JNum (Z.of_N version)) /\ version < 65536)
  /\ (exists s, field "template" j (JStr s) /\ spelled s template /\ length template = 20%nat)
  /\ field "name" j (JStr name) /\ string_wf 255 name
  /\ field "ctor_name" j (JStr ctor) /\ string_wf 255 ctor
  /\ (exists c ds, field "calldata" j c /\ input_fields c (map TPrim ts) ds
      /\ length ts = length ds /\ zip_reads (map TPrim ts) ds (map VPrim args)
      /\ nlen (flat_map prim_format args) <= 255).
(** The wasm code of the template [t]. *)
Definition template_code (e : env) (g : gstate) (t bs : bytes) : Prop :=
  exists l c, fst (template_sections e t g) = Ok l /\ code_of l = Some c /\ cs_code c = bs.
